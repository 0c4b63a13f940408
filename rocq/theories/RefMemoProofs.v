From Coq Require Import List Bool Arith.
Import ListNotations.
From Verif Require Import RefMemoModel.

Section P.
Context {D Sy V : Type}.
Variable Deq : forall a b : D, {a = b} + {a <> b}.
Variable Seq : forall a b : Sy, {a = b} + {a <> b}.
Variable g : D -> D -> Sy -> V.
Variable wb : D -> D -> D.
Variable zero : D.
Hypothesis wb_nz : forall t p, p <> zero -> wb t p = p.

Notation step := (memo_step D Sy V Deq Seq g wb).
Notation mrun := (memo_run D Sy V Deq Seq g wb).
Notation prun := (plain_run D Sy V g wb).
Notation State := (st D Sy V).

Definition no_free (o : op D Sy) : Prop := match o with Free _ => False | _ => True end.

(** every stored reference is alive, every stored result is the one for its key *)
Definition good (s : State) : Prop :=
  forall k v, In (k, v) (scache s) ->
    smem s (kRef _ _ k) <> None /\ v = g (kT _ _ k) (kP _ _ k) (kSym _ _ k).

Lemma rfind_good s probe : good s -> smem s (kRef _ _ probe) <> None ->
  exists r, rfind D Sy V Deq Seq (smem s) probe (scache s) = Ok r /\
    (forall v, r = Some v -> v = g (kT _ _ probe) (kP _ _ probe) (kSym _ _ probe)).
Proof.
  unfold good. generalize (scache s) as c. induction c as [|[k v] c IH]; intros Hg Hp; cbn.
  - eexists. split; eauto. discriminate.
  - destruct (IH (fun k' v' Hi => Hg k' v' (or_intror Hi)) Hp) as [r [Hr Hv]].
    destruct (Hg k v (or_introl eq_refl)) as [Hl Heq]. unfold key_eq.
    destruct (Deq _ _) as [E1|E1]; [|eauto].
    destruct (Deq (kP _ _ k) _) as [E2|E2]; [|eauto].
    destruct (smem s (kRef _ _ k)); [|congruence].
    destruct (smem s (kRef _ _ probe)); [|congruence].
    destruct (Deq d d0); [|eauto]. destruct (Seq _ _) as [E4|E4]; [|eauto].
    eexists. split; eauto. intros v0 H. injection H as <-. rewrite Heq, E1, E2, E4. reflexivity.
Qed.

Lemma upd_alive (m : mem D) l v l' : m l' <> None -> upd D m l (Some v) l' <> None.
Proof. unfold upd. destruct (Nat.eqb l' l); congruence. Qed.

Lemma step_good s o : good s -> no_free o ->
  (forall T l sy, o = Call T l sy -> smem s l <> None) ->
  exists s' v, step s o = Ok (s', v) /\ good s' /\
    (forall l, smem s l <> None -> smem s' l <> None) /\
    (forall T l sy p, o = Call T l sy -> smem s l = Some p -> v = Some (g T p sy)).
Proof.
  intros Hg Hn Hl. destruct o as [l v|l|T l sy]; [|destruct Hn|].
  - cbn. eexists _, _. split; [reflexivity|]. split; [|split].
    + intros k v' Hi. cbn in *. destruct (Hg k v' Hi). split; auto. apply upd_alive; auto.
    + intros. apply upd_alive; auto.
    + discriminate.
  - specialize (Hl T l sy eq_refl). cbn. destruct (smem s l) as [p|] eqn:El; [|congruence].
    destruct (rfind_good s (mkKey T p l sy) Hg) as [r [Hr Hv]]; [cbn; congruence|].
    rewrite Hr. destruct r as [v|].
    + eexists _, _. split; [reflexivity|]. split; [|split]; auto.
      intros T0 l0 sy0 p0 E E0. injection E as <- <- <-. rewrite El in E0. injection E0 as <-.
      f_equal. apply Hv. reflexivity.
    + eexists _, _. split; [reflexivity|]. split; [|split].
      * intros k v [E|Hi]; cbn.
        -- injection E as <- <-. cbn. split; auto. apply upd_alive. congruence.
        -- destruct (Hg k v Hi). split; auto. apply upd_alive; auto.
      * intros. apply upd_alive; auto.
      * intros T0 l0 sy0 p0 E E0. injection E as <- <- <-. congruence.
Qed.

(** the results a history of calls must produce, given the pressures it reads *)
Fixpoint expected (s : State) (os : list (op D Sy)) : option (list (option V)) :=
  match os with
  | [] => Some []
  | o :: os' =>
      match step s o with
      | UB => None
      | Ok (s1, _) =>
          match expected s1 os' with
          | None => None
          | Some vs => Some ((match o with
                              | Call T l sy => match smem s l with Some p => Some (g T p sy) | None => None end
                              | _ => None end) :: vs)
          end
      end
  end.

Definition alive (m : mem D) (os : list (op D Sy)) : Prop :=
  forall T l sy, In (Call T l sy) os -> m l <> None.

Lemma memo_values s os : good s -> Forall no_free os -> alive (smem s) os ->
  exists s' vs, mrun s os = Ok (s', vs) /\ expected s os = Some vs.
Proof.
  revert s. induction os as [|o os IH]; intros s Hg Hf Ha; cbn.
  - eauto.
  - inversion Hf; subst.
    destruct (step_good s o Hg H1) as [s1 [v [Hs [Hg1 [Hal Hv]]]]].
    { intros T l sy E. apply (Ha T l sy). left. auto. }
    assert (Ha1 : alive (smem s1) os).
    { intros T l sy Hi. apply Hal. apply (Ha T l sy). right. auto. }
    rewrite Hs. destruct (IH s1 Hg1 H2 Ha1) as [s' [vs [E1 E2]]]. rewrite E1, E2.
    eexists _, _. split; [reflexivity|]. f_equal. f_equal.
    destruct o as [l v0|l|T l sy]; cbn in Hs.
    + injection Hs as _ <-. reflexivity.
    + destruct H1.
    + destruct (smem s l) eqn:El.
      * symmetry. eapply Hv; eauto.
      * discriminate.
Qed.

(** pressures read by the calls of the unmemoised run are non-zero *)
Fixpoint nonzero_calls (m : mem D) (os : list (op D Sy)) : Prop :=
  match os with
  | [] => True
  | o :: os' =>
      (match o with Call _ l _ => exists p, m l = Some p /\ p <> zero | _ => True end) /\
      match plain_step D Sy V g wb m o with
      | Ok (m1, _) => nonzero_calls m1 os'
      | UB => True
      end
  end.

Lemma upd_same (m : mem D) l p : m l = Some p -> forall l', upd D m l (Some p) l' = m l'.
Proof. intros H l'. unfold upd. destruct (Nat.eqb_spec l' l); subst; auto. Qed.

Definition same_mem (a b : mem D) : Prop := forall l, a l = b l.

Lemma plain_ext os : forall m m', same_mem m m' ->
  nonzero_calls m os -> nonzero_calls m' os.
Proof.
  induction os as [|o os IH]; intros m m' E; cbn; auto.
  intros [H1 H2]. split.
  - destruct o; auto. rewrite <- (E l). auto.
  - destruct o as [l v|l|T l sy]; cbn in *.
    + eapply IH; [|eauto]. intros l'. unfold upd. destruct (Nat.eqb l' l); auto.
    + eapply IH; [|eauto]. intros l'. unfold upd. destruct (Nat.eqb l' l); auto.
    + rewrite <- (E l). destruct (m l); auto. eapply IH; [|eauto].
      intros l'. unfold upd. destruct (Nat.eqb l' l); auto.
Qed.

Lemma memo_equiv os : forall s m, good s -> same_mem (smem s) m -> Forall no_free os ->
  nonzero_calls m os ->
  exists s' m' vs, mrun s os = Ok (s', vs) /\ prun m os = Ok (m', vs) /\ same_mem (smem s') m'.
Proof.
  induction os as [|o os IH]; intros s m Hg Hm Hf Hz.
  - exists s, m, []. cbn. auto.
  - inversion Hf; subst. cbn in Hz. destruct Hz as [Hz1 Hz2].
    destruct (step_good s o Hg H1) as [s1 [v [Hs [Hg1 [Hal Hv]]]]].
    { intros T l sy ->. destruct Hz1 as [p [E _]]. rewrite Hm, E. discriminate. }
    assert (exists m1, plain_step D Sy V g wb m o = Ok (m1, v) /\ same_mem (smem s1) m1) as [m1 [Hp Hm1]].
    { destruct o as [l v0|l|T l sy]; cbn in Hs |- *.
      - injection Hs as <- <-. eexists. split; [reflexivity|]. cbn.
        intros l'. unfold upd. destruct (Nat.eqb l' l); auto.
      - destruct H1.
      - destruct Hz1 as [p [E Hp]]. rewrite E. rewrite (Hv T l sy p eq_refl) by (rewrite Hm; auto).
        rewrite (wb_nz T p Hp). eexists. split; [reflexivity|].
        rewrite Hm, E in Hs. destruct (rfind _ _ _ _ _ _ _ _) as [[v1|]|]; try discriminate;
          injection Hs as <- _; intros l'; cbn.
        + rewrite (upd_same m l p E). apply Hm.
        + rewrite (wb_nz T p Hp). unfold upd. destruct (Nat.eqb l' l); auto. }
    rewrite Hp in Hz2.
    destruct (IH s1 m1 Hg1 Hm1 H2 Hz2) as [s' [m' [vs [E1 [E2 E3]]]]].
    exists s', m', (v :: vs). cbn. rewrite Hs, Hp, E1, E2. auto.
Qed.
End P.

(** ** witnesses *)
Definition ex_mem : mem nat := fun _ => None.
Definition ex_g (T p s : nat) : nat := T * 100 + p * 10 + s.
Definition ex_wb (T p : nat) : nat := if Nat.eqb p 0 then T else p.   (* P = 0: saturation value *)
Definition ex_st : st nat nat nat := mkSt ex_mem [].

(** a history in which the caller asks twice for saturation conditions *)
Definition ex_hist : list (op nat nat) := [Write 0 0; Call 7 0 1; Write 0 0; Call 7 0 1].
Lemma writeback_lost :
  (exists s, memo_run nat nat nat Nat.eq_dec Nat.eq_dec ex_g ex_wb ex_st ex_hist = Ok s /\ smem (fst s) 0 = Some 0) /\
  (exists m, plain_run nat nat nat ex_g ex_wb ex_mem ex_hist = Ok m /\ fst m 0 = Some 7).
Proof. split; eexists; split; reflexivity. Qed.

(** a history in which the first caller's variable is gone when the second call looks up *)
Definition ex_hist2 : list (op nat nat) :=
  [Write 0 5; Call 7 0 1; Free 0; Write 1 5; Call 7 1 1].
Lemma dangling_key :
  memo_run nat nat nat Nat.eq_dec Nat.eq_dec ex_g ex_wb ex_st ex_hist2 = UB /\
  exists m, plain_run nat nat nat ex_g ex_wb ex_mem ex_hist2 = Ok m.
Proof. split; [reflexivity|eexists; reflexivity]. Qed.

(** every reuse of a (T,P) pair after the first caller's variable died is undefined *)
Lemma dangling_always {D Sy V} (Deq : forall a b : D, {a = b} + {a <> b}) (Seq : forall a b : Sy, {a = b} + {a <> b})
  (g : D -> D -> Sy -> V) wb T p sy sy' l l' : l <> l' ->
  memo_run D Sy V Deq Seq g wb (mkSt (fun _ => None) [])
    [Write l p; Call T l sy; Free l; Write l' p; Call T l' sy'] = UB.
Proof.
  intros Hl. cbn. unfold upd at 1. rewrite Nat.eqb_refl. cbn. unfold upd at 1. rewrite Nat.eqb_refl.
  unfold key_eq. cbn. destruct (Deq T T); [|congruence]. destruct (Deq p p); [|congruence].
  unfold upd at 1. destruct (Nat.eqb_spec l l'); [contradiction|].
  unfold upd at 1. rewrite Nat.eqb_refl. reflexivity.
Qed.
