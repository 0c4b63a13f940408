(** Lemmas about unit parsing and conversion. *)
From Coq Require Import String Ascii List Bool Arith ZArith QArith Qreals Reals Lia Lra.
From Verif Require Import DatabaseModel DatabaseSpec DatabaseProofs EquationModel UnitsModel UnitsSpec.
Import ListNotations.
Open Scope list_scope.
Open Scope R_scope.

(** *** the parser inverts the printer *)
Fixpoint tree_of (e : ux) : tree :=
  match e with
  | UA s => Leaf s
  | UMul l r => Op "*" (tree_of l) (tree_of r)
  | UDiv l r => Op "/" (tree_of l) (tree_of r)
  | UPar e => tree_of e
  end.
Lemma plain_facts : forall c, plain c = true -> ceq c "*" = false /\ ceq c "/" = false /\ ceq c "(" = false /\ ceq c ")" = false.
Proof. intros c H. unfold plain in H. apply negb_true_iff in H. rewrite !orb_false_iff in H. tauto. Qed.
Lemma text_nonempty : forall e, ux_ok e -> ux_text e <> [].
Proof.
  intros e H. destruct e as [s|l r|l r|e]; cbn in *; [tauto| | |discriminate]; intros Q; apply app_eq_nil in Q; destruct Q; discriminate.
Qed.
Lemma paren_atom : forall r q acc L, (forall c, In c r -> plain c = true) -> (0 <= L)%Z ->
  match_paren L (r ++ q) acc = match_paren L q (rev r ++ acc).
Proof.
  induction r as [|c r IH]; intros q acc L Hp HL; [reflexivity|]. cbn [app match_paren rev].
  destruct (plain_facts c (Hp c (or_introl eq_refl))) as (_ & _ & -> & ->). cbn [andb].
  rewrite IH; [now rewrite <- app_assoc|intros x Hx; apply Hp; now right|exact HL].
Qed.
Lemma paren_balanced : forall e, ux_ok e -> forall q acc L, (0 <= L)%Z ->
  match_paren L (rev (ux_text e) ++ q) acc = match_paren L q (ux_text e ++ acc).
Proof.
  induction e as [s|l IHl r IHr|l IHl r IHr|e IH]; cbn [ux_ok ux_text]; intros H q acc L HL.
  - rewrite paren_atom; [now rewrite rev_involutive| |exact HL]. intros c Hc. apply H. now apply in_rev.
  - destruct H as (Hl & Hr & _). rewrite rev_app_distr. cbn [rev]. rewrite <- !app_assoc, IHr by assumption. cbn [app match_paren ceq Ascii.eqb Bool.eqb andb].
    rewrite IHl by assumption. reflexivity.
  - destruct H as (Hl & Hr & _). rewrite rev_app_distr. cbn [rev]. rewrite <- !app_assoc, IHr by assumption. cbn [app match_paren ceq Ascii.eqb Bool.eqb andb].
    rewrite IHl by assumption. reflexivity.
  - cbn [rev]. rewrite rev_app_distr. cbn [rev app match_paren]. change (ceq ")" ")") with true. change (ceq ")" "(") with false. cbn [andb].
    rewrite <- app_assoc, IH by (assumption || lia). cbn [app match_paren]. change (ceq "(" ")") with false. change (ceq "(" "(") with true. cbn [andb].
    destruct (Z.eqb_spec (L + 1 - 1) (-1)); [lia|]. replace (L + 1 - 1)%Z with L by lia. now rewrite <- app_assoc.
Qed.
Lemma split_plain : forall r q acc, (forall c, In c r -> plain c = true) -> split_op (r ++ q) acc = split_op q (rev r ++ acc).
Proof.
  induction r as [|c r IH]; intros q acc Hp; [reflexivity|]. cbn [app split_op rev].
  destruct (plain_facts c (Hp c (or_introl eq_refl))) as (-> & -> & _ & _). cbn [orb].
  rewrite IH; [now rewrite <- app_assoc|intros x Hx; apply Hp; now right].
Qed.
Lemma rev_plain : forall s, (forall c, In c s -> plain c = true) -> forall c, In c (rev s) -> plain c = true.
Proof. intros s H c Hc. apply H. now apply in_rev. Qed.
Lemma parse_atom_last : forall n s op q, s <> [] -> (forall c, In c s -> plain c = true) -> q <> [] -> op = "*"%char \/ op = "/"%char ->
  parseR (S n) (rev s ++ op :: q) = ubind (parseR n q) (fun l => UOk (Op op l (Leaf s))).
Proof.
  intros n s op q Hs Hp Hq Hop. pose proof (split_plain (rev s) (op :: q) [] (rev_plain s Hp)) as Hsp.
  rewrite rev_involutive, app_nil_r in Hsp.
  destruct (rev s) as [|c r] eqn:Er; [apply (f_equal (@rev ascii)) in Er; rewrite rev_involutive in Er; contradiction|].
  assert (Hc : ceq c ")" = false). { apply (plain_facts c). apply Hp. apply in_rev. rewrite Er. now left. }
  cbn [app] in *. cbn [parseR]. rewrite Hc, Hsp. cbn [split_op].
  assert (Ho : ceq op "*" || ceq op "/" = true) by (destruct Hop as [-> | ->]; reflexivity). rewrite Ho.
  destruct q; [contradiction|reflexivity].
Qed.
Lemma parse_par_last : forall n e op q, ux_ok e ->
  parseR (S n) (rev (ux_text (UPar e)) ++ op :: q) =
  ubind (parseR n q) (fun l => ubind (parseR n (rev (ux_text e))) (fun t => UOk (Op op l t))).
Proof.
  intros n e op q He. cbn [ux_text rev]. rewrite rev_app_distr. cbn [rev app]. rewrite <- app_assoc. cbn [app parseR].
  change (ceq ")" ")") with true. cbn beta iota. rewrite (paren_balanced e He) by lia. cbn [match_paren].
  change (ceq "(" ")") with false. change (ceq "(" "(") with true. cbn [andb]. change (0 - 1 =? -1)%Z with true. cbn beta iota.
  now rewrite app_nil_r.
Qed.
Lemma rev_nonempty : forall (s : text), s <> [] -> rev s <> [].
Proof. intros s H Q. apply H. rewrite <- (rev_involutive s), Q. reflexivity. Qed.
Lemma parse_tree_aux : forall k e, (length (ux_text e) < k)%nat -> ux_ok e ->
  forall n, (length (ux_text e) < n)%nat -> parseR n (rev (ux_text e)) = UOk (tree_of e).
Proof.
  induction k as [|k IH]; intros e Hk He n Hn; [lia|].
  assert (bin : forall l op r, (length (ux_text l ++ op :: ux_text r) <= k)%nat -> (length (ux_text l ++ op :: ux_text r) < n)%nat ->
     ux_ok l -> ux_ok r -> primary r -> op = "*"%char \/ op = "/"%char ->
     parseR n (rev (ux_text l ++ op :: ux_text r)) = UOk (Op op (tree_of l) (tree_of r))).
  { intros l op r Hk' Hn' Hl Hr Hp Hop. rewrite app_length in Hk', Hn'. cbn [length] in Hk', Hn'.
    rewrite rev_app_distr. cbn [rev]. rewrite <- app_assoc. cbn [app]. destruct n as [|n]; [lia|].
    destruct r as [s| | |e']; try contradiction.
    - cbn in Hr. rewrite parse_atom_last; [|tauto|tauto|apply rev_nonempty, text_nonempty; exact Hl|exact Hop].
      rewrite IH; [reflexivity|lia|exact Hl|lia].
    - rewrite parse_par_last by exact Hr. cbn [ux_text length] in Hk', Hn'. rewrite app_length in Hk', Hn'. cbn [length] in Hk', Hn'.
      rewrite IH; [|lia|exact Hl|lia]. cbn [ubind]. rewrite IH; [reflexivity|lia|exact Hr|lia]. }
  destruct e as [s|l r|l r|e].
  - cbn in He, Hn. destruct He as [Hs Hp]. destruct n as [|n]; [lia|].
    pose proof (split_plain (rev s) [] [] (rev_plain s Hp)) as Hsp. rewrite !app_nil_r, rev_involutive in Hsp. cbn [split_op] in Hsp.
    cbn [ux_text tree_of]. pose proof (rev_nonempty s Hs) as Hne.
    destruct (rev s) as [|c r] eqn:Er; [contradiction|].
    assert (Hc : ceq c ")" = false). { apply (plain_facts c). apply Hp. apply in_rev. rewrite Er. now left. }
    cbn [parseR]. rewrite Hc, Hsp, <- Er, rev_involutive. reflexivity.
  - cbn [ux_ok] in He. cbn [ux_text] in Hk, Hn |- *. cbn [tree_of]. apply bin; try tauto; lia.
  - cbn [ux_ok] in He. cbn [ux_text] in Hk, Hn |- *. cbn [tree_of]. apply bin; try tauto; lia.
  - cbn [ux_ok] in He. cbn [ux_text length] in Hk, Hn. rewrite app_length in Hk, Hn. cbn [length] in Hk, Hn.
    destruct n as [|n]; [lia|]. cbn [ux_text rev]. rewrite rev_app_distr. cbn [rev app parseR].
    change (ceq ")" ")") with true. cbn beta iota. rewrite (paren_balanced e He) by lia. cbn [match_paren].
    change (ceq "(" ")") with false. change (ceq "(" "(") with true. cbn [andb]. change (0 - 1 =? -1)%Z with true. cbn beta iota.
    rewrite app_nil_r. cbn [tree_of]. apply IH; [lia|exact He|lia].
Qed.
Fixpoint signed (e : ux) (sg : Z) : list (string * Z) :=
  match e with
  | UA s => [(name s, sg)]
  | UMul l r => signed l sg ++ signed r sg
  | UDiv l r => signed l sg ++ signed r (- sg)
  | UPar e => signed e sg
  end.
Lemma flatten_tree : forall e sg, flatten (tree_of e) sg = UOk (signed e sg).
Proof.
  induction e as [s|l IHl r IHr|l IHl r IHr|e IH]; intros sg; cbn [tree_of flatten signed].
  - reflexivity.
  - change (ceq "*" "*") with true. cbn beta iota. now rewrite IHl, IHr.
  - change (ceq "/" "*") with false. change (ceq "/" "/") with true. cbn beta iota. now rewrite IHl, IHr.
  - apply IH.
Qed.
Lemma parse_ux : forall e, ux_ok e -> parseUnit (ux_text e) = UOk (signed e 1).
Proof.
  intros e He. unfold parseUnit. rewrite (parse_tree_aux (S (length (ux_text e))) e) by (lia || assumption).
  cbn [ubind]. apply flatten_tree.
Qed.

(** *** the table *)
Fixpoint well (n : nat) (s : string) : bool :=
  match n with
  | O => false
  | S k => is_temp s || match look s derivedUnits with
             | Some (u :: us) => if String.eqb (u_symbol u) s then Z.eqb (u_pow2 u) 2 && (0 <? Qnum (u_factor u))%Z
                                 else forallb (fun w => well k (u_symbol w) && (0 <? Qnum (u_factor w))%Z) (u :: us)
             | _ => false end
  end.

Lemma table_well : forallb (fun p => well fuel (fst p)) derivedUnits = true.
Proof. vm_compute. reflexivity. Qed.
Lemma look_in : forall A k (l : list (string * A)) v, look k l = Some v -> In (k, v) l.
Proof.
  intros A k l v. induction l as [|[k' v'] l IH]; cbn; [discriminate|]. destruct (String.eqb_spec k k') as [->|_].
  - intros E. inversion E. now left.
  - intros E. right. auto.
Qed.
Definition valid (s : string) : Prop := is_temp s = true \/ exists us, look s derivedUnits = Some us.
Lemma valid_well : forall s, valid s -> well fuel s = true.
Proof.
  intros s [H|[us H]].
  - unfold fuel. cbn [well]. now rewrite H.
  - apply look_in in H. pose proof table_well as T. rewrite forallb_forall in T. exact (T (s, us) H).
Qed.
Lemma Q2R_pos : forall q, (0 <? Qnum q)%Z = true -> 0 < Q2R q.
Proof. intros q H. apply Z.ltb_lt in H. rewrite <- RMicromega.Q2R_0. apply Qlt_Rlt. unfold Qlt. cbn. lia. Qed.
Lemma powh_pos : forall x p, 0 < powh x p. Proof. intros. apply exp_pos. Qed.
Lemma factor_ok : forall n s, well n s = true -> exists f, factorS n s = UOk f /\ 0 < f.
Proof.
  induction n as [|n IH]; intros s H; [discriminate|]. cbn [well] in H. cbn [factorS]. destruct (is_temp s); [exists 1; split; [reflexivity|lra]|].
  cbn [orb] in H. destruct (look s derivedUnits) as [[|u us]|]; try discriminate.
  destruct (String.eqb (u_symbol u) s); [eexists; split; [reflexivity|apply powh_pos]|].
  assert (G : forall l r, 0 < r -> forallb (fun w => well n (u_symbol w) && (0 <? Qnum (u_factor w))%Z) l = true -> exists f,
    fold_left (fun acc w => ubind acc (fun res => ubind (factorS n (u_symbol w)) (fun f => UOk (res * (Q2R (u_factor w) * powh f (u_pow2 w)))))) l (UOk r) = UOk f /\ 0 < f).
  { induction l as [|w l IHl]; intros r Hr Hl; [exists r; split; [reflexivity|exact Hr]|]. cbn [forallb] in Hl. apply andb_true_iff in Hl. destruct Hl as [Hw Hl].
    apply andb_true_iff in Hw. destruct Hw as [Hw Hq]. destruct (IH _ Hw) as (f & Ef & Hf). cbn [fold_left]. rewrite Ef. cbn [ubind]. apply IHl; [|exact Hl].
    apply Rmult_lt_0_compat; [exact Hr|]. apply Rmult_lt_0_compat; [now apply Q2R_pos|apply powh_pos]. }
  apply G; [lra|exact H].
Qed.
Definition fac (s : string) : R := match factorS fuel s with UOk f => f | _ => 1 end.
Lemma fac_valid : forall s, valid s -> factorS fuel s = UOk (fac s) /\ 0 < fac s.
Proof. intros s H. unfold fac. destruct (factor_ok fuel s (valid_well s H)) as (f & -> & Hf). split; [reflexivity|exact Hf]. Qed.
Lemma invalid : forall s, ~ valid s -> factorS fuel s = UThrow /\ forall mp res, dimS fuel s mp res = UThrow.
Proof.
  intros s H. unfold fuel. cbn [factorS dimS]. destruct (is_temp s) eqn:E; [exfalso; apply H; now left|].
  destruct (look s derivedUnits) as [us|] eqn:L; [exfalso; apply H; right; eauto|]. split; reflexivity.
Qed.
Lemma valid_dec : forall s, valid s \/ ~ valid s.
Proof.
  intros s. destruct (is_temp s) eqn:E; [left; now left|]. destruct (look s derivedUnits) as [us|] eqn:L; [left; right; eauto|].
  right. intros [H|[us H]]; congruence.
Qed.

(** *** dimensions *)
Fixpoint D (n : nat) (s : string) (mp : Z) (b : string) : Z :=
  match n with
  | O => 0
  | S k => if is_temp s then (if String.eqb s b then mp else 0)
           else match look s derivedUnits with
           | Some (u :: us) => if String.eqb (u_symbol u) s then (if String.eqb s b then mp else 0)
               else fold_right (fun w a => D k (u_symbol w) (Z.quot (u_pow2 w * mp) 2) b + a)%Z 0%Z (u :: us)
           | _ => 0
           end
  end%Z.
Lemma D_opp : forall n s mp b, D n s (- mp) b = (- D n s mp b)%Z.
Proof.
  induction n as [|n IH]; intros s mp b; [reflexivity|]. cbn [D]. destruct (is_temp s); [destruct (String.eqb s b); reflexivity|].
  destruct (look s derivedUnits) as [[|u us]|]; try reflexivity.
  destruct (String.eqb (u_symbol u) s); [destruct (String.eqb s b); reflexivity|].
  generalize (u :: us). intros l. induction l as [|w l IHl]; cbn [fold_right]; [reflexivity|].
  rewrite IHl, Z.mul_opp_r, Z.quot_opp_l by lia. rewrite IH. lia.
Qed.
Lemma at0_set : forall s z m b, sorted m -> at0 b (mset s z m) = if String.eqb s b then z else at0 b m.
Proof.
  intros s z m b Hm. unfold at0. rewrite find_set by exact Hm. unfold aset. rewrite String.eqb_sym.
  destruct (String.eqb s b); reflexivity.
Qed.
Lemma dimS_D : forall n s mp, well n s = true -> forall res, sorted res ->
  exists res', dimS n s mp res = UOk res' /\ sorted res' /\ forall b, at0 b res' = (at0 b res + D n s mp b)%Z.
Proof.
  induction n as [|n IH]; intros s mp H res Hr; [discriminate|]. cbn [well] in H. cbn [dimS D]. destruct (is_temp s).
  - eexists. split; [reflexivity|]. split; [now apply sorted_set|]. intros b. rewrite at0_set by exact Hr. destruct (String.eqb_spec s b) as [->|_]; lia.
  - cbn [orb] in H. destruct (look s derivedUnits) as [[|u us]|]; try discriminate. destruct (String.eqb_spec (u_symbol u) s) as [E|_].
    + eexists. split; [reflexivity|]. split; [now apply sorted_set|]. intros b. rewrite at0_set by exact Hr. destruct (String.eqb_spec s b) as [->|_]; [|lia].
      apply andb_true_iff in H. destruct H as [Hp _]. apply Z.eqb_eq in Hp. rewrite Hp.
      replace (2 * at0 b res + 2 * mp)%Z with ((at0 b res + mp) * 2)%Z by lia. apply Z.quot_mul. lia.
    + revert H res Hr. generalize (u :: us). induction l as [|w l IHl]; intros H res Hr.
      * exists res. cbn. split; [reflexivity|]. split; [exact Hr|]. intros; lia.
      * cbn [forallb] in H. apply andb_true_iff in H. destruct H as [Hw Hl]. apply andb_true_iff in Hw. destruct Hw as [Hw _].
        destruct (IH (u_symbol w) (Z.quot (u_pow2 w * mp) 2) Hw res Hr) as (r1 & E1 & S1 & A1).
        destruct (IHl Hl r1 S1) as (r2 & E2 & S2 & A2). exists r2. cbn [fold_left]. cbn [ubind]. rewrite E1. split; [exact E2|]. split; [exact S2|].
        intros b. rewrite A2, A1. cbn [fold_right]. lia.
Qed.
Definition dimof (s b : string) : Z := D fuel s 1 b.
Definition sumdim (d : list (string * Z)) (b : string) : Z := fold_right (fun p a => D fuel (fst p) (snd p) b + a)%Z 0%Z d.
Lemma dimD_spec : forall d, (forall p, In p d -> valid (fst p)) -> forall res, sorted res ->
  exists res', dimD d res = UOk res' /\ sorted res' /\ forall b, at0 b res' = (at0 b res + sumdim d b)%Z.
Proof.
  induction d as [|[s sg] d IH]; intros H res Hr.
  - exists res. cbn. split; [reflexivity|]. split; [exact Hr|]. intros; lia.
  - destruct (dimS_D fuel s sg (valid_well s (H (s, sg) (or_introl eq_refl))) res Hr) as (r1 & E1 & S1 & A1).
    destruct (IH (fun p Hp => H p (or_intror Hp)) r1 S1) as (r2 & E2 & S2 & A2).
    exists r2. cbn [dimD]. rewrite E1. cbn [ubind]. split; [exact E2|]. split; [exact S2|]. intros b. rewrite A2, A1. cbn [sumdim fold_right fst snd].
    fold (sumdim d b). lia.
Qed.
Lemma dimD_throw : forall d s sg, In (s, sg) d -> ~ valid s -> forall res, sorted res -> dimD d res = UThrow.
Proof.
  induction d as [|[s' sg'] d IH]; intros s sg Hi Hv res Hr; [contradiction|]. cbn [dimD]. destruct Hi as [E|Hi].
  - inversion E; subst. destruct (invalid s Hv) as [_ ->]. reflexivity.
  - destruct (valid_dec s') as [V|V].
    + destruct (dimS_D fuel s' sg' (valid_well s' V) res Hr) as (r1 & E1 & S1 & A1). rewrite E1. cbn [ubind]. exact (IH s sg Hi Hv r1 S1).
    + destruct (invalid s' V) as [_ ->]. reflexivity.
Qed.
Lemma all_valid_dec : forall (d : list (string * Z)), (forall p, In p d -> valid (fst p)) \/ exists s sg, In (s, sg) d /\ ~ valid s.
Proof.
  induction d as [|[s sg] d IH]; [left; intros p []|]. destruct (valid_dec s) as [V|V].
  - destruct IH as [IH|(s' & sg' & Hi & Hn)].
    + left. intros p [<-|Hp]; [exact V|auto].
    + right. exists s', sg'. split; [now right|exact Hn].
  - right. exists s, sg. split; [now left|exact V].
Qed.
Definition nz (kv : string * Z) : bool := negb (Z.eqb (snd kv) 0).
Lemma below_filter : forall k (m : smap Z), below k m -> below k (filter nz m).
Proof. intros k m. unfold below. intros H. apply Forall_forall. intros x Hx. apply filter_In in Hx. rewrite Forall_forall in H. now apply H. Qed.
Lemma sorted_filter : forall m : smap Z, sorted m -> sorted (filter nz m).
Proof.
  intros m H. induction H as [|k v m Hb Hs IH]; [constructor|]. cbn [filter]. destruct (nz (k, v)); [|exact IH]. constructor; [now apply below_filter|exact IH].
Qed.
Lemma find_filter : forall m b, sorted m -> mfind b (filter nz m) = if Z.eqb (at0 b m) 0 then None else Some (at0 b m).
Proof.
  intros m b Hm. destruct (mfind b (filter nz m)) as [z|] eqn:E.
  - apply find_in in E; [|now apply sorted_filter]. apply filter_In in E. destruct E as [Hi Hz]. apply find_in in Hi; [|exact Hm].
    unfold at0. rewrite Hi. unfold nz in Hz. cbn in Hz. apply negb_true_iff in Hz. now rewrite Hz.
  - destruct (Z.eqb_spec (at0 b m) 0) as [_|Hn]; [reflexivity|]. exfalso. unfold at0 in Hn. destruct (mfind b m) as [z|] eqn:F; [|lia].
    apply find_in in F; [|exact Hm]. assert (G : In (b, z) (filter nz m)).
    { apply filter_In. split; [exact F|]. unfold nz. cbn. apply negb_true_iff. now apply Z.eqb_neq. }
    apply find_in in G; [|now apply sorted_filter]. congruence.
Qed.
Lemma sm_eqb_eq : forall a b, sm_eqb a b = true <-> a = b.
Proof.
  induction a as [|[k v] a IH]; intros [|[k' v'] b].
  - split; reflexivity.
  - split; discriminate.
  - split; discriminate.
  - change (sm_eqb ((k, v) :: a) ((k', v') :: b)) with (String.eqb k k' && Z.eqb v v' && sm_eqb a b).
    rewrite !andb_true_iff, String.eqb_eq, Z.eqb_eq, IH. split; [intros [[-> ->] ->]; reflexivity|].
    intros E. inversion E. auto.
Qed.
Lemma dimension_spec : forall d, (forall p, In p d -> valid (fst p)) -> exists m, dimension d = UOk m /\ sorted m /\ forall b, at0 b m = sumdim d b.
Proof.
  intros d H. unfold dimension. destruct (dimD_spec d H [] so_nil) as (r & -> & S1 & A1). cbn [ubind]. eexists. split; [reflexivity|].
  split; [now apply sorted_filter|]. intros b. unfold at0 at 1. fold nz. rewrite find_filter by exact S1. specialize (A1 b). cbn in A1.
  destruct (Z.eqb_spec (at0 b r) 0); lia.
Qed.
