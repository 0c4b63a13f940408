(** Engines: what copies and assignments share.  Batches: what an output shows. *)
From Coq Require Import List Bool Arith String Lia.
From Verif Require Import AliasModel AliasProofs.
Import ListNotations.

Section Engines.
Context {Data Pref Key Val : Type}.
Variable keq : Key -> Key -> bool.
Variable calc : Data -> Pref -> Key -> comp Key Val.
Notation est := (est Data Pref Key Val).
Notation eop := (eop Data Pref Key).
Notation closure := (closure keq calc).
Notation direct := (direct keq calc).
Notation estep := (estep keq calc).
Notation erun := (erun keq calc).
Implicit Types (s : est) (a : nat).

(** ** calls change nothing but caches *)
Definition same_but_caches s s' : Prop := eh s' = eh s /\ en s' = en s /\ cn s' = cn s /\ ev s' = ev s /\ live s' = live s.
Lemma sbc_refl : forall s, same_but_caches s s. Proof. intro s. repeat split. Qed.
Lemma sbc_trans : forall s1 s2 s3, same_but_caches s1 s2 -> same_but_caches s2 s3 -> same_but_caches s1 s3.
Proof. intros s1 s2 s3 [A [B [C [D E]]]] [A' [B' [C' [D' E']]]]. repeat split; congruence. Qed.
Lemma exec_sbc : forall (f : nat -> Key -> est -> outc Val * est), (forall a k s, same_but_caches s (snd (f a k s))) ->
  forall c a s, same_but_caches s (snd (exec f a c s)).
Proof.
  intros f Hf c. induction c as [v|k c IH]; intros a s; [apply sbc_refl|]. cbn. assert (Q := Hf a k s). destruct (f a k s) as [[v| |] s1]; cbn in *; try exact Q.
  apply sbc_trans with s1; [exact Q|apply IH].
Qed.
Lemma closure_sbc : forall n a k s, same_but_caches s (snd (closure n a k s)).
Proof.
  induction n as [|n IH]; intros a k s; cbn; destruct (look keq k (ca s (e_cache (eh s a)))); try apply sbc_refl.
  destruct (alive s (e_this (eh s a))); [|apply sbc_refl].
  assert (Q := exec_sbc (closure n) IH (calc (e_data (eh s (e_this (eh s a)))) (e_pref (eh s (e_this (eh s a)))) k) (e_this (eh s a)) s).
  destruct (exec (closure n) (e_this (eh s a)) (calc (e_data (eh s (e_this (eh s a)))) (e_pref (eh s (e_this (eh s a)))) k) s) as [[v| |] s1]; cbn in *; exact Q.
Qed.
Lemma direct_sbc : forall n a k s, same_but_caches s (snd (direct n a k s)).
Proof. intros n a k s. unfold AliasModel.direct. apply exec_sbc. apply closure_sbc. Qed.

(** ** engines that were never copied nor assigned *)
(** the cell of an engine of its own: its closures run on itself *)
Definition agree a s s' : Prop :=
  eh s' a = eh s a /\ e_this (eh s a) = a /\ ca s' (e_cache (eh s a)) = ca s (e_cache (eh s a)) /\ alive s' a = alive s a.
Definition frame a s s' : Prop := forall c, c <> e_cache (eh s a) -> ca s' c = ca s c.
Lemma alive_sbc : forall s s' a, same_but_caches s s' -> alive s' a = alive s a.
Proof. intros s s' a [_ [_ [_ [D E]]]]. unfold alive. now rewrite D, E. Qed.
Definition good (f : nat -> Key -> est -> outc Val * est) : Prop := forall a k s s', agree a s s' ->
  fst (f a k s') = fst (f a k s) /\ agree a (snd (f a k s)) (snd (f a k s')) /\ frame a s (snd (f a k s)) /\ same_but_caches s (snd (f a k s)).
Lemma exec_good : forall f, good f -> forall c a s s', agree a s s' ->
  fst (exec f a c s') = fst (exec f a c s) /\ agree a (snd (exec f a c s)) (snd (exec f a c s')) /\ frame a s (snd (exec f a c s)) /\ same_but_caches s (snd (exec f a c s)).
Proof.
  intros f Hf c. induction c as [v|k c IH]; intros a s s' G.
  - cbn. repeat split; try apply G; try (intros; reflexivity).
  - cbn. destruct (Hf a k s s' G) as [A [B [C D]]]. destruct (f a k s) as [[v| |] s1], (f a k s') as [[v'| |] s1']; cbn in A, B, C, D |- *; try discriminate; auto.
    injection A as ->. destruct (IH v a s1 s1' B) as [A' [B' [C' D']]]. repeat (split; [assumption|]). split.
    + intros x Hx. rewrite C'; [now apply C|]. destruct D as [D _]. now rewrite D.
    + now apply sbc_trans with s1.
Qed.
Lemma closure_good : forall n, good (closure n).
Proof.
  induction n as [|n IH]; intros a k s s' G; assert (G0 := G); destruct G as [G1 [G2 [G3 G4]]]; cbn; rewrite G1, G3, ?G2.
  - destruct (look keq k (ca s (e_cache (eh s a)))); cbn; (split; [reflexivity|split; [exact G0|split; [now intros c|apply sbc_refl]]]).
  - destruct (look keq k (ca s (e_cache (eh s a)))) as [v|]; [cbn; split; [reflexivity|split; [exact G0|split; [now intros c|apply sbc_refl]]]|].
    rewrite G4. destruct (alive s a); [|cbn; split; [reflexivity|split; [exact G0|split; [now intros c|apply sbc_refl]]]].
    rewrite G1.
    destruct (exec_good (closure n) IH (calc (e_data (eh s a)) (e_pref (eh s a)) k) a s s' G0) as [A [B [C D]]].
    destruct (exec (closure n) a (calc (e_data (eh s a)) (e_pref (eh s a)) k) s) as [[v| |] s1], (exec (closure n) a (calc (e_data (eh s a)) (e_pref (eh s a)) k) s') as [[v'| |] s1']; cbn in A, B, C, D |- *; try discriminate; auto.
    injection A as ->. split; [reflexivity|]. destruct B as [B1 [B2 [B3 B4]]]. assert (D0 := D). destruct D as [D _]. rewrite D in B3. split; [|split].
    + split; [exact B1|]. split; [exact B2|]. cbn. rewrite D. rewrite !upd_eq, B3. split; [reflexivity|]. exact B4.
    + intros c Hc. cbn. rewrite upd_ne by exact Hc. now apply C.
    + destruct D0 as [E1 [E2 [E3 [E4 E5]]]]. repeat split; cbn; assumption.
Qed.
Lemma direct_good : forall n, good (direct n).
Proof. intros n a k s s' G. unfold AliasModel.direct. assert (G0 := G). destruct G as [G1 _]. rewrite G1. apply exec_good; [apply closure_good|exact G0]. Qed.

Record own_inv s : Prop := mkOwn {
  ow_b : forall x a, ev s x = Some a -> a < en s;
  ow_u : forall x y a, ev s x = Some a -> ev s y = Some a -> x = y;
  ow_t : forall x a, ev s x = Some a -> e_this (eh s a) = a;
  ow_cb : forall x a, ev s x = Some a -> e_cache (eh s a) < cn s;
  ow_cu : forall x y a b, ev s x = Some a -> ev s y = Some b -> e_cache (eh s a) = e_cache (eh s b) -> a = b;
  ow_l : forall x a, ev s x = Some a -> In x (live s) }.
Definition no_share (o : eop) : Prop := match o with ECopy _ _ | EAssign _ _ => False | _ => True end.
Definition etarget (o : eop) : nat := match o with ENew x _ _ | ECopy x _ | EAssign x _ | EKill x | EPref x _ | EData x _ | ECall x _ | EObj x _ => x end.
Lemma own0 : forall i, own_inv (est0 i). Proof. intro i. split; cbn; intros; discriminate. Qed.
Lemma existsb_in : forall x l, existsb (Nat.eqb x) l = true <-> In x l.
Proof. intros x l. rewrite existsb_exists. split; [intros [y [A B]]; apply Nat.eqb_eq in B; now subst|intro A; exists x; split; [exact A|apply Nat.eqb_refl]]. Qed.
Lemma live_set : forall s x (a : option nat) y, In y (live s) \/ y = x -> In y (live (set_ev s x a)).
Proof. intros s x a y H. cbn. destruct (existsb (Nat.eqb x) (live s)) eqn:E; [apply existsb_in in E; destruct H as [H|H]; [exact H|now subst]|]. destruct H as [H|H]; [now right|left; now symmetry]. Qed.
Lemma live_set' : forall x y l, In y l -> In y (if existsb (Nat.eqb x) l then l else x :: l).
Proof. intros x y l H. destruct (existsb (Nat.eqb x) l); [exact H|now right]. Qed.
Local Arguments alive : simpl never.
Lemma alive_true : forall s x a, In x (live s) -> ev s x = Some a -> alive s a = true.
Proof. intros s x a L E. unfold alive. apply existsb_exists. exists x. split; [exact L|]. rewrite E. apply Nat.eqb_refl. Qed.
Lemma own_sbc : forall s s', own_inv s -> same_but_caches s s' -> own_inv s'.
Proof. intros s s' [A B C D E F] [H1 [H2 [H3 [H4 H5]]]]. split; rewrite ?H1, ?H2, ?H3, ?H4, ?H5; assumption. Qed.
Lemma own_step : forall n o s r s', no_share o -> own_inv s -> estep n o s = Some (r, s') ->
  own_inv s' /\ forall y b, y <> etarget o -> ev s y = Some b -> ev s' y = Some b /\ agree b s s'.
Proof.
  intros n o s r s' N I E. assert (I0 := I). destruct I as [IB IU IT ICB ICU IL].
  destruct o as [x d p|x y|x y|x|x f|x f|x k|x k]; cbn in N; try contradiction; cbn [AliasModel.estep] in E.
  - unfold ealloc in E. cbn in E. injection E as _ <-. split.
    + split.
      * cbn. intros y a H. unfold upd in H. destruct (Nat.eqb y x); [injection H as <-; lia|apply IB in H; lia].
      * cbn. intros y z a H H'. unfold upd in H, H'. destruct (Nat.eqb_spec y x), (Nat.eqb_spec z x); subst; try reflexivity.
        -- injection H as <-. apply IB in H'. lia.
        -- injection H' as <-. apply IB in H. lia.
        -- now apply IU with a.
      * cbn. intros y a H. unfold upd in H at 1. destruct (Nat.eqb y x); [injection H as <-; now rewrite upd_eq|]. rewrite upd_ne; [now apply IT with y|apply IB in H; lia].
      * cbn. intros y a H. unfold upd in H at 1. destruct (Nat.eqb y x); [injection H as <-; rewrite upd_eq; cbn; lia|]. rewrite upd_ne; [apply ICB in H; lia|apply IB in H; lia].
      * cbn. intros y z a b H H' Q. unfold upd in H at 1. unfold upd in H' at 1. destruct (Nat.eqb_spec y x), (Nat.eqb_spec z x).
        -- injection H as <-. now injection H' as <-.
        -- injection H as <-. rewrite upd_eq, upd_ne in Q by (apply IB in H'; lia). cbn in Q. apply ICB in H'. lia.
        -- injection H' as <-. rewrite upd_eq, upd_ne in Q by (apply IB in H; lia). cbn in Q. apply ICB in H. lia.
        -- rewrite !upd_ne in Q by (first [apply IB in H; lia|apply IB in H'; lia]). now apply (ICU y z).
      * intros y a H. apply live_set. cbn in H. unfold upd in H. destruct (Nat.eqb_spec y x); [now right|left; now apply IL with a].
    + cbn. intros y b Ny H. rewrite upd_ne by exact Ny. split; [exact H|]. unfold agree. cbn. assert (Q := IB y b H). assert (Q' := ICB y b H). rewrite !upd_ne by lia. repeat split.
      * now apply IT with y.
      * rewrite (alive_true s y b (IL y b H) H). apply alive_true with y; [cbn; apply live_set'; now apply IL with b|cbn; now rewrite upd_ne].
  - destruct (ev s x) as [a|] eqn:F; [|discriminate]. injection E as _ <-. split.
    + split; cbn.
      * intros y b H. unfold upd in H. destruct (Nat.eqb y x); [discriminate|now apply IB in H].
      * intros y z b H H'. unfold upd in H, H'. destruct (Nat.eqb y x), (Nat.eqb z x); try discriminate. now apply IU with b.
      * intros y b H. unfold upd in H. destruct (Nat.eqb y x); [discriminate|now apply IT with y].
      * intros y b H. unfold upd in H. destruct (Nat.eqb y x); [discriminate|now apply ICB with y].
      * intros y z b c H H'. unfold upd in H, H'. destruct (Nat.eqb y x), (Nat.eqb z x); try discriminate. now apply (ICU y z).
      * intros y b H. unfold upd in H. destruct (Nat.eqb_spec y x); [discriminate|]. apply (live_set s x None y). left. now apply IL with b.
    + cbn. intros y b Ny H. rewrite upd_ne by exact Ny. split; [exact H|]. unfold agree. cbn. repeat split.
      * now apply IT with y.
      * rewrite (alive_true s y b (IL y b H) H). apply alive_true with y; [cbn; apply live_set'; now apply IL with b|cbn; now rewrite upd_ne].
  - destruct (ev s x) as [a|] eqn:F; [|discriminate]. injection E as _ <-.
    assert (C : forall b, e_this (upd (eh s) a (mkImpl (e_data (eh s a)) (f (e_pref (eh s a))) (e_this (eh s a)) (e_cache (eh s a))) b) = e_this (eh s b) /\
                e_cache (upd (eh s) a (mkImpl (e_data (eh s a)) (f (e_pref (eh s a))) (e_this (eh s a)) (e_cache (eh s a))) b) = e_cache (eh s b))
      by (intro b; unfold upd; destruct (Nat.eqb_spec b a); [subst; now split|now split]).
    split.
    + split; cbn; auto.
      * intros y b H. rewrite (proj1 (C b)). now apply IT with y.
      * intros y b H. rewrite (proj2 (C b)). now apply ICB with y.
      * intros y z b c H H' Q. rewrite (proj2 (C b)), (proj2 (C c)) in Q. now apply (ICU y z).
    + cbn. intros y b Ny H. split; [exact H|]. unfold agree. cbn. assert (Nb : b <> a) by (intros ->; apply Ny; now apply IU with a). rewrite !upd_ne by exact Nb. repeat split. now apply IT with y.
  - destruct (ev s x) as [a|] eqn:F; [|discriminate]. injection E as _ <-.
    assert (C : forall b, e_this (upd (eh s) a (mkImpl (f (e_data (eh s a))) (e_pref (eh s a)) (e_this (eh s a)) (e_cache (eh s a))) b) = e_this (eh s b) /\
                e_cache (upd (eh s) a (mkImpl (f (e_data (eh s a))) (e_pref (eh s a)) (e_this (eh s a)) (e_cache (eh s a))) b) = e_cache (eh s b))
      by (intro b; unfold upd; destruct (Nat.eqb_spec b a); [subst; now split|now split]).
    split.
    + split; cbn; auto.
      * intros y b H. rewrite (proj1 (C b)). now apply IT with y.
      * intros y b H. rewrite (proj2 (C b)). now apply ICB with y.
      * intros y z b c H H' Q. rewrite (proj2 (C b)), (proj2 (C c)) in Q. now apply (ICU y z).
    + cbn. intros y b Ny H. split; [exact H|]. unfold agree. cbn. assert (Nb : b <> a) by (intros ->; apply Ny; now apply IU with a). rewrite !upd_ne by exact Nb. repeat split. now apply IT with y.
  - destruct (ev s x) as [a|] eqn:F; [|discriminate].
    assert (G : agree a s s) by (repeat split; now apply IT with x). destruct (closure_good n a k s s G) as [_ [_ [FR SB]]].
    destruct (closure n a k s) as [v s1]. cbn in FR, SB. injection E as _ <-. split; [now apply own_sbc with s|]. cbn. intros y b Ny H. assert (SB0 := SB). destruct SB as [E1 [E2 [E3 [E4 E5]]]]. rewrite E4. split; [exact H|].
    unfold agree. rewrite E1. repeat split; [now apply IT with y| |now apply alive_sbc]. apply FR. intro Q. apply Ny. apply (ICU y x b a H F) in Q. subst. now apply IU with a.
  - destruct (ev s x) as [a|] eqn:F; [|discriminate].
    assert (G : agree a s s) by (repeat split; now apply IT with x). destruct (direct_good n a k s s G) as [_ [_ [FR SB]]].
    destruct (direct n a k s) as [v s1]. cbn in FR, SB. injection E as _ <-. split; [now apply own_sbc with s|]. cbn. intros y b Ny H. assert (SB0 := SB). destruct SB as [E1 [E2 [E3 [E4 E5]]]]. rewrite E4. split; [exact H|].
    unfold agree. rewrite E1. repeat split; [now apply IT with y| |now apply alive_sbc]. apply FR. intro Q. apply Ny. apply (ICU y x b a H F) in Q. subst. now apply IU with a.
Qed.
Lemma agree_trans : forall a s1 s2 s3, agree a s1 s2 -> agree a s2 s3 -> agree a s1 s3.
Proof. intros a s1 s2 s3 [A [B [C D]]] [A' [B' [C' D']]]. unfold agree. rewrite A in *. repeat split; congruence. Qed.
Lemma own_run : forall n h s s', (forall o, In o h -> no_share o) -> own_inv s -> erun n h s = Some s' ->
  own_inv s' /\ forall y b, (forall o, In o h -> etarget o <> y) -> ev s y = Some b -> ev s' y = Some b /\ agree b s s'.
Proof.
  intros n. induction h as [|o r IH]; intros s s' N I E.
  - injection E as <-. split; [exact I|]. intros y b _ H. split; [exact H|]. repeat split. now apply (ow_t s I) with y.
  - cbn in E. destruct (estep n o s) as [[q s1]|] eqn:E1; [|discriminate]. destruct (own_step n o s q s1 (N o (or_introl eq_refl)) I E1) as [I1 F1].
    destruct (IH s1 s' (fun p Hp => N p (or_intror Hp)) I1 E) as [I2 F2]. split; [exact I2|]. intros y b T H. destruct (F1 y b (fun Q => T o (or_introl eq_refl) (eq_sym Q)) H) as [H1 A1].
    destruct (F2 y b (fun p Hp => T p (or_intror Hp)) H1) as [H2 A2]. split; [exact H2|]. now apply agree_trans with s1.
Qed.
Theorem separate_engines : forall n i h1 h2 s1 s2 y k,
  (forall o, In o (h1 ++ h2) -> no_share o) -> (forall o, In o h2 -> etarget o <> y) ->
  erun n h1 (est0 i) = Some s1 -> erun n h2 s1 = Some s2 ->
  option_map fst (estep n (ECall y k) s2) = option_map fst (estep n (ECall y k) s1) /\
  option_map fst (estep n (EObj y k) s2) = option_map fst (estep n (EObj y k) s1).
Proof.
  intros n i h1 h2 s1 s2 y k N T E1 E2.
  destruct (own_run n h1 (est0 i) s1 (fun o Ho => N o (in_or_app _ _ _ (or_introl Ho))) (own0 i) E1) as [I1 _].
  destruct (own_run n h2 s1 s2 (fun o Ho => N o (in_or_app _ _ _ (or_intror Ho))) I1 E2) as [I2 F].
  cbn [AliasModel.estep]. destruct (ev s1 y) as [b|] eqn:H.
  - destruct (F y b T H) as [H2 A]. rewrite H2. assert (Q := closure_good n b k s1 s2 A). assert (Q' := direct_good n b k s1 s2 A).
    destruct (closure n b k s1), (closure n b k s2), (direct n b k s1), (direct n b k s2). cbn in *. destruct Q as [-> _]. destruct Q' as [-> _]. now split.
  - assert (H2 : ev s2 y = None).
    { clear -T E2 H. revert s1 E2 H. induction h2 as [|o r IH]; intros s1 E2 H; [injection E2 as <-; exact H|]. cbn in E2. destruct (estep n o s1) as [[q s']|] eqn:E; [|discriminate].
      apply (IH (fun p Hp => T p (or_intror Hp)) s' E2). assert (Ny := T o (or_introl eq_refl)). clear -E H Ny.
      destruct o as [x d p|x z|x z|x|x f|x f|x k|x k]; cbn [etarget] in Ny; cbn [AliasModel.estep] in E.
      - unfold ealloc in E. injection E as _ <-. cbn. rewrite upd_ne by congruence. exact H.
      - destruct (ev s1 z); [|discriminate]. unfold ealloc in E. injection E as _ <-. cbn. rewrite upd_ne by congruence. exact H.
      - destruct (ev s1 x); [|discriminate]. destruct (ev s1 z); [|discriminate]. injection E as _ <-. cbn. rewrite upd_ne by congruence. exact H.
      - destruct (ev s1 x); [|discriminate]. injection E as _ <-. cbn. rewrite upd_ne by congruence. exact H.
      - destruct (ev s1 x); [|discriminate]. injection E as _ <-. exact H.
      - destruct (ev s1 x); [|discriminate]. injection E as _ <-. exact H.
      - destruct (ev s1 x) as [a|]; [|discriminate]. assert (Q := closure_sbc n a k s1). destruct (closure n a k s1). injection E as _ <-. destruct Q as [_ [_ [_ [Q _]]]]. cbn in Q. now rewrite Q.
      - destruct (ev s1 x) as [a|]; [|discriminate]. assert (Q := direct_sbc n a k s1). destruct (direct n a k s1). injection E as _ <-. destruct Q as [_ [_ [_ [Q _]]]]. cbn in Q. now rewrite Q. }
    rewrite H2. now split.
Qed.

(** ** a copy answers by symbol from its source, whatever is done to it *)
Definition rebinds (o : eop) (x : nat) : Prop := match o with ENew y _ _ | ECopy y _ | EAssign y _ | EKill y => y = x | _ => False end.
Definition twins s (x y : nat) : Prop := exists a b, ev s x = Some a /\ ev s y = Some b /\ a < en s /\ b < en s /\ e_this (eh s a) = e_this (eh s b) /\ e_cache (eh s a) = e_cache (eh s b).
Lemma twins_step : forall n o s r s' x y, estep n o s = Some (r, s') -> ~ rebinds o x -> ~ rebinds o y -> twins s x y -> twins s' x y.
Proof.
  intros n o s r s' x y E Nx Ny [a [b [Ha [Hb [La [Lb [T C]]]]]]]. destruct o as [z d p|z w|z w|z|z f|z f|z k|z k]; cbn in Nx, Ny; cbn [AliasModel.estep] in E.
  - unfold ealloc in E. injection E as _ <-. exists a, b. cbn. rewrite !upd_ne by (first [congruence|lia]). repeat split; auto; lia.
  - destruct (ev s w); [|discriminate]. unfold ealloc in E. injection E as _ <-. exists a, b. cbn. rewrite !upd_ne by (first [congruence|lia]). repeat split; auto; lia.
  - destruct (ev s z); [|discriminate]. destruct (ev s w); [|discriminate]. injection E as _ <-. exists a, b. cbn. rewrite !upd_ne by (first [congruence|lia]). repeat split; auto.
  - destruct (ev s z); [|discriminate]. injection E as _ <-. exists a, b. cbn. rewrite !upd_ne by (first [congruence|lia]). repeat split; auto.
  - destruct (ev s z) as [c|]; [|discriminate]. injection E as _ <-. exists a, b. cbn. unfold upd. repeat split; auto; destruct (Nat.eqb_spec a c), (Nat.eqb_spec b c); subst; cbn; auto.
  - destruct (ev s z) as [c|]; [|discriminate]. injection E as _ <-. exists a, b. cbn. unfold upd. repeat split; auto; destruct (Nat.eqb_spec a c), (Nat.eqb_spec b c); subst; cbn; auto.
  - destruct (ev s z) as [c|]; [|discriminate]. assert (Q := closure_sbc n c k s). destruct (closure n c k s) as [v s1]. injection E as _ <-. destruct Q as [E1 [E2 [E3 [E4 E5]]]]. cbn in *. exists a, b. rewrite E1, E2, E4. repeat split; auto.
  - destruct (ev s z) as [c|]; [|discriminate]. assert (Q := direct_sbc n c k s). destruct (direct n c k s) as [v s1]. injection E as _ <-. destruct Q as [E1 [E2 [E3 [E4 E5]]]]. cbn in *. exists a, b. rewrite E1, E2, E4. repeat split; auto.
Qed.
Lemma twins_run : forall n h s s' x y, erun n h s = Some s' -> (forall o, In o h -> ~ rebinds o x /\ ~ rebinds o y) -> twins s x y -> twins s' x y.
Proof.
  intros n. induction h as [|o r IH]; intros s s' x y E N W; [injection E as <-; exact W|]. cbn in E. destruct (estep n o s) as [[q s1]|] eqn:E1; [|discriminate].
  apply (IH s1); [exact E|intros p Hp; apply N; now right|]. destruct (N o (or_introl eq_refl)) as [N1 N2]. now apply (twins_step n o s q s1).
Qed.
Lemma twins_call : forall n k s x y, twins s x y -> option_map fst (estep n (ECall x k) s) = option_map fst (estep n (ECall y k) s).
Proof.
  intros n k s x y [a [b [Ha [Hb [_ [_ [T C]]]]]]]. cbn [AliasModel.estep]. rewrite Ha, Hb. replace (closure n b k s) with (closure n a k s); [reflexivity|].
  destruct n as [|n]; cbn; rewrite C; [reflexivity|]. now rewrite T.
Qed.
Lemma bound_step : forall n o s r s', (forall x a, ev s x = Some a -> a < en s) -> estep n o s = Some (r, s') -> forall x a, ev s' x = Some a -> a < en s'.
Proof.
  intros n o s r s' B E. destruct o as [z d p|z w|z w|z|z f|z f|z k|z k]; cbn [AliasModel.estep] in E.
  - unfold ealloc in E. injection E as _ <-. cbn. intros x a H. unfold upd in H. destruct (Nat.eqb x z); [injection H as <-; lia|apply B in H; lia].
  - destruct (ev s w); [|discriminate]. unfold ealloc in E. injection E as _ <-. cbn. intros x a H. unfold upd in H. destruct (Nat.eqb x z); [injection H as <-; lia|apply B in H; lia].
  - destruct (ev s z); [|discriminate]. destruct (ev s w) as [c|] eqn:F; [|discriminate]. injection E as _ <-. cbn. intros x a H. unfold upd in H. destruct (Nat.eqb x z); [injection H as <-; now apply B in F|now apply B in H].
  - destruct (ev s z); [|discriminate]. injection E as _ <-. cbn. intros x a H. unfold upd in H. destruct (Nat.eqb x z); [discriminate|now apply B in H].
  - destruct (ev s z); [|discriminate]. injection E as _ <-. exact B.
  - destruct (ev s z); [|discriminate]. injection E as _ <-. exact B.
  - destruct (ev s z) as [c|]; [|discriminate]. assert (Q := closure_sbc n c k s). destruct (closure n c k s) as [v s1]. injection E as _ <-. destruct Q as [E1 [E2 [E3 [E4 E5]]]]. cbn in *. rewrite E4, E2. exact B.
  - destruct (ev s z) as [c|]; [|discriminate]. assert (Q := direct_sbc n c k s). destruct (direct n c k s) as [v s1]. injection E as _ <-. destruct Q as [E1 [E2 [E3 [E4 E5]]]]. cbn in *. rewrite E4, E2. exact B.
Qed.
Lemma bound_run : forall n h s s', (forall x a, ev s x = Some a -> a < en s) -> erun n h s = Some s' -> forall x a, ev s' x = Some a -> a < en s'.
Proof.
  intros n. induction h as [|o r IH]; intros s s' B E; [injection E as <-; exact B|]. cbn in E. destruct (estep n o s) as [[q s1]|] eqn:E1; [|discriminate].
  apply (IH s1); [now apply (bound_step n o s q)|exact E].
Qed.
Theorem copy_answers_as_source : forall n i h1 h2 s1 s2 s3 r x y k, x <> y ->
  erun n h1 (est0 i) = Some s1 -> estep n (ECopy x y) s1 = Some (r, s2) -> erun n h2 s2 = Some s3 ->
  (forall o, In o h2 -> ~ rebinds o x /\ ~ rebinds o y) ->
  option_map fst (estep n (ECall x k) s3) = option_map fst (estep n (ECall y k) s3).
Proof.
  intros n i h1 h2 s1 s2 s3 r x y k Nxy E1 E2 E3 N. apply twins_call. apply (twins_run n h2 s2 s3 x y E3 N).
  assert (B : forall x a, ev s1 x = Some a -> a < en s1) by (apply (bound_run n h1 (est0 i)); [cbn; intros; discriminate|exact E1]).
  cbn [AliasModel.estep] in E2. destruct (ev s1 y) as [b|] eqn:F; [|discriminate]. unfold ealloc in E2. injection E2 as _ <-. exists (en s1), b. cbn. assert (Q := B y b F).
  rewrite !upd_eq, !upd_ne by (first [congruence|lia]). repeat split; auto; lia.
Qed.

(** ** as long as nothing is changed, every answer is right *)
(** the result of a calculation, with no cache and no memory *)
Inductive den (d : Data) (p : Pref) : comp Key Val -> Val -> Prop :=
| den_ret : forall v, den d p (Ret v) v
| den_ask : forall k c v w, den d p (calc d p k) v -> den d p (c v) w -> den d p (Ask k c) w.
Definition unchanging (o : eop) : Prop := match o with EPref _ _ | EData _ _ => False | _ => True end.
(** every cell has the data and preferences of the cell its closures run on, and its cache holds results for these *)
Record right_inv s : Prop := mkRight {
  ri_b : forall x a, ev s x = Some a -> a < en s;
  ri_t : forall a, a < en s -> e_this (eh s a) < en s /\ e_cache (eh s a) < cn s /\ e_data (eh s (e_this (eh s a))) = e_data (eh s a) /\ e_pref (eh s (e_this (eh s a))) = e_pref (eh s a) /\
      e_cache (eh s (e_this (eh s a))) = e_cache (eh s a);
  ri_c : forall a b, a < en s -> b < en s -> e_cache (eh s a) = e_cache (eh s b) -> e_data (eh s a) = e_data (eh s b) /\ e_pref (eh s a) = e_pref (eh s b);
  ri_v : forall a k v, a < en s -> In (k, v) (ca s (e_cache (eh s a))) -> forall k', keq k k' = true -> den (e_data (eh s a)) (e_pref (eh s a)) (calc (e_data (eh s a)) (e_pref (eh s a)) k') v }.
Hypothesis keq_eq : forall k k', keq k k' = true <-> k = k'.
Lemma look_in : forall k (l : list (Key * Val)) (v : Val), look keq k l = Some v -> exists k', In (k', v) l /\ keq k' k = true.
Proof. intros k l v. induction l as [|[k' w] r IH]; cbn; [discriminate|]. destruct (keq k' k) eqn:E; [intro Q; injection Q as ->; exists k'; auto|]. intro Q. destruct (IH Q) as [k2 [A B]]. exists k2. auto. Qed.
Definition goodv (f : nat -> Key -> est -> outc Val * est) : Prop := forall a k s, right_inv s -> a < en s ->
  right_inv (snd (f a k s)) /\ forall v, fst (f a k s) = OVal v -> den (e_data (eh s a)) (e_pref (eh s a)) (calc (e_data (eh s a)) (e_pref (eh s a)) k) v.
Lemma exec_right : forall f, goodv f -> (forall a k s, same_but_caches s (snd (f a k s))) -> forall c a s, right_inv s -> a < en s ->
  right_inv (snd (exec f a c s)) /\ forall v, fst (exec f a c s) = OVal v -> den (e_data (eh s a)) (e_pref (eh s a)) c v.
Proof.
  intros f Hf SB c. induction c as [v|k c IH]; intros a s I L; cbn.
  - split; [exact I|]. intros w Q. injection Q as <-. constructor.
  - destruct (Hf a k s I L) as [A B]. assert (Q := SB a k s). destruct (f a k s) as [[v| |] s1]; cbn in A, B, Q |- *; try (split; [exact A|discriminate]).
    destruct Q as [E1 [E2 _]]. destruct (IH v a s1 A ltac:(now rewrite E2)) as [A' B']. split; [exact A'|]. intros w W. apply B' in W. rewrite E1 in W. apply den_ask with v; [now apply B|exact W].
Qed.
Lemma right_store : forall s a k v, right_inv s -> a < en s -> den (e_data (eh s a)) (e_pref (eh s a)) (calc (e_data (eh s a)) (e_pref (eh s a)) k) v ->
  right_inv (set_ca s (e_cache (eh s a)) ((k, v) :: ca s (e_cache (eh s a)))).
Proof.
  intros s a k v [A B C D] L H. split; auto. cbn. intros b k1 w Lb Hin k2 Hk. unfold upd in Hin. destruct (Nat.eqb_spec (e_cache (eh s b)) (e_cache (eh s a))) as [E|E]; [|now apply (D b k1)].
  destruct (C b a Lb L E) as [C1 C2]. rewrite C1, C2. destruct Hin as [Hin|Hin].
  - injection Hin as <- <-. apply keq_eq in Hk. now subst.
  - now apply (D a k1).
Qed.
Lemma closure_right : forall n, goodv (closure n).
Proof.
  assert (HIT : forall a k s v, right_inv s -> a < en s -> look keq k (ca s (e_cache (eh s a))) = Some v -> den (e_data (eh s a)) (e_pref (eh s a)) (calc (e_data (eh s a)) (e_pref (eh s a)) k) v).
  { intros a k s v I L Q. apply look_in in Q. destruct Q as [k' [Q1 Q2]]. now apply (ri_v s I a k'). }
  induction n as [|n IH]; intros a k s I L; cbn; destruct (look keq k (ca s (e_cache (eh s a)))) as [v|] eqn:K; cbn.
  - split; [exact I|]. intros w Q. injection Q as <-. now apply HIT.
  - split; [exact I|discriminate].
  - split; [exact I|]. intros w Q. injection Q as <-. now apply HIT.
  - destruct (alive s (e_this (eh s a))); [|split; [exact I|discriminate]]. destruct (ri_t s I a L) as [T1 [T2 [T3 [T4 T5]]]]. rewrite T3, T4.
    destruct (exec_right (closure n) IH (closure_sbc n) (calc (e_data (eh s a)) (e_pref (eh s a)) k) (e_this (eh s a)) s I T1) as [A B]. rewrite T3, T4 in B.
    assert (SB := exec_sbc (closure n) (closure_sbc n) (calc (e_data (eh s a)) (e_pref (eh s a)) k) (e_this (eh s a)) s).
    destruct (exec (closure n) (e_this (eh s a)) (calc (e_data (eh s a)) (e_pref (eh s a)) k) s) as [[v| |] s1]; cbn in A, B, SB |- *; try (split; [exact A|discriminate]).
    destruct SB as [E1 [E2 _]]. assert (V := B v eq_refl). split.
    + rewrite <- E1. apply right_store; [exact A|now rewrite E2|now rewrite E1].
    + intros w Q. injection Q as <-. exact V.
Qed.
Lemma direct_right : forall n, goodv (direct n).
Proof. intros n a k s I L. unfold AliasModel.direct. apply exec_right; [apply closure_right|apply closure_sbc|exact I|exact L]. Qed.
Lemma right_sbind : forall s x (a : option nat), right_inv s -> (forall b, a = Some b -> b < en s) -> right_inv (set_ev s x a).
Proof. intros s x a [A B C D] H. split; auto. cbn. intros y b Q. unfold upd in Q. destruct (Nat.eqb y x); [now apply H|now apply A with y]. Qed.
Lemma right_step : forall n o s r s', unchanging o -> right_inv s -> estep n o s = Some (r, s') -> right_inv s'.
Proof.
  intros n o s r s' N I E. destruct o as [z d p|z w|z w|z|z f|z f|z k|z k]; cbn in N; try contradiction; cbn [AliasModel.estep] in E.
  - unfold ealloc in E. injection E as _ <-. apply right_sbind; [|cbn; intros b Q; injection Q; lia]. destruct I as [A B C D]. cbn. split; cbn.
    + intros x a H. apply A in H. lia.
    + intros a La. destruct (Nat.eq_dec a (en s)) as [->|Na].
      * rewrite upd_eq. cbn. rewrite upd_eq. cbn. repeat split; lia.
      * assert (L : a < en s) by lia. destruct (B a L) as [T1 [T2 [T3 [T4 T5]]]]. rewrite !(upd_ne _ (eh s) (en s) _ a) by lia. rewrite !upd_ne by lia. repeat split; auto; lia.
    + intros a b La Lb Q. destruct (Nat.eq_dec a (en s)) as [->|Na], (Nat.eq_dec b (en s)) as [->|Nb]; auto.
      * rewrite upd_eq, upd_ne in Q by lia. cbn in Q. destruct (B b ltac:(lia)) as [_ [T2 _]]. lia.
      * rewrite upd_eq, upd_ne in Q by lia. cbn in Q. destruct (B a ltac:(lia)) as [_ [T2 _]]. lia.
      * rewrite !upd_ne in Q |- * by lia. apply C; auto; lia.
    + intros a k v La Hin k' Hk. destruct (Nat.eq_dec a (en s)) as [->|Na].
      * rewrite upd_eq in Hin. cbn in Hin. rewrite upd_eq in Hin. destruct Hin.
      * rewrite (upd_ne _ (eh s)) in Hin |- * by lia. destruct (B a ltac:(lia)) as [_ [T2 _]]. rewrite upd_ne in Hin by lia. apply (D a k); auto; lia.
  - destruct (ev s w) as [b|] eqn:F; [|discriminate]. unfold ealloc in E. injection E as _ <-. apply right_sbind; [|cbn; intros c Q; injection Q; lia]. destruct I as [A B C D]. assert (Lb := A w b F). cbn.
    assert (EH : forall a, a < Datatypes.S (en s) -> exists a', a' < en s /\ upd (eh s) (en s) (eh s b) a = eh s a').
    { intros a La. destruct (Nat.eq_dec a (en s)) as [->|Na]; [exists b; split; [exact Lb|apply upd_eq]|exists a; split; [lia|apply upd_ne; lia]]. }
    split; cbn.
    + intros x a H. apply A in H. lia.
    + intros a La. destruct (EH a La) as [a' [L' ->]]. destruct (B a' L') as [T1 [T2 [T3 [T4 T5]]]]. rewrite !upd_ne by lia. repeat split; auto; lia.
    + intros a c La Lc. destruct (EH a La) as [a' [L' ->]]. destruct (EH c Lc) as [c' [M' ->]]. now apply C.
    + intros a k v La. destruct (EH a La) as [a' [L' ->]]. now apply D.
  - destruct (ev s z); [|discriminate]. destruct (ev s w) as [b|] eqn:F; [|discriminate]. injection E as _ <-. apply right_sbind; [exact I|]. intros c Q. injection Q as <-. now apply (ri_b s I w).
  - destruct (ev s z); [|discriminate]. injection E as _ <-. apply right_sbind; [exact I|discriminate].
  - destruct (ev s z) as [a|] eqn:F; [|discriminate]. assert (Q := closure_right n a k s I (ri_b s I z a F)). destruct (closure n a k s) as [v s1]. injection E as _ <-. apply Q.
  - destruct (ev s z) as [a|] eqn:F; [|discriminate]. assert (Q := direct_right n a k s I (ri_b s I z a F)). destruct (direct n a k s) as [v s1]. injection E as _ <-. apply Q.
Qed.
Lemma right0 : forall i, right_inv (est0 i). Proof. intro i. split; cbn; intros; first [discriminate|lia]. Qed.
Lemma right_run : forall n h s s', (forall o, In o h -> unchanging o) -> right_inv s -> erun n h s = Some s' -> right_inv s'.
Proof.
  intros n. induction h as [|o r IH]; intros s s' N I E; [injection E as <-; exact I|]. cbn in E. destruct (estep n o s) as [[q s1]|] eqn:E1; [|discriminate].
  apply (IH s1); [intros p Hp; apply N; now right|apply (right_step n o s q); [apply N; now left|exact I|exact E1]|exact E].
Qed.
Theorem unchanged_engines_right : forall n i h s x a k v s',
  (forall o, In o h -> unchanging o) -> erun n h (est0 i) = Some s -> ev s x = Some a ->
  (estep n (ECall x k) s = Some (Some (OVal v), s') \/ estep n (EObj x k) s = Some (Some (OVal v), s')) ->
  den (e_data (eh s a)) (e_pref (eh s a)) (calc (e_data (eh s a)) (e_pref (eh s a)) k) v.
Proof.
  intros n i h s x a k v s' N E F H. assert (I := right_run n h (est0 i) s N (right0 i) E). assert (L := ri_b s I x a F). cbn [AliasModel.estep] in H. rewrite F in H. destruct H as [H|H].
  - assert (Q := closure_right n a k s I L). destruct (closure n a k s) as [r s1]. injection H as -> _. now apply Q.
  - assert (Q := direct_right n a k s I L). destruct (direct n a k s) as [r s1]. injection H as -> _. now apply Q.
Qed.
End Engines.

(** ** outputs *)
Section Batches.
Context {R : Type}.
Implicit Types (s : bst R).
Definition b_rebinds (o : bop R) (b : nat) : Prop := match o with BNew c _ | BCopy c _ => c = b | _ => False end.
Definition o_rebinds (o : bop R) (p : nat) : Prop := match o with BCalc c _ _ | OCopy c _ => c = p | _ => False end.
Lemma out_step : forall x s s' o b a, bstep x s = Some s' -> ~ o_rebinds x o -> ~ b_rebinds x b -> ov s o = Some a -> bv s b = Some a -> ov s' o = Some a /\ bv s' b = Some a.
Proof.
  intros x s s' o b a E No Nb Ho Hb. destruct x as [c r|c d|p c f|p q]; cbn in No, Nb; cbn in E; repeat match goal with H : match ?c with _ => _ end = Some _ |- _ => destruct c; try discriminate H end;
    injection E as <-; cbn; rewrite ?upd_ne by congruence; now split.
Qed.
Theorem output_shows_current : forall h1 h2 s1 s2 s3 (i : R) o b f,
  brun h1 (bst0 i) = Some s1 -> bstep (BCalc o b f) s1 = Some s2 -> brun h2 s2 = Some s3 ->
  (forall x, In x h2 -> ~ o_rebinds x o /\ ~ b_rebinds x b) -> see_o s3 o = see_b s3 b /\ see_o s3 o <> None.
Proof.
  intros h1 h2 s1 s2 s3 i o b f _ E2 E3 N. cbn in E2. destruct (bv s1 b) as [a|] eqn:F; [|discriminate]. injection E2 as <-.
  assert (Q : ov s3 o = Some a /\ bv s3 b = Some a).
  { revert E3. assert (Ho : upd (ov s1) o (Some a) o = Some a) by apply upd_eq. revert F Ho. generalize (upd (bh s1) a (f (bh s1 a))), (upd (ov s1) o (Some a)), (bn s1), (bv s1). clear s1.
    intros h0 ov0 bn0 bv0 F Ho. assert (Z : exists s, s = mkBst h0 bn0 bv0 ov0 /\ ov s o = Some a /\ bv s b = Some a) by (eexists; now repeat split). destruct Z as [s [<- [Z1 Z2]]].
    revert s Z1 Z2. induction h2 as [|x r IH]; intros s Z1 Z2 E; [injection E as <-; now split|]. cbn in E. destruct (bstep x s) as [s1|] eqn:E1; [|discriminate].
    destruct (N x (or_introl eq_refl)) as [N1 N2]. destruct (out_step x s s1 o b a E1 N1 N2 Z1 Z2) as [Y1 Y2]. apply (IH (fun y Hy => N y (or_intror Hy)) s1 Y1 Y2 E). }
  destruct Q as [Q1 Q2]. unfold see_o, see_b. rewrite Q1, Q2. split; [reflexivity|discriminate].
Qed.

(** without a copy of the batch and without another calculation of it the output stays *)
Definition quiet (x : bop R) (b : nat) : Prop := match x with BCopy _ _ => False | BCalc _ c _ => c <> b | BNew c _ => c <> b | OCopy _ _ => True end.
Definition binj s : Prop := (forall b c a, bv s b = Some a -> bv s c = Some a -> b = c) /\ (forall b a, bv s b = Some a -> a < bn s) .
Lemma binj_step : forall x s s', match x with BCopy _ _ => False | _ => True end -> binj s -> bstep x s = Some s' -> binj s'.
Proof.
  intros x s s' N [U B] E. destruct x as [c r|c d|p c f|p q]; try contradiction; cbn in E; repeat match goal with H : match ?c with _ => _ end = Some _ |- _ => destruct c; try discriminate H end; injection E as <-; try (now split).
  split; cbn; unfold upd.
  - intros b d a H H'. destruct (Nat.eqb_spec b c), (Nat.eqb_spec d c); subst; try reflexivity.
    + injection H as <-. apply B in H'. lia.
    + injection H' as <-. apply B in H. lia.
    + now apply U with a.
  - intros b a H. destruct (Nat.eqb b c); [injection H as <-; lia|apply B in H; lia].
Qed.
Theorem output_stays : forall h1 h2 s1 s2 s3 (i : R) o b f,
  brun h1 (bst0 i) = Some s1 -> bstep (BCalc o b f) s1 = Some s2 -> brun h2 s2 = Some s3 ->
  (forall x, In x h1 -> match x with BCopy _ _ => False | _ => True end) ->
  (forall x, In x h2 -> quiet x b /\ ~ o_rebinds x o) -> see_o s3 o = see_o s2 o.
Proof.
  intros h1 h2 s1 s2 s3 i o b f E1 E2 E3 N1 N2.
  assert (J1 : binj s1).
  { assert (J0 : binj (bst0 i)) by (split; cbn; intros; discriminate). revert J0 E1. generalize (bst0 i). induction h1 as [|x r IH]; intros s J E; [injection E as <-; exact J|]. cbn in E. destruct (bstep x s) as [s'|] eqn:Ex; [|discriminate].
    apply (IH (fun y Hy => N1 y (or_intror Hy)) s'); [now apply (binj_step x s s' (N1 x (or_introl eq_refl)))|exact E]. }
  assert (J2 := binj_step (BCalc o b f) s1 s2 I J1 E2). cbn in E2. destruct (bv s1 b) as [a|] eqn:F; [|discriminate].
  assert (Z : ov s2 o = Some a /\ bv s2 b = Some a) by (injection E2 as <-; cbn; split; [apply upd_eq|exact F]). clear E1 E2 J1 F. destruct Z as [Z1 Z2].
  unfold see_o. revert s2 J2 Z1 Z2 E3. induction h2 as [|x r IH]; intros s J Z1 Z2 E; [now injection E as <-|]. cbn in E. destruct (bstep x s) as [s'|] eqn:Ex; [|discriminate].
  destruct (N2 x (or_introl eq_refl)) as [Q No]. assert (J' : binj s') by (apply (binj_step x s s'); [destruct x; auto|exact J|exact Ex]).
  assert (W : ov s' o = Some a /\ bv s' b = Some a /\ bh s' a = bh s a).
  { destruct x as [c w|c d|p c g|p q]; cbn in Q, No; try contradiction; cbn in Ex.
    - injection Ex as <-. cbn. rewrite !upd_ne by (first [congruence|apply J in Z2; lia]). auto.
    - destruct (bv s c) as [e|] eqn:G; [|discriminate]. injection Ex as <-. cbn. rewrite !upd_ne; auto; try congruence. intros ->. apply Q. now apply (proj1 J) with e.
    - destruct (ov s q); [|discriminate]. injection Ex as <-. cbn. rewrite upd_ne by congruence. auto. }
  destruct W as [W1 [W2 W3]]. rewrite (IH (fun y Hy => N2 y (or_intror Hy)) s' J' W1 W2 E). rewrite W1, Z1. cbn. now rewrite W3.
Qed.
End Batches.
