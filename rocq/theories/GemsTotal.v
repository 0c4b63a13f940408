(** The equation of Haar, Gallagher and Kell as one table of derivatives.  *)
From Coq Require Import List Bool ZArith Reals Lra Lia.
From Coquelicot Require Import Coquelicot.
From Verif Require Import RDeriv RDiff2 RImplicit WaterModel WaterSpec HelmModel HelmJet HelmProofs HelmMore SoluteProofs HelmHgk GemsModel GemsSpec GemsJet GemsBase.
Import ListNotations.
Open Scope R_scope.

Definition Htot (t d : R) : helm := hadd (hadd (hadd (hadd (hadd (P1 t d) (P2 t d)) (P3 t d)) (P4 t d)) (hsum (fun x => F36 x t d) terms36)) (hsum (fun x => F4 x t d) terms4).
Ltac inl H := cbn [In] in H; repeat match goal with K : _ \/ _ |- _ => destruct K as [K|K] end; try contradiction; subst.
Lemma ok36 : forall x, In x terms36 -> (1 <= a_jj x)%nat.
Proof. intros x H. unfold terms36 in H. inl H; cbn; lia. Qed.
Lemma ok4 : forall x, In x terms4 -> e_dz x <> 0 /\ e_tz x <> 0 /\ (2 <= e_k x)%nat.
Proof. intros x H. unfold terms4 in H. inl H; cbn [e_dz e_tz e_k]; repeat split; try lra; lia. Qed.
Lemma away_V : forall T D x, away T D x -> V4t x T /\ V4d x D.
Proof.
  intros T D x [A [B C]]. split; [|split; [exact A|]].
  - unfold V4t, ex2_4, tau4. apply Rdichotomy in C. destruct C; [now left|now right].
  - apply Rdichotomy in B. unfold ex1'. destruct B; [now left|now right].
Qed.
Lemma V_away : forall T D x, V4t x T -> V4d x D -> away T D x.
Proof.
  intros T D x A [B C]. split; [exact B|]. split; [unfold ex1' in C; lra|]. unfold V4t, ex2_4, tau4 in A. lra.
Qed.
Lemma reg_U : forall T D, regular T D -> Ub T D. Proof. intros T D [A [B [_ [C _]]]]. exact (conj A (conj B C)). Qed.
Lemma Htot_jet : jet regular Htot.
Proof.
  unfold Htot. apply (jet_add regular (fun t d => hadd (hadd (hadd (hadd (P1 t d) (P2 t d)) (P3 t d)) (P4 t d)) (hsum (fun x => F36 x t d) terms36))); [apply (jet_add regular (fun t d => hadd (hadd (hadd (P1 t d) (P2 t d)) (P3 t d)) (P4 t d))); [apply jet_add|]|].
  - exact (jet_sub _ _ _ reg_U P123_jet).
  - apply (jet_sub Upos); [intros t d H; exact (Ub_pos _ _ (reg_U _ _ H))|exact P4_jet].
  - apply (jet_sum _ regular F36). intros x _. apply (jet_sub Upos); [intros t d H; exact (Ub_pos _ _ (reg_U _ _ H))|apply F36_jet].
  - apply (jet_sum _ regular F4). intros x Hx. destruct (ok4 x Hx) as [_ [N _]]. apply (jet_sub (fun t d => V4t x t /\ V4d x d)); [|now apply F4_jet].
    intros t d [_ [_ [_ [_ H]]]]. apply away_V. now apply H.
Qed.
(** *** the region is open *)
Lemma loc1 : forall (V : R -> Prop) (t d : R), locally t V -> locally_2d (fun u _ => V u) t d.
Proof. intros V t d [e He]. exists e. intros u v Hu _. now apply He. Qed.
Lemma loc2 : forall (V : R -> Prop) (t d : R), locally d V -> locally_2d (fun _ v => V v) t d.
Proof. intros V t d [e He]. exists e. intros u v _ Hv. now apply He. Qed.
Lemma V4t_open : forall x, e_tz x <> 0 -> open1 (V4t x).
Proof.
  intros x N. assert (C : forall t : R, continuous (ex2_4 x) t) by (apply (cont_d _ (fun t => -2 * e_at x * tau4 x t / e_tz x)); intro t; exact (proj1 (j_ex2 anyx x N t I))).
  unfold V4t. apply open_or; [now apply lt_open|now apply gt_open].
Qed.
Lemma V4d_open : forall x, open1 (V4d x).
Proof. intro x. unfold V4d. apply open_and; [apply open_del|]. apply open_or; [apply lt_open|apply gt_open]; apply cont_ex1. Qed.
Lemma loc_all : forall (X : Type) (l : list X) (P : X -> R -> R -> Prop) (t d : R), (forall x, In x l -> locally_2d (P x) t d) -> locally_2d (fun u v => forall x, In x l -> P x u v) t d.
Proof.
  intros X l P t d. induction l as [|y l IH]; intro H.
  - exists (mkposreal 1 Rlt_0_1). intros u v _ _ x [].
  - assert (A := H y (or_introl eq_refl)). assert (B : locally_2d (fun u v => forall x, In x l -> P x u v) t d) by (apply IH; intros x Hx; apply H; now right).
    destruct A as [e1 A]. destruct B as [e2 B]. exists (mkposreal (Rmin e1 e2) (Rmin_pos _ _ (cond_pos e1) (cond_pos e2))). cbn. intros u v Hu Hv x Hx.
    assert (L1 := Rmin_l e1 e2). assert (L2 := Rmin_r e1 e2). destruct Hx as [<-|Hx]; [apply A; lra|]. apply B; [lra|lra|exact Hx].
Qed.
Lemma loc_and : forall (P Q : R -> R -> Prop) (t d : R), locally_2d P t d -> locally_2d Q t d -> locally_2d (fun u v => P u v /\ Q u v) t d.
Proof. intros P Q t d A B. exact (locally_2d_and P Q t d A B). Qed.
Lemma cont_lt : forall (f : R -> R -> R) (c t d : R), continuity_2d_pt f t d -> f t d < c -> locally_2d (fun u v => f u v < c) t d.
Proof.
  intros f c t d C H. assert (E : 0 < c - f t d) by lra. destruct (C (mkposreal _ E)) as [e He]. exists e. cbn in He. intros u v Hu Hv. assert (Q := He u v Hu Hv). apply Rabs_def2 in Q. lra.
Qed.
Lemma cont_neq : forall (f : R -> R -> R) (t d : R), continuity_2d_pt f t d -> f t d <> 0 -> locally_2d (fun u v => f u v <> 0) t d.
Proof.
  intros f t d C H. destruct (C (mkposreal _ (Rabs_pos_lt _ H))) as [e He]. exists e. cbn in He. intros u v Hu Hv E. assert (Q := He u v Hu Hv). rewrite E in Q. unfold Rminus in Q. rewrite Rplus_0_l, Rabs_Ropp in Q. lra.
Qed.
Lemma regular_open : open2 regular.
Proof.
  intros t d H. assert (H' := H). destruct H' as [Ht [Hd [Hb [Hy H4]]]].
  assert (J : jet Upos Yb).
  { unfold Yb. apply (jet_sep posx posx (fun t => dmul (cst (25 / 100)) (dB1 t)) (fun d => mkDer d 1 0 0)); [|apply jet1_id|exact pos_pp]. apply (jet1_mul posx (fun _ => cst (25 / 100))); [apply j_cst|apply j_B1]. }
  destruct (J t d (conj Ht Hd)) as [CY _]. apply e_cont in CY. cbv beta in CY.
  assert (LP := open_pos t d (conj Ht Hd)).
  assert (LB : locally_2d (fun u _ => d0 (dB1 u) <> 0) t d).
  { apply (cont_neq (fun u _ => d0 (dB1 u)) t d); [|now rewrite (proj1 (bb_eq t Ht))]. destruct (j_B1 t Ht) as [K _]. exact (e_cont _ _ _ _ _ (e_fst1 _ t d _ K)). }
  assert (LY : locally_2d (fun u v => h0 (Yb u v) < 1) t d) by (apply (cont_lt (fun u v => h0 (Yb u v)) 1 t d CY); now rewrite Yb_val).
  assert (L4 : locally_2d (fun u v => forall x, In x terms4 -> away u v x) t d).
  { apply loc_all. intros x Hx. destruct (away_V _ _ _ (H4 x Hx)) as [A B]. destruct (ok4 x Hx) as [_ [N _]].
    assert (L := loc_and _ _ _ _ (loc1 _ t d (V4t_open x N t A)) (loc2 _ t d (V4d_open x d B))). destruct L as [e He]. exists e. intros u v Hu Hv. destruct (He u v Hu Hv) as [P Q]. now apply V_away. }
  assert (L := loc_and _ _ _ _ LP (loc_and _ _ _ _ LB (loc_and _ _ _ _ LY L4))). destruct L as [e He]. exists e. intros u v Hu Hv. destruct (He u v Hu Hv) as [[P Q] [B [Y A]]].
  rewrite Yb_val in Y by exact P. rewrite (proj1 (bb_eq u P)) in B. split; [exact P|]. split; [exact Q|]. split; [|split; [exact Y|exact A]]. exact B.
Qed.
(** *** the code's numbers in terms of the table *)
Definition bugs (t d : R) : R := gsum (fun x => bug4 x t d) terms4.
Lemma lin_c : forall (f : helm -> R) (c : R), linear f -> linear (fun h => c * f h).
Proof. intros f c [A B]. split; [rewrite A; ring|]. intros a b. rewrite B. ring. Qed.
Lemma lin_p : forall (f g : helm -> R), linear f -> linear g -> linear (fun h => f h + g h).
Proof. intros f g [A B] [A' B']. split; [rewrite A, A'; ring|]. intros a b. rewrite B, B'. ring. Qed.
Ltac lin := split; [unfold hzero; hp; first [field; lra | unfold Rdiv; ring]|intros; unfold hadd; hp; first [field; lra | unfold Rdiv; ring]].
Lemma total : forall T D al, regular T D -> let f := state_at T D in let H := Htot T D in let x := 1 - 25 / 100 * b1 (bb T) * D in
  h0 H = gascon * T * (ad f - kappa / x / x) /\ h0 H - T * hT H = gascon * T * ud f /\ D * D * hD H = press T D /\ - T * hTT H = gascon * cvd f /\
  D * D * hTD H = dpdt f /\ 2 * D * hD H + D * D * hDD H = dpdd f /\
  dal T D al = let A1 := hD H in let A2 := hDD H + bugs T D in
    ((hTTD H - al * D * hTDD H) * (2 * A1 + D * A2) - hTD H * (2 * (hTD H - al * D * hDD H) + D * (hTDD H - al * D * hDDD H) - D * al * A2)) / (2 * A1 + D * A2) / (2 * A1 + D * A2).
Proof.
  intros T D al HR. cbv zeta. assert (HR' := HR). destruct HR' as [Ht [Hd [Hb [Hy H4]]]].
  assert (G0 : gascon <> 0) by (unfold gascon; lra).
  assert (X36 : forall x, In x terms36 -> _) by (intros x Hx; exact (tables36 x T D al Ht Hd (ok36 x Hx))). cbv zeta in X36.
  assert (X4 : forall x, In x terms4 -> _) by (intros x Hx; destruct (ok4 x Hx) as [A [B C]]; exact (tables4 x T D al Ht Hd (proj2 (away_V _ _ _ (H4 x Hx))) A B C)). cbv zeta in X4.
  assert (XB := base_tables T D al (reg_U T D HR) Hb). cbv zeta in XB. assert (XI := P4_tables T D Ht). cbv zeta in XI.
  destruct XB as [B0 [B1 [B2 [B3 [B4 [B5 [B6 [B7 [B8 [B9 [B10 B11]]]]]]]]]]]. destruct XI as [I0 [I1 [I2 [I3 [I4 [I5 [I6 [I7 I8]]]]]]]].
  set (S36 := hsum (fun x => F36 x T D) terms36). set (S4 := hsum (fun x => F4 x T D) terms4).
  (* the sums *)
  assert (Q0 : q0 (resid T D) = D * D * hD S36 + D * D * hD S4).
  { unfold resid. cbn [q0]. f_equal; [apply (gsum_lin _ (fun h => D * D * hD h) (fun x => F36 x T D)); [lin|intros x Hx; apply (X36 x Hx)]|apply (gsum_lin _ (fun h => D * D * hD h) (fun x => F4 x T D)); [lin|intros x Hx; apply (X4 x Hx)]]. }
  assert (Q5 : q5 (resid T D) = (2 * D * hD S36 + D * D * hDD S36) + (2 * D * hD S4 + D * D * hDD S4)).
  { unfold resid. cbn [q5]. f_equal; [apply (gsum_lin _ (fun h => 2 * D * hD h + D * D * hDD h) (fun x => F36 x T D)); [lin|intros x Hx; apply (X36 x Hx)]|apply (gsum_lin _ (fun h => 2 * D * hD h + D * D * hDD h) (fun x => F4 x T D)); [lin|intros x Hx; apply (X4 x Hx)]]. }
  assert (QA : ar (resid T D) = h0 S36 / (gascon * T) + h0 S4 / (gascon * T)).
  { unfold resid. cbn [ar]. f_equal; [apply (gsum_lin _ (fun h => h0 h / (gascon * T)) (fun x => F36 x T D)); [lin|intros x Hx; apply (X36 x Hx)]|apply (gsum_lin _ (fun h => h0 h / (gascon * T)) (fun x => F4 x T D)); [lin|intros x Hx; apply (X4 x Hx)]]. }
  assert (QS : sr (resid T D) = - (hT S36 + hT S4) / gascon).
  { unfold resid. cbn [sr]. f_equal. f_equal. f_equal; [apply (gsum_lin _ hT (fun x => F36 x T D)); [lin|intros x Hx; apply (X36 x Hx)]|apply (gsum_lin _ hT (fun x => F4 x T D)); [lin|intros x Hx; apply (X4 x Hx)]]. }
  assert (QU : ur (resid T D) = ar (resid T D) + sr (resid T D)) by reflexivity.
  assert (QC : cvr (resid T D) = - T * hTT S36 / gascon + - T * hTT S4 / gascon).
  { unfold resid. cbn [cvr]. f_equal; [apply (gsum_lin _ (fun h => - T * hTT h / gascon) (fun x => F36 x T D)); [lin|intros x Hx; apply (X36 x Hx)]|].
    f_equal. apply (gsum_lin _ (fun h => - T * hTT h) (fun x => F4 x T D)); [lin|intros x Hx; apply (X4 x Hx)]. }
  assert (QT : dpdtr (resid T D) = D * D * hTD S36 + D * D * hTD S4).
  { unfold resid. cbn [dpdtr]. f_equal; [apply (gsum_lin _ (fun h => D * D * hTD h) (fun x => F36 x T D)); [lin|intros x Hx; apply (X36 x Hx)]|apply (gsum_lin _ (fun h => D * D * hTD h) (fun x => F4 x T D)); [lin|intros x Hx; apply (X4 x Hx)]]. }
  assert (R1 : gsum (fun x => r_dd36 x T D) terms36 + gsum (fun x => r_dd4 x T D) terms4 = hD S36 + hD S4).
  { f_equal; [apply (gsum_lin _ hD (fun x => F36 x T D)); [lin|intros x Hx; apply (X36 x Hx)]|apply (gsum_lin _ hD (fun x => F4 x T D)); [lin|intros x Hx; apply (X4 x Hx)]]. }
  assert (R2 : gsum (fun x => r_2dd36 x T D) terms36 + gsum (fun x => r_2dd4 x T D) terms4 = hDD S36 + (hDD S4 + bugs T D)).
  { f_equal; [apply (gsum_lin _ hDD (fun x => F36 x T D)); [lin|intros x Hx; apply (X36 x Hx)]|].
    assert (E : hDD S4 = gsum (fun x => hDD (F4 x T D)) terms4) by (symmetry; apply (gsum_lin _ hDD (fun x => F4 x T D)); [lin|reflexivity]). rewrite E. unfold bugs.
    assert (Z : forall l, (forall x, In x l -> r_2dd4 x T D = hDD (F4 x T D) + bug4 x T D) -> gsum (fun x => r_2dd4 x T D) l = gsum (fun x => hDD (F4 x T D)) l + gsum (fun x => bug4 x T D) l).
    { induction l as [|y l IH]; intro HL; [unfold gsum; cbn; ring|]. rewrite !gsum_cons, (HL y (or_introl eq_refl)), IH; [ring|]. intros z Hz. apply HL. now right. }
    apply Z. intros x Hx. apply (X4 x Hx). }
  assert (R3 : gsum (fun x => r_2ddt36 x T D) terms36 + gsum (fun x => r_2ddt4 x T D) terms4 = hTD S36 + hTD S4).
  { f_equal; [apply (gsum_lin _ hTD (fun x => F36 x T D)); [lin|intros x Hx; apply (X36 x Hx)]|apply (gsum_lin _ hTD (fun x => F4 x T D)); [lin|intros x Hx; apply (X4 x Hx)]]. }
  assert (R4 : gsum (fun x => r_2dtp36 x T D al) terms36 + gsum (fun x => r_2dtp4 x T D al) terms4 = (hTD S36 - al * D * hDD S36) + (hTD S4 - al * D * hDD S4)).
  { f_equal; [apply (gsum_lin _ (fun h => hTD h - al * D * hDD h) (fun x => F36 x T D)); [lin|intros x Hx; apply (X36 x Hx)]|apply (gsum_lin _ (fun h => hTD h - al * D * hDD h) (fun x => F4 x T D)); [lin|intros x Hx; apply (X4 x Hx)]]. }
  assert (R5 : gsum (fun x => r_3ddt36 x T D al) terms36 + gsum (fun x => r_3ddt4 x T D al) terms4 = (hTDD S36 - al * D * hDDD S36) + (hTDD S4 - al * D * hDDD S4)).
  { f_equal; [apply (gsum_lin _ (fun h => hTDD h - al * D * hDDD h) (fun x => F36 x T D)); [lin|intros x Hx; apply (X36 x Hx)]|apply (gsum_lin _ (fun h => hTDD h - al * D * hDDD h) (fun x => F4 x T D)); [lin|intros x Hx; apply (X4 x Hx)]]. }
  assert (R6 : gsum (fun x => r_3dtt36 x T D al) terms36 + gsum (fun x => r_3dtt4 x T D al) terms4 = (hTTD S36 - al * D * hTDD S36) + (hTTD S4 - al * D * hTDD S4)).
  { f_equal; [apply (gsum_lin _ (fun h => hTTD h - al * D * hTDD h) (fun x => F36 x T D)); [lin|intros x Hx; apply (X36 x Hx)]|apply (gsum_lin _ (fun h => hTTD h - al * D * hTDD h) (fun x => F4 x T D)); [lin|intros x Hx; apply (X4 x Hx)]]. }
  clear X36 X4. assert (Hx : 1 - 25 / 100 * b1 (bb T) * D <> 0) by lra.
  assert (EH : forall p : helm -> R, (forall a b, p (hadd a b) = p a + p b) -> p (Htot T D) = p (hadd (hadd (P1 T D) (P2 T D)) (P3 T D)) + p (P4 T D) + p S36 + p S4).
  { intros p Hp. unfold Htot. rewrite Hp, Hp, Hp. reflexivity. }
  rewrite !(EH h0), !(EH hT), !(EH hD), !(EH hTT), !(EH hTD), !(EH hDD), !(EH hTTD), !(EH hTDD), !(EH hDDD) by reflexivity. clear EH.
  unfold state_at, thm, press. cbv zeta. cbn [ad ud cvd dpdt dpdd]. unfold dal. cbv zeta. rewrite R1, R2, R3, R4, R5, R6, B6, B7, B8, B9, B10, B11. clear R1 R2 R3 R4 R5 R6 B6 B7 B8 B9 B10 B11.
  rewrite QU, Q0, Q5, QA, QS, QC, QT, I3, I4, I5, I6, I7, I8. clear QU Q0 Q5 QA QS QC QT I3 I4 I5 I6 I7 I8.
  clearbody S36 S4. revert Hx B0 B1 B2 B3 B4 B5 I0 I1 I2. generalize (bugs T D).
  generalize (hadd (hadd (P1 T D) (P2 T D)) (P3 T D)), (P4 T D). generalize (base (bb T) D T), (ideal T). generalize (1 - 25 / 100 * b1 (bb T) * D), kappa. clear Hb Hy H4 HR.
  generalize (ln (T * gascon / (101325 / 1000000))), uref, sref. generalize dependent gascon. intros R0 G0 l0 u0 s0 x k bs idl B I0' bg Hx B0 B1 B2 B3 B4 B5 I0 I1 I2.
  destruct B as [p0 p1 p2 p3 p4 p5 p6 p7 p8 p9]. destruct I0' as [i0 i1 i2 i3 i4 i5 i6 i7 i8 i9]. destruct S36 as [s_0 s_1 s_2 s_3 s_4 s_5 s_6 s_7 s_8 s_9]. destruct S4 as [r_0 r_1 r_2 r_3 r_4 r_5 r_6 r_7 r_8 r_9].
  cbn [h0 hT hD hTT hTD hDD hTTT hTTD hTDD hDDD] in *.
  assert (Ht' : T <> 0) by lra.
  split; [|split; [|split; [|split; [|split; [|split]]]]].
  - transitivity (p0 + i0 + s_0 + r_0); [reflexivity|]. rewrite B0, I0. field. repeat split; assumption.
  - replace (p0 + i0 + s_0 + r_0 - T * (p1 + i1 + s_1 + r_1)) with ((p0 - T * p1) + (i0 - T * i1) + (s_0 + r_0) - T * (s_1 + r_1)) by ring. rewrite B1, I1. field. now split.
  - replace (D * D * (p2 + 0 + s_2 + r_2)) with (D * D * p2 + D * D * s_2 + D * D * r_2) by ring. rewrite B2. ring.
  - replace (- T * (p3 + i3 + s_3 + r_3)) with (- T * p3 + - T * i3 + - T * (s_3 + r_3)) by ring. rewrite B3, I2. field. exact G0.
  - replace (D * D * (p4 + 0 + s_4 + r_4)) with (D * D * p4 + D * D * s_4 + D * D * r_4) by ring. rewrite B4. ring.
  - replace (2 * D * (p2 + 0 + s_2 + r_2) + D * D * (p5 + 0 + s_5 + r_5)) with ((2 * D * p2 + D * D * p5) + (2 * D * s_2 + D * D * s_5) + (2 * D * r_2 + D * D * r_5)) by ring. rewrite B5. ring.
  - replace (p5 + (s_5 + (r_5 + bg))) with (p5 + 0 + s_5 + r_5 + bg) by ring. replace (p2 + (s_2 + r_2)) with (p2 + 0 + s_2 + r_2) by ring. unfold Rdiv. f_equal. f_equal. ring.
Qed.
