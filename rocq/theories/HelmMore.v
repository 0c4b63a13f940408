(** The dimensioned table of Wagner and Pruss, and the third temperature derivative.  *)
From Coq Require Import List Bool Reals Lra Lia.
From Coquelicot Require Import Coquelicot.
From Verif Require Import RDeriv RDiff2 WaterModel WaterSpec HelmModel HelmJet HelmProofs SoluteProofs.
Import ListNotations.
Open Scope R_scope.

Definition dtau (T : R) : der := mkDer (wp_Tc / T) (- wp_Tc / (T * T)) (2 * wp_Tc / (T * T * T)) (-6 * wp_Tc / (T * T * T * T)).
Lemma j_tau : jet1 posx dtau.
Proof.
  intros x Hx. unfold posx in Hx. assert (N : x <> 0) by lra. destruct (jet1_inv x N) as [A [B C]]. cbn [d0 d1 d2 d3] in A, B, C. unfold dtau. generalize wp_Tc. intro c. split; [|split]; hp.
  - eapply d_eq; [exact (d_scal _ c x _ A)|field; exact N].
  - apply d_ext_pos with (fun u => c * - / u ^ 2); [exact Hx|intros; field; lra|]. eapply d_eq; [exact (d_scal _ c x _ B)|field; exact N].
  - apply d_ext_pos with (fun u => c * (2 / u ^ 3)); [exact Hx|intros; field; lra|]. eapply d_eq; [exact (d_scal _ c x _ C)|field; exact N].
Qed.
Definition wp_true (T D : R) : helm := hmul (hsep (mkDer (wp_R * T) wp_R 0 0) (cst 1)) (hsub (dtau T) (/ wp_Dc) (wp_phi (d0 (dtau T)) (D * / wp_Dc))).
Definition Wreg (T D : R) : Prop := 0 < T /\ 0 < D /\ D <> wp_Dc.
Lemma tc_pos : 0 < wp_Tc. Proof. unfold wp_Tc. lra. Qed.
Lemma dc_pos : 0 < wp_Dc. Proof. unfold wp_Dc. lra. Qed.
Lemma Wreg_U : forall T D, Wreg T D -> posx T /\ Uwp (d0 (dtau T)) (D * / wp_Dc).
Proof.
  intros T D [HT [HD N]]. assert (A := tc_pos). assert (B := dc_pos). split; [exact HT|]. unfold dtau; hp. split; [now apply Rdiv_lt_0_compat|split].
  - now apply Rdiv_lt_0_compat.
  - intro E. apply N. apply Rmult_eq_reg_r with (/ wp_Dc); [|apply Rinv_neq_0_compat; lra]. rewrite E. symmetry. apply Rinv_r. lra.
Qed.
Lemma wp_true_jet : jet Wreg wp_true.
Proof.
  unfold wp_true. apply jet_mul.
  - apply (jet_sep posx posx (fun T => mkDer (wp_R * T) wp_R 0 0) (fun _ => cst 1)); [|apply j_cst|intros T D [A [B _]]; now split].
    intros x _. split; [|split]; hp; [|apply d_const..]. eapply d_eq; [exact (d_scal _ wp_R x _ (d_id x))|ring].
  - eapply jet_sub; [exact Wreg_U|]. apply (jet_sub_var posx dtau (/ wp_Dc) Uwp wp_phi j_tau wp_phi_jet).
Qed.
Lemma open_wreg : open2 Wreg.
Proof.
  intros t d [Ht [Hd H1]]. set (c := wp_Dc) in *. assert (Q : 0 < Rabs (d - c)) by (apply Rabs_pos_lt; lra). set (m := Rmin t (Rmin d (Rabs (d - c)))).
  assert (M : 0 < m) by (unfold m; repeat apply Rmin_pos; assumption). exists (mkposreal m M). cbn. intros u v Hu Hv.
  assert (A : m <= t) by apply Rmin_l. assert (B : m <= Rmin d (Rabs (d - c))) by apply Rmin_r. assert (C := Rmin_l d (Rabs (d - c))). assert (D := Rmin_r d (Rabs (d - c))).
  apply near in Hu. apply near in Hv. split; [lra|split; [lra|]]. fold c. intros ->.
  unfold Rabs in D, B, C. destruct (Rcase_abs (d - c)); lra.
Qed.
(** the code's table with the third temperature derivative put right *)
Definition fixTTT (a : helm) (v : R) : helm := mkHelm (h0 a) (hT a) (hD a) (hTT a) (hTD a) (hDD a) v (hTTD a) (hTDD a) (hDDD a).
Lemma wp_fix : forall T D, Wreg T D -> wp_true T D = fixTTT (wagnerPruss T D) (hTTT (wp_true T D)).
Proof.
  intros T D [HT [HD _]]. unfold wp_true, wagnerPruss, wp_dim, fixTTT. cbv zeta. change (D / wp_Dc) with (D * / wp_Dc). unfold dtau. hp.
  assert (B := dc_pos). generalize (wp_phi (wp_Tc / T) (D * / wp_Dc)). intros [x0 x1 x2 x3 x4 x5 x6 x7 x8 x9]. unfold hsub. eqs; try reflexivity; generalize wp_R, wp_Tc; intros r c; field; lra.
Qed.
Lemma wp_fix_jet : jet Wreg (fun T D => fixTTT (wagnerPruss T D) (hTTT (wp_true T D))).
Proof. apply jet_ext with wp_true; [exact open_wreg|exact wp_fix|exact wp_true_jet]. Qed.
Theorem wp_table : forall T D, 0 < T -> 0 < D -> D <> wp_Dc -> helm1 wagnerPruss T D /\ helm2 wagnerPruss T D /\ helm3' wagnerPruss T D.
Proof.
  intros T D HT HD N. destruct (wp_fix_jet T D (conj HT (conj HD N))) as [A [[B1 B2] [C1 [C2 C3]]]]. unfold helm1 in A. unfold fixTTT in A, B1, B2, C1, C2, C3. cbn [h0 hT hD hTT hTD hDD hTTT hTTD hTDD hDDD] in A, B1, B2, C1, C2, C3.
  split; [exact A|split; [split; [exact B1|exact B2]|]]. split; [exact (e_2 _ _ _ _ _ C1)|split; [exact C2|exact C3]].
Qed.
(** the third temperature derivative *)
Theorem wp_TTT_iff : forall T D, 0 < T -> 0 < D -> D <> wp_Dc ->
  (is_derive (fun t : R => hTT (wagnerPruss t D)) T (hTTT (wagnerPruss T D)) <-> hTTT (wp_phi (wp_Tc / T) (D / wp_Dc)) = 0).
Proof.
  intros T D HT HD N. destruct (wp_fix_jet T D (conj HT (conj HD N))) as [A [[B1 B2] [C1 [C2 C3]]]]. unfold fixTTT in C1. cbn [hTT hTTT hTTD] in C1. apply e_1 in C1. cbv beta in C1.
  assert (E : hTTT (wagnerPruss T D) - hTTT (wp_true T D) = hTTT (wp_phi (wp_Tc / T) (D / wp_Dc)) * (wp_R * wp_Tc * wp_Tc * wp_Tc * (T * T + 1) / (T ^ 5))).
  { unfold wp_true, wagnerPruss, wp_dim. cbv zeta. change (D / wp_Dc) with (D * / wp_Dc). unfold dtau. hp.
    generalize (wp_phi (wp_Tc / T) (D * / wp_Dc)). intros [x0 x1 x2 x3 x4 x5 x6 x7 x8 x9]. unfold hsub, hmul, hsep, cst. hp. generalize wp_R, wp_Tc. intros r c. field. lra. }
  assert (K : wp_R * wp_Tc * wp_Tc * wp_Tc * (T * T + 1) / T ^ 5 <> 0).
  { assert (P5 : 0 < T ^ 5) by now apply pow_lt. assert (C := tc_pos). assert (RP : 0 < wp_R) by (unfold wp_R; lra). apply Rgt_not_eq. apply Rdiv_lt_0_compat; [|exact P5].
    assert (S := Rmult_lt_0_compat _ _ HT HT). generalize dependent wp_R. generalize dependent wp_Tc. intros. repeat apply Rmult_lt_0_compat; try assumption. lra. }
  split.
  - intro H. assert (Q := d_unique _ _ _ _ H C1). rewrite Q in E. replace (hTTT (wp_true T D) - hTTT (wp_true T D)) with 0 in E by ring. symmetry in E. apply Rmult_integral in E. destruct E; [assumption|contradiction].
  - intro Z. rewrite Z, Rmult_0_l in E. replace (hTTT (wagnerPruss T D)) with (hTTT (wp_true T D)) by lra. exact C1.
Qed.
(** near zero density only the ideal gas remains *)
Definition van (f : R -> R) : Prop := continuous f 0 /\ f 0 = 0.
Lemma van_plus : forall f g, van f -> van g -> van (fun x => f x + g x).
Proof. intros f g [A B] [C D]. split; [exact (continuous_plus f g 0 A C)|]. rewrite B, D. ring. Qed.
Lemma van_ex : forall f : R -> R, (exists l, is_derive f 0 l) -> f 0 = 0 -> van f.
Proof. intros f [l H] E. split; [|exact E]. apply (ex_derive_continuous (K := R_AbsRing) (V := R_NormedModule)). now exists l. Qed.
Lemma van_ext : forall f g : R -> R, (forall x, f x = g x) -> van f -> van g.
Proof. intros f g E [A B]. split; [now apply (continuous_ext f)|]. now rewrite <- E. Qed.
Lemma van_fold : forall (X : Type) (f : X -> R -> helm) (l : list X) (s : R -> helm), van (fun d => hTTT (s d)) -> (forall x, In x l -> van (fun d => hTTT (f x d))) ->
  van (fun d => hTTT (fold_left (fun s x => hadd s (f x d)) l (s d))).
Proof.
  intros X f l. induction l as [|x l IH]; intros s Hs H; cbn [fold_left]; [exact Hs|]. apply (IH (fun d => hadd (s d) (f x d))).
  - unfold hadd. hp. apply van_plus; [exact Hs|]. apply H. now left.
  - intros y Hy. apply H. now right.
Qed.
Lemma van_sum : forall (X : Type) (f : X -> R -> helm) (l : list X), (forall x, In x l -> van (fun d => hTTT (f x d))) -> van (fun d => hTTT (hsum (fun x => f x d) l)).
Proof. intros X f l H. unfold hsum. apply (van_fold X f l (fun _ => hzero)); [|exact H]. unfold hzero; hp. split; [apply continuous_const|reflexivity]. Qed.
Lemma pow0 : forall k : nat, (0 < k)%nat -> 0 ^ k = 0. Proof. intros [|k] H; [lia|]. cbn. ring. Qed.
Lemma van_a : forall n k e, (0 < k)%nat -> van (fun d => hTTT (wp_a (n, k, e) 1 d)).
Proof.
  intros n k e H. unfold wp_a. cbv zeta. hp. apply van_ex.
  - eexists. dr.
  - rewrite pow0 by exact H. unfold Rdiv. ring.
Qed.
Lemma van_b : forall n k e c, (0 < k)%nat -> van (fun d => hTTT (wp_b (n, k, e, c) 1 d)).
Proof.
  intros n k e c H. unfold wp_b. cbv zeta. hp. apply van_ex.
  - eexists. dr.
  - rewrite pow0 by exact H. unfold Rdiv. ring.
Qed.
Lemma van_c : forall n k e al be ga ep, (0 < k)%nat -> van (fun d => hTTT (wp_c (n, k, e, al, be, ga, ep) 1 d)).
Proof.
  intros n k e al be ga ep H. unfold wp_c. cbv zeta. hp. apply van_ex.
  - eexists. dr.
  - rewrite pow0 by exact H. unfold Rdiv. ring.
Qed.
Lemma van_mul : forall f g : R -> R, (exists l, is_derive f 0 l) -> van g -> van (fun x => g x * f x).
Proof. intros f g [l H] [A B]. split; [|rewrite B; ring]. apply (continuous_mult g f 0); [exact A|]. apply (ex_derive_continuous (K := R_AbsRing) (V := R_NormedModule)). now exists l. Qed.
Lemma van_gen : forall (De th Pw ps : R -> R) (b F l0 l1 l2 l3 : R), is_derive De 0 l0 -> is_derive th 0 l1 -> is_derive Pw 0 l2 -> is_derive ps 0 l3 -> De 0 <> 0 ->
  exists l, is_derive (fun d : R =>
    (b * 0 / De d + 3 * b * (b - 1) * (-2 * th d) * 2 / De d / De d + b * (b - 1) * (b - 2) * (-2 * th d / De d) ^ 3) * Pw d * ps d
    + 3 * ((b * 2 / De d + b * (b - 1) * (-2 * th d / De d) ^ 2) * Pw d) * (-2 * F * (1 - 1) * ps d)
    + 3 * (b * (-2 * th d) / De d * Pw d) * (-2 * F * (ps d + (1 - 1) * (-2 * F * (1 - 1) * ps d)))
    + Pw d * (-2 * F * (2 * (-2 * F * (1 - 1) * ps d) + (1 - 1) * (-2 * F * (ps d + (1 - 1) * (-2 * F * (1 - 1) * ps d)))))) 0 l.
Proof. intros De th Pw ps b F l0 l1 l2 l3 H0 H1 H2 H3 N. eexists. dr; exact N. Qed.
Lemma van_d : forall n a b A B C F E, E <> 0 -> 0 < B -> van (fun d => hTTT (wp_d (n, a, b, A, B, C, F, E) 1 d)).
Proof.
  intros n a b A B C F E HE HB.
  assert (P0 : exists l, is_derive (fun d : R => h0 (wp_theta A E 1 d)) 0 l).
  { unfold wp_theta. cbv zeta. hp. eexists. dr. lra. }
  destruct P0 as [l0 P0]. assert (PD : exists l, is_derive (fun d : R => h0 (wp_Delta a B (wp_theta A E 1 d) d)) 0 l).
  { unfold wp_Delta. cbv zeta. hp. eexists. eapply (d_plus (fun d => h0 (wp_theta A E 1 d) * h0 (wp_theta A E 1 d)) (fun d => B * Rpower ((d - 1) ^ 2) a)).
    - exact (d_mult _ _ _ _ _ P0 P0). - dr. lra. }
  destruct PD as [l1 P1]. assert (PP := wp_Delta_pos A E a B 1 0 HB ltac:(lra)).
  assert (P2 := d_Rpower _ b 0 l1 P1 PP). cbv beta in P2.
  assert (S : exists l, is_derive (fun d : R => exp (- C * (d - 1) ^ 2 - F * (1 - 1) ^ 2)) 0 l) by (eexists; dr). destruct S as [l3 P3].
  assert (X := van_gen _ _ _ _ b F _ _ _ _ P1 P0 P2 P3 (Rgt_not_eq _ _ PP)). cbv beta in X.
  assert (V : van (fun d => n * d)) by (apply van_ex; [eexists; dr|ring]).
  exact (van_mul _ _ X V).
Qed.
Ltac inlist Hx := cbn [In] in Hx; repeat match goal with H : _ \/ _ |- _ => destruct H as [H|H] end; try contradiction.
Definition res (d : R) : R := hTTT (hadd (hadd (hadd (hsum (fun x => wp_a x 1 d) wp_A) (hsum (fun x => wp_b x 1 d) wp_B)) (hsum (fun x => wp_c x 1 d) wp_C)) (hsum (fun x => wp_d x 1 d) wp_D)).
Lemma res_van : van res.
Proof.
  unfold res, hadd at 1 2 3. hp. apply van_plus; [apply van_plus; [apply van_plus|]|].
  - apply (van_sum _ (fun x d => wp_a x 1 d)). intros x Hx. unfold wp_A in Hx. inlist Hx; subst x; apply van_a; lia.
  - apply (van_sum _ (fun x d => wp_b x 1 d)). intros x Hx. unfold wp_B in Hx. inlist Hx; subst x; apply van_b; lia.
  - apply (van_sum _ (fun x d => wp_c x 1 d)). intros x Hx. unfold wp_C in Hx. inlist Hx; subst x; apply van_c; lia.
  - apply (van_sum _ (fun x d => wp_d x 1 d)). intros x Hx. unfold wp_D in Hx. inlist Hx; subst x; apply van_d; lra.
Qed.
Lemma ein_pos : forall x d, 0 < fst x -> 0 < snd x -> 0 < hTTT (wp_ein x 1 d).
Proof.
  intros [n g] d Hn Hg. cbn [fst snd] in *. unfold wp_ein. cbv zeta. hp.
  assert (E1 : 1 < exp (g * 1)) by (rewrite Rmult_1_r, <- exp_0; apply exp_increasing; lra). assert (Q : 0 < g / (exp (g * 1) - 1)) by (apply Rdiv_lt_0_compat; lra).
  apply Rmult_lt_0_compat; [|now apply pow_lt]. repeat apply Rmult_lt_0_compat; lra.
Qed.
Lemma pos_fold : forall (X : Type) (f : X -> helm) (l : list X) s, 0 <= hTTT s -> (forall x, In x l -> 0 < hTTT (f x)) -> 0 <= hTTT (fold_left (fun s x => hadd s (f x)) l s).
Proof.
  intros X f l. induction l as [|x l IH]; intros s Hs H; cbn [fold_left]; [exact Hs|]. apply IH.
  - unfold hadd; hp. assert (Q := H x (or_introl eq_refl)). lra.
  - intros y Hy. apply H. now right.
Qed.
Lemma ideal_pos : forall d, 6 <= hTTT (hadd (wp_id 1 d) (hsum (fun x => wp_ein x 1 d) wp_no)).
Proof.
  intro d. unfold hadd at 1. hp. assert (A : 0 <= hTTT (hsum (fun x => wp_ein x 1 d) wp_no)).
  { apply pos_fold; [unfold hzero; hp; lra|]. intros x Hx. unfold wp_no in Hx. inlist Hx; subst x; apply ein_pos; cbn [fst snd]; lra. }
  unfold wp_id at 1. hp. unfold wp_no3. lra.
Qed.
Theorem wp_phi_ttt : exists d, 0 < d < 1 /\ 0 < hTTT (wp_phi 1 d).
Proof.
  destruct res_van as [HC H0]. destruct (HC (fun y => -1 < y)) as [e He].
  { rewrite H0. exists (mkposreal 1 Rlt_0_1). intros y Hy. unfold ball in Hy; cbn in Hy. unfold AbsRing_ball, abs, minus, plus, opp in Hy; cbn in Hy. apply Rabs_def2 in Hy. lra. }
  set (d := Rmin (e / 2) (1 / 2)). assert (EP := cond_pos e). assert (DP : 0 < d) by (apply Rmin_pos; lra). assert (D1 : d <= 1 / 2) by apply Rmin_r. assert (D2 : d <= e / 2) by apply Rmin_l.
  assert (K : -1 < res d). { apply He. unfold ball; cbn. unfold AbsRing_ball, abs, minus, plus, opp; cbn. rewrite Ropp_0, Rplus_0_r, Rabs_right; lra. }
  exists d. split; [lra|]. assert (I := ideal_pos d). unfold wp_phi. unfold hadd at 1. hp. unfold res in K. lra.
Qed.
Theorem wp_TTT_refuted : exists T D, 0 < T /\ 0 < D /\ D <> wp_Dc /\ ~ is_derive (fun t : R => hTT (wagnerPruss t D)) T (hTTT (wagnerPruss T D)).
Proof.
  destruct wp_phi_ttt as [d [[D0 D1] P]]. assert (A := tc_pos). assert (B := dc_pos). exists wp_Tc, (d * wp_Dc).
  assert (N : d * wp_Dc <> wp_Dc) by (intro E; assert (d * wp_Dc < 1 * wp_Dc) by (now apply Rmult_lt_compat_r); lra). assert (DP : 0 < d * wp_Dc) by now apply Rmult_lt_0_compat.
  split; [exact A|split; [exact DP|split; [exact N|]]]. intro H. apply (wp_TTT_iff wp_Tc (d * wp_Dc) A DP N) in H.
  replace (wp_Tc / wp_Tc) with 1 in H by (field; lra). replace (d * wp_Dc / wp_Dc) with d in H by (field; lra). lra.
Qed.
