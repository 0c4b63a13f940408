(** Water of Haar, Gallagher and Kell: states that meet the hypotheses, and refutations.  *)
From Coq Require Import List Bool ZArith Reals Lra Lia.
From Coquelicot Require Import Coquelicot.
From Verif Require Import RDeriv RDiff2 RImplicit WaterModel WaterSpec HelmModel HelmJet HelmProofs HelmMore SoluteProofs HelmHgk GemsModel GemsSpec GemsJet GemsBase GemsTotal GemsIso GemsDie GemsLim GemsRef.
Import ListNotations.
Open Scope R_scope.

Lemma duniq : forall (f : R -> R) (x a b : R), is_derive f x a -> is_derive f x b -> a = b.
Proof. intros f x a b A B. rewrite <- (is_derive_unique _ _ _ A). exact (is_derive_unique _ _ _ B). Qed.
Lemma kappa_pos : 0 < kappa < 4 / 1000000000. Proof. unfold kappa, g1, g2. lra. Qed.
Lemma surplus_d : forall T D, 0 < T -> 25 / 100 * b1 (bb T) * D < 1 ->
  is_derive (fun d => surplus T d) D (2 * kappa * gascon * T * (25 / 100 * b1 (bb T)) / (1 - 25 / 100 * b1 (bb T) * D) ^ 3).
Proof.
  intros T D HT HY. unfold surplus. fold kappa. set (c := 25 / 100 * b1 (bb T)) in *. assert (N : 1 - c * D <> 0) by lra. eapply d_eq; [dr; apply pow_nonzero; exact N|]. cbv beta. cbn [INR Nat.pred pow]. field. exact N.
Qed.
Lemma surplus_nz : forall T D, 0 < T -> b1 (bb T) <> 0 -> 25 / 100 * b1 (bb T) * D < 1 -> 2 * kappa * gascon * T * (25 / 100 * b1 (bb T)) / (1 - 25 / 100 * b1 (bb T) * D) ^ 3 <> 0.
Proof.
  intros T D HT HB HY. assert (K := kappa_pos). assert (G := gas_p). unfold Rdiv. apply Rmult_integral_contrapositive_currified; [|apply Rinv_neq_0_compat, pow_nonzero; lra].
  repeat apply Rmult_integral_contrapositive_currified; try lra; try exact HB.
Qed.
(** the Helmholtz energy is never quite consistent *)
Lemma helmholtz_wrong : forall T D, regular T D -> ~ is_derive (fun d => gascon * T * ad (state_at T d)) D (press T D / D ^ 2).
Proof.
  intros T D HR H. assert (HR' := HR). destruct HR' as [HT [HD [HB [HY _]]]]. assert (A := e_2 _ _ _ _ _ (helmholtz_d T D HR)). cbv beta in A. assert (S := surplus_d T D HT HY).
  assert (B := d_plus _ _ _ _ _ A S). assert (C : is_derive (fun d : R => gascon * T * ad (state_at T d)) D (press T D / D ^ 2 + 2 * kappa * gascon * T * (25 / 100 * b1 (bb T)) / (1 - 25 / 100 * b1 (bb T) * D) ^ 3)) by (eapply d_ext; [|exact B]; intro u; cbv beta; ring).
  assert (F := duniq _ _ _ _ H C). apply (surplus_nz T D HT HB HY). lra.
Qed.
(** the molar volume is not the slope of the molar Gibbs energy *)
Lemma volume_wrong : forall w rho T P, regular T (rho T P) -> solves rho T P -> 0 < dpdd (state_at T (rho T P)) -> 0 < b1 (bb T) -> ~ is_derive (fun p => o_G (thermo w rho T (p / 10))) (10 * P) (o_V (thermo w rho T P)).
Proof.
  intros w rho T P HR HS HN HB H. assert (N : dpdd (state_at T (rho T P)) <> 0) by lra. assert (A := e_2 _ _ _ _ _ (gibbs_d w rho T P HR HS N)). cbv beta in A. assert (RD := e_2 _ _ _ _ _ (rho_d rho T P HR HS N)). cbv beta in RD. destruct HR as [HT [HD [HB' [HY _]]]]. set (D := rho T P) in *.
  assert (S := surplus_d T D HT HY). assert (S2 := d_comp (fun d => surplus T d) (fun p => rho T p) P _ _ S RD). cbv beta in S2. assert (B := d_plus _ _ _ _ _ A (d_scal _ molar _ _ S2)). cbv beta in B.
  assert (C : is_derive (fun p : R => o_G (thermo w rho T p)) P (molar / D + molar * (2 * kappa * gascon * T * (25 / 100 * b1 (bb T)) / (1 - 25 / 100 * b1 (bb T) * D) ^ 3 * (1 / dpdd (state_at T D))))) by (eapply d_ext; [|exact B]; intro u; cbv beta; ring).
  assert (Q : is_derive (fun p : R => p / 10) (10 * P) (1 / 10)) by (eapply d_eq; [dr; lra|cbv beta; field]).
  assert (C' : is_derive (fun p : R => o_G (thermo w rho T p)) (10 * P / 10) (molar / D + molar * (2 * kappa * gascon * T * (25 / 100 * b1 (bb T)) / (1 - 25 / 100 * b1 (bb T) * D) ^ 3 * (1 / dpdd (state_at T D))))) by (replace (10 * P / 10) with P by field; exact C).
  assert (Z := d_comp (fun p => o_G (thermo w rho T p)) (fun p => p / 10) (10 * P) _ _ C' Q). cbv beta in Z.
  assert (F := duniq _ _ _ _ H Z). clear Z C' C B A S2 S RD H.
  unfold thermo, therm_out in F. cbn [o_V] in F. fold D in F. assert (K := kappa_pos). assert (G := gas_p).
  assert (X : 0 < 2 * kappa * gascon * T * (25 / 100 * b1 (bb T)) / (1 - 25 / 100 * b1 (bb T) * D) ^ 3 * (1 / dpdd (state_at T D))).
  { apply Rmult_lt_0_compat; [apply Rdiv_lt_0_compat; [repeat apply Rmult_lt_0_compat; lra|apply pow_lt; lra]|apply Rdiv_lt_0_compat; lra]. }
  set (x := 2 * kappa * gascon * T * (25 / 100 * b1 (bb T)) / (1 - 25 / 100 * b1 (bb T) * D) ^ 3 * (1 / dpdd (state_at T D))) in *. clearbody x.
  assert (ID : 0 < 1 / D) by (apply Rdiv_lt_0_compat; lra). replace (molar / D) with (molar * (1 / D)) in F by (field; lra). generalize dependent (1 / D). intros i F ID. unfold molar, un_fh, cal_to_J, H2OMolarMass in F. lra.
Qed.
(** *** states of low density *)
Lemma eps_low : forall T, off T -> near0 (fun d => gsum (fun j => jn_c T j * d ^ j) jn_j) 1.
Proof.
  intros T _. unfold gsum, jn_j. cbn [fold_left]. eapply (n_ext (fun d => 1 + d * (jn_c T 1 + jn_c T 2 * d + jn_c T 3 * d ^ 2 + jn_c T 4 * d ^ 3)) _ _ 1); [lra|intros d Hd; change (jn_c T 0) with 1; cbn [pow]; ring|].
  eapply n_eq; [apply (n_plus (fun _ => 1)); [apply n_const|apply n_small; bd]|ring].
Qed.
Lemma press_low : forall T, off T -> near0 (fun d => press T d) 0.
Proof.
  intros T H. destruct (low T H) as [e [He A]]. assert (L := l_D T (proj1 H)). assert (B := n_small _ (n_bnd _ _ L)). apply (n_ext (fun d => d * (d * hD (Htot T d))) _ _ e He); [|exact B].
  intros d Hd. destruct (A d Hd) as [HR _]. destruct (tot T d HR) as (_ & _ & E & _). rewrite <- E. ring.
Qed.
Lemma sample : forall T, off T -> exists d rho, 0 < d /\ rho T (press T d) = d /\ solves rho T (press T d) /\ regular T d /\ 0 < dpdd (state_at T d) /\ press T d < 500 /\
  gsum (fun j => jn_c T j * d ^ j) jn_j <> 0 /\ gsum (fun j => INR j * jn_c T j * d ^ j) jn_j <> 0.
Proof.
  intros T H. destruct (low T H) as [e1 [H1 A]]. destruct (n_nz _ _ (eps_low T H) ltac:(lra)) as [e2 [H2 B]]. assert (C0 : near0 (fun d => 500 - press T d) 500) by (eapply n_eq; [apply (n_minus (fun _ => 500)); [apply n_const|apply (press_low T H)]|ring]). destruct (n_pos _ _ C0 ltac:(lra)) as [e3 [H3 C]].
  assert (HT := proj1 H).
  assert (D0 : near0 (fun d => jn_c T 1 + d * (2 * jn_c T 2 + 3 * jn_c T 3 * d + 4 * jn_c T 4 * d ^ 2)) (jn_c T 1)) by (eapply n_eq; [apply (n_plus (fun _ => jn_c T 1)); [apply n_const|apply n_small; bd]|ring]).
  assert (J1 : jn_c T 1 <> 0). { unfold jn_c. cbv zeta. assert (0 < T / Tref) by (apply Rdiv_lt_0_compat; [exact HT|unfold Tref; lra]). assert (0 < 1470333593 / 100000000 / (T / Tref)) by (apply Rdiv_lt_0_compat; lra). lra. }
  destruct (n_nz _ _ D0 J1) as [e4 [H4 D]].
  destruct (two_e _ _ _ _ H1 H2 A B) as [E1 Q1]. destruct (two_e _ _ _ _ H3 H4 C D) as [E2 Q2]. destruct (two_e _ _ _ _ E1 E2 Q1 Q2) as [E3 Q3]. set (e := Rmin (Rmin e1 e2) (Rmin e3 e4)) in *. destruct (Q3 (e / 2) ltac:(lra)) as [[[X1 X2] X3] [X4 X5]].
  set (d := e / 2) in *. assert (dp : 0 < d) by (unfold d; lra). destruct (density_ex T d X1) as [rho [Y1 Y2]]; [lra|]. exists d, rho. split; [exact dp|split; [exact Y1|split; [exact Y2|split; [exact X1|split; [exact X2|split; [lra|split; [exact X3|]]]]]]].
  intro Z. apply X5. unfold gsum, jn_j in Z. cbn [fold_left] in Z. replace (jn_c T 1 + d * (2 * jn_c T 2 + 3 * jn_c T 3 * d + 4 * jn_c T 4 * d ^ 2)) with ((0 + INR 0 * jn_c T 0 * d ^ 0 + INR 1 * jn_c T 1 * d ^ 1 + INR 2 * jn_c T 2 * d ^ 2 + INR 3 * jn_c T 3 * d ^ 3 + INR 4 * jn_c T 4 * d ^ 4) / d) by (cbn [INR pow]; field; lra). rewrite Z. unfold Rdiv. ring.
Qed.
(** *** the expansivity at the temperature tz *)
Lemma expansivity_wrong : exists T P rho, regular T (rho T P) /\ solves rho T P /\ 0 < dpdd (state_at T (rho T P)) /\
  forall w, ~ is_derive (fun t => o_alpha (solvent w rho t P)) T (o_dal (solvent w rho T P)) /\ ~ is_derive (fun t => o_rhoT (solvent w rho t P)) T (o_rhoTT (solvent w rho T P)).
Proof.
  destruct slope_wrong as [e1 [H1 A]]. destruct (low tz off_tz) as [e2 [H2 B]]. destruct (two_e _ _ _ _ H1 H2 A B) as [E Q]. destruct (Q (Rmin e1 e2 / 2) ltac:(lra)) as [X [Y Z]]. set (d := Rmin e1 e2 / 2) in *. assert (dp : 0 < d) by (unfold d; lra).
  destruct (density_ex tz d Y) as [rho [U V]]; [lra|]. exists tz, (press tz d), rho. rewrite U. split; [exact Y|split; [exact V|split; [exact Z|]]]. intro w.
  assert (HR : regular tz (rho tz (press tz d))) by (rewrite U; exact Y). assert (HN : dpdd (state_at tz (rho tz (press tz d))) <> 0) by (rewrite U; lra).
  assert (AD := alpha_d w rho tz (press tz d) HR V HN). assert (DV := dal_val w rho tz (press tz d) HR HN). rewrite U in AD, DV.
  assert (N1 : ~ is_derive (fun t => o_alpha (solvent w rho t (press tz d))) tz (o_dal (solvent w rho tz (press tz d)))).
  { intro F. apply X. rewrite <- DV. exact (duniq _ _ _ _ F AD). }
  split; [exact N1|]. intro F. apply X. rewrite <- DV.
  destruct (solv_d w rho tz (press tz d) HR V HN) as (S & E1 & _). cbv zeta in S, E1. assert (S1 := e_1 _ _ _ _ _ S). cbv beta in S1. rewrite E1 in S1.
  assert (G := d_mult _ _ _ _ _ (d_opp _ _ _ AD) S1). cbv beta in G.
  assert (G' : is_derive (fun t : R => o_rhoT (solvent w rho t (press tz d))) tz (- slope d (Htot tz d) 0 * o_rho (solvent w rho tz (press tz d)) + - o_alpha (solvent w rho tz (press tz d)) * (- o_alpha (solvent w rho tz (press tz d)) * o_rho (solvent w rho tz (press tz d))))) by (apply (is_derive_ext _ _ _ _ (fun _ => eq_refl) G)).
  assert (F2 := duniq _ _ _ _ F G').
  replace (o_rhoTT (solvent w rho tz (press tz d))) with (o_rho (solvent w rho tz (press tz d)) * (o_alpha (solvent w rho tz (press tz d)) ^ 2 - o_dal (solvent w rho tz (press tz d)))) in F2 by reflexivity.
  assert (RP : o_rho (solvent w rho tz (press tz d)) = d * 1000) by (unfold solvent, solv_out; cbv zeta; cbn [o_rho]; now rewrite U). rewrite RP in F2.
  apply Rmult_eq_reg_l with (d * 1000); [|lra]. lra.
Qed.
(** *** the dielectric constant by pressure *)
Lemma epsP_scale : forall w rho t p, o_eps (dielectric w rho t p) ^ 2 * o_Q (dielectric w rho t p) = o_epsP (dielectric w rho t p) / 100000.
Proof. intros. unfold dielectric, elec_out. cbn [o_eps o_Q o_epsP]. field. Qed.
Lemma epsP_low : forall T w, off T -> T < 1273 -> exists d rho, rho T (press T d) = d /\ solves rho T (press T d) /\ regular T d /\ 0 < dpdd (state_at T d) /\ press T d < 500 /\ o_eps (dielectric w rho T (press T d)) <> 0 /\ o_epsP (dielectric w rho T (press T d)) <> 0.
Proof.
  intros T w H LT. destruct (sample T H) as (d & rho & dp & E & S & HR & N & LP & E1 & E2). exists d, rho. do 5 (split; [assumption|]). split.
  - rewrite (wat_die w rho T (press T d)) by lra. unfold elec_out, epsBrn, dd0. cbv zeta. cbn [w_born w_eps o_eps]. rewrite E. unfold jn91. cbn [eps]. exact E1.
  - rewrite (wat_die w rho T (press T d)) by lra. unfold elec_out, epsBrn, dd0. cbv zeta. cbn [w_born w_eps w_Q o_epsP]. rewrite E. unfold jn91. cbn [eps dedP]. set (q := gsum (fun j => INR j * jn_c T j * d ^ j) jn_j) in *. set (r := gsum (fun j => jn_c T j * d ^ j) jn_j) in *.
    replace (1 / r ^ 2 * (q * (1 / (d * dpdd (state_at T d) * un_fp))) * r ^ 2) with (q * (1 / (d * dpdd (state_at T d) * un_fp))) by (unfold un_fp; field; repeat split; lra || exact E1).
    apply Rmult_integral_contrapositive_currified; [exact E2|]. unfold un_fp. assert (0 < 1 / (d * dpdd (state_at T d) * 10)) by (apply Rdiv_lt_0_compat; [lra|]; repeat apply Rmult_lt_0_compat; lra). lra.
Qed.
(** *** ordinary temperatures *)
Lemma b1_300 : 0 < b1 (bb 300).
Proof.
  unfold bb. cbv zeta. cbn [b1]. unfold gsum, bb_i, bp. cbn [fold_left nth Nat.sub vv]. assert (L : ln (1 / (1 * tz / 300)) < 0). { rewrite <- ln_1. apply ln_increasing; unfold tz; lra. }
  generalize dependent (ln (1 / (1 * tz / 300))). intros l L. unfold tz. lra.
Qed.
Lemma off_300 : off 300.
Proof. split; [lra|split; [assert (B := b1_300); lra|]]. intros x Hx. unfold terms4 in Hx. inl Hx; cbn [e_at e_tz]; unfold EXPTOL; lra. Qed.
Lemma cut_300 : cut 300. Proof. unfold cut, EXPTOL. lra. Qed.
Lemma cut_die : forall w rho T P, regular T (rho T P) -> solves rho T P -> dpdd (state_at T (rho T P)) <> 0 -> T < 1273 -> P < 500 -> o_eps (dielectric w rho T P) <> 0 -> cut T ->
  is_derive (fun t => o_epsT (dielectric w rho t P)) T (o_epsTT (dielectric w rho T P)) /\ is_derive (fun t => o_Y (dielectric w rho t P)) T (o_X (dielectric w rho T P)).
Proof. intros w rho T P HR HS HN LT LP HE C. apply (die_2 w rho T P HR HS HN); [lra|lra|exact HE|apply bugs_cut; exact C]. Qed.
Lemma die_1 : forall w rho T P, regular T (rho T P) -> solves rho T P -> dpdd (state_at T (rho T P)) <> 0 -> T < 1273 -> P < 500 -> o_eps (dielectric w rho T P) <> 0 -> let o := dielectric w rho in
  diff2 (fun t p => o_eps (o t p)) T P (o_epsT (o T P)) (10 * o_epsP (o T P)) /\ diff2 (fun t p => o_Z (o t p)) T P (o_Y (o T P)) (1000000 * o_Q (o T P)) /\ o_Z (o T P) = - 1 / o_eps (o T P).
Proof. intros w rho T P HR HS HN LT LP HE. apply (die_d w rho T P HR HS HN); [lra|lra|exact HE]. Qed.
Lemma epsP_wrong : exists T P rho, regular T (rho T P) /\ solves rho T P /\ 0 < dpdd (state_at T (rho T P)) /\ T < 1273 /\ P < 500 /\
  forall w, ~ is_derive (fun p => o_eps (dielectric w rho T (p / 1000000))) (1000000 * P) (o_epsP (dielectric w rho T P)).
Proof.
  destruct (epsP_low 300 (mkTri 0 0 0 0 0) off_300 ltac:(lra)) as (d & rho & E & S & HR & N & LP & E1 & E2). exists 300, (press 300 d), rho. rewrite E. split; [exact HR|split; [exact S|split; [exact N|split; [lra|split; [exact LP|]]]]].
  intros w H. assert (HR' : regular 300 (rho 300 (press 300 d))) by (rewrite E; exact HR). assert (N' : dpdd (state_at 300 (rho 300 (press 300 d))) <> 0) by (rewrite E; lra).
  assert (W : forall p, p < 500 -> dielectric w rho 300 p = dielectric (mkTri 0 0 0 0 0) rho 300 p) by (intros; rewrite !wat_die by lra; reflexivity).
  rewrite <- (W _ LP) in E1, E2. destruct (die_1 w rho 300 (press 300 d) HR' S N' ltac:(lra) LP E1) as [A _]. cbv zeta in A. assert (A2 := e_2 _ _ _ _ _ A). cbv beta in A2.
  assert (Q : is_derive (fun p : R => p / 1000000) (1000000 * press 300 d) (1 / 1000000)) by (eapply d_eq; [dr; lra|cbv beta; field]).
  assert (A3 : is_derive (fun p : R => o_eps (dielectric w rho 300 p)) (1000000 * press 300 d / 1000000) (10 * o_epsP (dielectric w rho 300 (press 300 d)))) by (replace (1000000 * press 300 d / 1000000) with (press 300 d) by field; exact A2).
  assert (Z := d_comp (fun p => o_eps (dielectric w rho 300 p)) (fun p => p / 1000000) (1000000 * press 300 d) _ _ A3 Q). cbv beta in Z. assert (F := duniq _ _ _ _ H Z). apply E2. lra.
Qed.
Lemma born_off : forall w rho T P, (1000 + 1 / 1000 < T - 27315 / 100 \/ 5000 + 1 / 1000 < P * 10) -> o_eps (dielectric w rho T P) = 0 /\ o_Z (dielectric w rho T P) = 0.
Proof.
  intros w rho T P H. unfold dielectric, elec_out, wat, dim, born92. cbv zeta. cbn [w_born o_eps o_Z]. destruct (Rlt_dec (1000 + 1 / 1000) (T - 27315 / 100)) as [_|A]; [split; reflexivity|]. destruct (Rlt_dec (5000 + 1 / 1000) (P * 10)) as [_|B]; [split; reflexivity|]. destruct H; lra.
Qed.
