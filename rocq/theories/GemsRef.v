(** Where water of Haar, Gallagher and Kell as GEMS computes it departs from its own derivatives.  *)
From Coq Require Import List Bool ZArith Reals Lra Lia.
From Coquelicot Require Import Coquelicot.
From Verif Require Import RDeriv RDiff2 RImplicit WaterModel WaterSpec HelmModel HelmJet HelmProofs HelmMore SoluteProofs HelmHgk GemsModel GemsSpec GemsJet GemsBase GemsTotal GemsIso GemsDie GemsLim.
Import ListNotations.
Open Scope R_scope.

Lemma vv1 : forall n, vv tz n = 1. Proof. assert (Z := tz_pos). induction n as [|n IH]; [reflexivity|]. cbn [vv]. rewrite IH. field. lra. Qed.
Lemma b1_tz : b1 (bb tz) = 7478629 / 10000000 + 7159876 / 1000000000 - 3528426 / 1000000000.
Proof.
  unfold bb. cbv zeta. cbn [b1]. rewrite !vv1. replace (1 / 1) with 1 by field. rewrite ln_1. unfold gsum, bb_i, bp. cbn [fold_left nth Nat.sub]. rewrite !vv1. lra.
Qed.
Lemma off_tz : off tz.
Proof.
  split; [exact tz_pos|split; [rewrite b1_tz; lra|]]. intros x Hx. unfold terms4 in Hx. inl Hx; cbn [e_at e_tz]; unfold tz, EXPTOL; lra.
Qed.
Definition t38 : t4 := mkT4 (- (168 / 100)) 2 2 (319 / 1000) 40 640 20000.
Lemma bugs_38 : forall t d, bugs t d = bug4 t38 t d.
Proof.
  assert (Z : forall x t d, e_km x = 0%nat -> bug4 x t d = 0) by (intros x t d H; unfold bug4; rewrite H; cbn [INR]; ring).
  intros t d. unfold bugs, terms4, gsum. cbn [fold_left]. fold t38. rewrite (Z (mkT4 (- (225 / 1000)) 2 0 (319 / 1000) 34 640 20000)), (Z (mkT4 (55 / 1000) 2 0 (319 / 1000) 30 (6416 / 10) 40000)), (Z (mkT4 (-93) 4 0 (155 / 100) 1050 270 25)) by reflexivity. ring.
Qed.
Lemma bugs_cut : forall T D, cut T -> bugs T D = 0.
Proof.
  intros T D H. rewrite bugs_38. unfold bug4, x12_4, tex4. destruct (Rle_dec (ex2_4 t38 T) EXPTOL) as [_|N]; [unfold Rdiv; rewrite !Rmult_0_r, !Rmult_0_l; reflexivity|]. exfalso. apply N. left. unfold ex2_4, tau4, t38. cbn [e_at e_tz]. exact H.
Qed.
Definition texz : R := exp (ex2_4 t38 tz).
Lemma x12_low : forall d, 0 < d < 1 / 100 -> del4 t38 d = d / (319 / 1000) - 1 /\ x12_4 t38 tz d = exp (- 40 * (d / (319 / 1000) - 1) ^ 2) * texz.
Proof.
  intros d Hd. assert (E : del4 t38 d = d / (319 / 1000) - 1). { unfold del4, t38. cbn [e_dz]. cbv zeta. destruct (Rlt_dec (Rabs (d / (319 / 1000) - 1)) (1 / 10000000000)) as [Z|_]; [|reflexivity]. rewrite Rabs_left in Z by lra. lra. }
  split; [exact E|]. unfold x12_4, tex4. destruct (Rle_dec (ex2_4 t38 tz) EXPTOL) as [Z|_]; [unfold ex2_4, tau4, t38, tz, EXPTOL in Z; cbn [e_at e_tz] in Z; lra|].
  assert (X : ex1_4 t38 d = - 40 * (d / (319 / 1000) - 1) ^ 2) by (unfold ex1_4; rewrite E; reflexivity). rewrite X. destruct (Rlt_dec (- 40 * (d / (319 / 1000) - 1) ^ 2) EXPTOL) as [Z|_]; [|reflexivity].
  exfalso. revert Z. unfold EXPTOL. set (y := d / (319 / 1000) - 1). assert (-1 <= y <= - (9 / 10)) by (unfold y; lra). cbn [pow]. nra.
Qed.
Lemma bug_low : forall d, 0 < d < 1 / 100 -> bugs tz d = - (168 / 100) * 2 / (319 / 1000) / (319 / 1000) * (exp (- 40 * (d / (319 / 1000) - 1) ^ 2) * texz) * (1 - (d / (319 / 1000) - 1) ^ 2 / (319 / 1000) / (319 / 1000)).
Proof.
  intros d Hd. rewrite bugs_38. destruct (x12_low d Hd) as [E X]. unfold bug4. rewrite E, X. unfold t38. cbn [e_g e_km e_dz INR pow]. set (y := d / (319 / 1000) - 1). assert (y <> 0) by (unfold y; lra).
  generalize (exp (- 40 * (y * (y * 1)))), texz. intros a b. field. assumption.
Qed.
Lemma bug_nz : forall d, 0 < d < 1 / 100 -> bugs tz d <> 0.
Proof.
  intros d Hd. rewrite (bug_low d Hd). set (y := d / (319 / 1000) - 1). assert (A : -1 <= y <= - (9 / 10)) by (unfold y; lra). assert (B : 81 / 100 <= y ^ 2) by nra.
  assert (P1 := exp_pos (- 40 * y ^ 2)). assert (P2 := exp_pos (ex2_4 t38 tz)). fold texz in P2.
  assert (0 < exp (- 40 * y ^ 2) * texz) by (now apply Rmult_lt_0_compat). set (q := exp (- 40 * y ^ 2) * texz) in *. set (z := 1 - y ^ 2 / (319 / 1000) / (319 / 1000)). assert (Z : z < 0) by (unfold z; lra). nra.
Qed.
Lemma bug_bnd : bnd (bugs tz).
Proof.
  apply (bnd_ext (fun d => - (168 / 100) * 2 / (319 / 1000) / (319 / 1000) * (exp (- 40 * (d / (319 / 1000) - 1) ^ 2) * texz) * (1 - (d / (319 / 1000) - 1) ^ 2 / (319 / 1000) / (319 / 1000))) _ (1 / 100)); [lra|intros d Hd; now rewrite (bug_low d Hd)|bd].
Qed.
(** *** the slope of the expansivity *)
Section Scaled.
Variables (d A1 A2 M1 N3 K C3 b : R).
Hypothesis Hd : d <> 0.
Let a1 := d * A1. Let a2 := d * d * A2. Let m := d * M1. Let n3 := d * N3. Let k := d * d * K. Let c3 := d * d * d * C3. Let q := d * d * b.
Let E := 2 * a1 + a2.
Let al := m / E.
Let dN := n3 - al * k.
Let X2 := - m * (2 * (m - al * a2) + (k - al * c3) - al * a2).
Definition Gs : R := (dN + m * al) * (E * E) - (dN * E + X2) * (2 * E + q).
Lemma scaled_ne : E <> 0 -> E + q <> 0 -> b <> 0 -> Gs <> 0 ->
  slope d (mkHelm 0 0 A1 0 M1 A2 0 N3 K C3) b <> slope d (mkHelm 0 0 A1 0 M1 A2 0 N3 K C3) 0.
Proof.
  intros HE HQ Hb HG Z. unfold slope in Z. cbv zeta in Z. cbn [hD hDD hTD hTTD hTDD hDDD] in Z.
  assert (D0 : 2 * A1 + d * A2 <> 0) by (intro Y; apply HE; unfold E, a1, a2; replace (2 * (d * A1) + d * d * A2) with (d * (2 * A1 + d * A2)) by ring; rewrite Y; ring).
  assert (D1 : 2 * A1 + d * (A2 + b) <> 0) by (intro Y; apply HQ; unfold E, q, a1, a2; replace (2 * (d * A1) + d * d * A2 + d * d * b) with (d * (2 * A1 + d * (A2 + b))) by ring; rewrite Y; ring).
  assert (W : q * Gs = 0).
  { assert (AL : M1 / (2 * A1 + d * A2) = al) by (unfold al; replace E with (d * (2 * A1 + d * A2)) by (unfold E, a1, a2; ring); unfold m; field; split; assumption). rewrite AL in Z.
    assert (S0 : 2 * A1 + d * (A2 + 0) = E / d) by (unfold E, a1, a2; field; exact Hd). assert (S1 : 2 * A1 + d * (A2 + b) = (E + q) / d) by (unfold E, q, a1, a2; field; exact Hd). rewrite S0, S1 in Z.
    assert (T1 : (N3 - al * d * K) * ((E + q) / d) - M1 * (2 * (M1 - al * d * A2) + d * (K - al * d * C3) - d * al * (A2 + b)) = (dN * (E + q) + X2 + m * al * q) / (d * d)).
    { unfold dN, X2, q, n3, k, m, c3, a2. generalize al, E. intros. field. exact Hd. }
    assert (T0 : (N3 - al * d * K) * (E / d) - M1 * (2 * (M1 - al * d * A2) + d * (K - al * d * C3) - d * al * (A2 + 0)) = (dN * E + X2) / (d * d)).
    { unfold dN, X2, q, n3, k, m, c3, a2. generalize al, E. intros. field. exact Hd. }
    rewrite T0, T1 in Z. clear T0 T1 S0 S1 AL D0 D1. unfold Gs. clearbody dN X2 m al q. clearbody E.
    assert (Z1 : (dN * (E + q) + X2 + m * al * q) * (E * E) = (dN * E + X2) * ((E + q) * (E + q))).
    { apply (f_equal (fun v => v * (E * E) * ((E + q) * (E + q)))) in Z. replace ((dN * (E + q) + X2 + m * al * q) * (E * E)) with ((dN * (E + q) + X2 + m * al * q) / (d * d) / ((E + q) / d) / ((E + q) / d) * (E * E) * ((E + q) * (E + q))) by (field; split; assumption). rewrite Z. field. split; assumption. }
    replace (q * ((dN + m * al) * (E * E) - (dN * E + X2) * (2 * E + q))) with ((dN * (E + q) + X2 + m * al * q) * (E * E) - (dN * E + X2) * ((E + q) * (E + q))) by ring. rewrite Z1. ring. }
  apply Rmult_integral in W. destruct W as [W|W]; [|contradiction]. apply Hb. unfold q in W. apply Rmult_integral in W. destruct W as [W|W]; [|exact W]. exfalso. apply Hd. nra.
Qed.
End Scaled.
Lemma slope_wrong : exists e, 0 < e /\ forall d, 0 < d < e -> slope d (Htot tz d) (bugs tz d) <> slope d (Htot tz d) 0.
Proof.
  assert (TP := tz_pos). assert (GP := gas_p). assert (L1 := l_D tz TP). assert (L2 := l_DD tz TP). assert (L3 := l_TD tz TP). assert (L4 := l_TTD tz TP). assert (L5 := l_TDD tz TP). assert (L6 := l_DDD tz TP).
  assert (LQ : near0 (fun d => d * d * bugs tz d) 0) by (apply (n_ext (fun d => d * (d * bugs tz d)) _ _ 1); [lra|intros; ring|]; apply (n_small (fun d => d * bugs tz d)), (bnd_mult (fun d => d)); [apply bnd_id|apply bug_bnd]).
  assert (RT : gascon * tz <> 0) by nra.
  assert (LE : near0 (fun d => 2 * (d * hD (Htot tz d)) + d * d * hDD (Htot tz d)) (gascon * tz)) by (eapply n_eq; [nr|ring]).
  assert (LA : near0 (fun d => d * hTD (Htot tz d) / (2 * (d * hD (Htot tz d)) + d * d * hDD (Htot tz d))) (1 / tz)) by (eapply n_eq; [nr; exact RT|field; lra]).
  assert (LG : near0 (fun d => Gs d (hD (Htot tz d)) (hDD (Htot tz d)) (hTD (Htot tz d)) (hTTD (Htot tz d)) (hTDD (Htot tz d)) (hDDD (Htot tz d)) (bugs tz d)) (4 * gascon * gascon * gascon * tz)).
  { unfold Gs. cbv zeta. eapply n_eq; [nr|]. cbv beta. field. lra. }
  destruct (n_nz _ _ LE RT) as [e1 [H1 A]]. assert (LEQ : near0 (fun d => 2 * (d * hD (Htot tz d)) + d * d * hDD (Htot tz d) + d * d * bugs tz d) (gascon * tz)) by (eapply n_eq; [nr|ring]). destruct (n_nz _ _ LEQ RT) as [e2 [H2 B]].
  assert (G0 : 4 * gascon * gascon * gascon * tz <> 0) by (assert (0 < gascon * gascon) by nra; assert (0 < gascon * gascon * gascon) by nra; nra). destruct (n_nz _ _ LG G0) as [e3 [H3 C]].
  destruct (two_e _ _ _ _ H1 H2 A B) as [E1 Q1]. destruct (two_e _ _ _ _ E1 H3 Q1 C) as [E2 Q2]. exists (Rmin (Rmin (Rmin e1 e2) e3) (1 / 100)). split; [apply Rmin_pos; [exact E2|lra]|].
  intros d Hd. assert (M1 := Rmin_l (Rmin (Rmin e1 e2) e3) (1 / 100)). assert (M2 := Rmin_r (Rmin (Rmin e1 e2) e3) (1 / 100)). destruct (Q2 d ltac:(lra)) as [[X Y] Z]. assert (BN := bug_nz d ltac:(lra)).
  exact (scaled_ne d (hD (Htot tz d)) (hDD (Htot tz d)) (hTD (Htot tz d)) (hTTD (Htot tz d)) (hTDD (Htot tz d)) (hDDD (Htot tz d)) (bugs tz d) ltac:(lra) X Y BN Z).
Qed.
