(** A result of the Sterner-Pitzer equation for water: 1000 K, at the pressure of 800 kg/m3. *)
From Coq Require Import List Bool Reals Lra Psatz String Ascii.
From Coquelicot Require Import Coquelicot.
From Verif Require Import GasModel StpModel StpJet StpProofs StpSlope StpFluid.
Open Scope R_scope.

Definition xr : R := 800 / 1000 / mw_h2o.
Lemma xr_v : xr = (200000 / 4503817).
Proof. unfold xr, mw_h2o. lra. Qed.
Lemma qb : forall n d lo hi, 0 < d -> lo * d < n -> n < hi * d -> lo < n / d < hi.
Proof. intros n d lo hi Hd H1 H2. split; [apply Rmult_lt_reg_r with d; [exact Hd|]|apply Rmult_lt_reg_r with d; [exact Hd|]]; unfold Rdiv; rewrite Rmult_assoc, Rinv_l, Rmult_1_r by lra; assumption. Qed.
Definition xc : co := each (ct 1000) cf_h2o.
Lemma xc0 : a0 xc = (297936831 / 1000000).
Proof. unfold xc, each, cf_h2o, ct. cbn [a0 w0 r_m4 r_m2 r_m1 r_0 r_1 r_2]. field. Qed.
Lemma xc1 : a1 xc = (116389091 / 4000000000).
Proof. unfold xc, each, cf_h2o, ct. cbn [a1 w1 r_m4 r_m2 r_m1 r_0 r_1 r_2]. field. Qed.
Lemma xc2 : a2 xc = (38174193 / 100000000).
Proof. unfold xc, each, cf_h2o, ct. cbn [a2 w2 r_m4 r_m2 r_m1 r_0 r_1 r_2]. field. Qed.
Lemma xc3 : a3 xc = (-88704781 / 200000000).
Proof. unfold xc, each, cf_h2o, ct. cbn [a3 w3 r_m4 r_m2 r_m1 r_0 r_1 r_2]. field. Qed.
Lemma xc4 : a4 xc = (5128601 / 78125).
Proof. unfold xc, each, cf_h2o, ct. cbn [a4 w4 r_m4 r_m2 r_m1 r_0 r_1 r_2]. field. Qed.
Lemma xc5 : a5 xc = (10917883 / 100000000).
Proof. unfold xc, each, cf_h2o, ct. cbn [a5 w5 r_m4 r_m2 r_m1 r_0 r_1 r_2]. field. Qed.
Lemma xc6 : a6 xc = (1856638361 / 10000000).
Proof. unfold xc, each, cf_h2o, ct. cbn [a6 w6 r_m4 r_m2 r_m1 r_0 r_1 r_2]. field. Qed.
Lemma xc7 : a7 xc = (30642213 / 250000).
Proof. unfold xc, each, cf_h2o, ct. cbn [a7 w7 r_m4 r_m2 r_m1 r_0 r_1 r_2]. field. Qed.
Lemma xc8 : a8 xc = (-53749533 / 1000000).
Proof. unfold xc, each, cf_h2o, ct. cbn [a8 w8 r_m4 r_m2 r_m1 r_0 r_1 r_2]. field. Qed.
Lemma xc9 : a9 xc = (42912229 / 200000).
Proof. unfold xc, each, cf_h2o, ct. cbn [a9 w9 r_m4 r_m2 r_m1 r_0 r_1 r_2]. field. Qed.
Lemma xd : pden xc xr = (83811099864575336828418554802691011 / 1645822270776548324974884484000000000).
Proof. unfold pden. rewrite xc1, xc2, xc3, xc4, xc5, xr_v. field. Qed.
Lemma xn : pnum xc xr = (6675863945004957886442688009 / 9135707949371323951300000000).
Proof. unfold pnum. rewrite xc2, xc3, xc4, xc5, xr_v. field. Qed.
Lemma xm : pnum2 xc xr = (33684878849211087973091 / 2028436756948900000000).
Proof. unfold pnum2. rewrite xc3, xc4, xc5, xr_v. field. Qed.
Lemma xA : (28179161 / 100000) < pnum xc xr / pden xc xr ^ 2 < (281791611 / 1000000).
Proof. rewrite xn, xd. apply qb; lra. Qed.
Lemma xB : (1280755717 / 200000) < pnum2 xc xr / pden xc xr ^ 2 < (3201889293 / 500000).
Proof. rewrite xm, xd. apply qb; lra. Qed.
Lemma xC : (80873217 / 20000) < pnum xc xr ^ 2 / pden xc xr ^ 3 < (4043660851 / 1000000).
Proof. rewrite xn, xd. apply qb; lra. Qed.
Lemma exp_small : forall x, 5 <= x -> 0 < exp (- x) < 1 / 12.
Proof.
  intros x Hx. split; [apply exp_pos|]. rewrite exp_Ropp. assert (E1 : 1 + x / 2 < exp (x / 2)) by (apply exp_ineq1; lra). assert (E2 : exp x = exp (x / 2) * exp (x / 2)) by (rewrite <- exp_plus; f_equal; field).
  assert (E3 : 12 < exp x) by (rewrite E2; nra). rewrite <- (Rmult_1_l (/ exp x)). apply Rmult_lt_reg_r with (exp x); [lra|]. rewrite Rmult_assoc, Rinv_l by lra. lra.
Qed.
Lemma xq : 400 < pred xc xr * (Rg * 1000) < 5000 /\ 0 < dpred xc xr * (Rg * 1000).
Proof.
  assert (E7 : 0 < exp (- a7 xc * xr) < 1 / 12) by (replace (- a7 xc * xr) with (- (a7 xc * xr)) by ring; apply exp_small; rewrite xc7, xr_v; lra).
  assert (E9 : 0 < exp (- a9 xc * xr) < 1 / 12) by (replace (- a9 xc * xr) with (- (a9 xc * xr)) by ring; apply exp_small; rewrite xc9, xr_v; lra).
  assert (A := xA). assert (B := xB). assert (CC := xC). unfold pred, dpred, Rg.
  replace (2 * xr * pnum xc xr / pden xc xr ^ 2) with (2 * xr * (pnum xc xr / pden xc xr ^ 2)) by (unfold Rdiv; ring). replace (xr ^ 2 * pnum2 xc xr / pden xc xr ^ 2) with (xr ^ 2 * (pnum2 xc xr / pden xc xr ^ 2)) by (unfold Rdiv; ring). replace (2 * xr ^ 2 * pnum xc xr ^ 2 / pden xc xr ^ 3) with (2 * xr ^ 2 * (pnum xc xr ^ 2 / pden xc xr ^ 3)) by (unfold Rdiv; ring).
  revert A B CC E7 E9. generalize (exp (- a7 xc * xr)) (exp (- a9 xc * xr)). generalize (pnum xc xr / pden xc xr ^ 2) (pnum2 xc xr / pden xc xr ^ 2) (pnum xc xr ^ 2 / pden xc xr ^ 3). rewrite xc0, xc6, xc7, xc8, xc9, xr_v. intros. split; [split|]; lra.
Qed.
Definition xP : R := 10 * (pred xc xr * (Rg * 1000)).
Lemma xpress : stp_pressure cf_h2o 1000 xr = Some (xP / 10, dpred xc xr * (Rg * 1000)).
Proof. apply press_some. change (C cf_h2o 1000) with xc. split; [rewrite xd; lra|]. split; [unfold xP; field|reflexivity]. Qed.
Lemma water_result : 4000 < xP < 50000 /\ exists f, stp_calc "H2O" 273 647 221 1000 xP = Sval f /\ f_v f = 1 / (10 * xr).
Proof.
  destruct xq as [Q G]. assert (PB : 4000 < xP < 50000) by (unfold xP; lra). split; [exact PB|].
  assert (W : in_window 273 1000 xP) by (unfold in_window; lra). assert (J : / 10 ^ 20 <= 1) by (rewrite <- Rinv_1; apply Rinv_le_contravar; [lra|]; rewrite <- (pow1 20); apply pow_incr; lra). assert (RR : in_range 1000 xP) by (unfold in_range; lra).
  rewrite (calc_in _ _ _ _ _ _ W), (proj1 (pure_in _ _ _ _ RR)). unfold stp_fluid.
  assert (EG : guess_h2o 647 (221 / 10) 1000 (xP / 10) = 800) by (unfold guess_h2o; destruct (Rlt_dec 1000 647); [lra|]; destruct (Rlt_dec (xP / 10) 400); [lra|reflexivity]). rewrite EG.
  destruct (rho_min_max 1800 mw_h2o ltac:(lra) ltac:(unfold mw_h2o; lra)) as [M1 M2].
  assert (B : rho_min mw_h2o <= xr <= rho_max 1800 mw_h2o) by (unfold xr, rho_min, rho_max, mw_h2o; lra).
  rewrite (density_fixed cf_h2o mw_h2o 1800 800 1000 (xP / 10) xr _ ltac:(lra) ltac:(unfold mw_h2o; lra) ltac:(lra) eq_refl B xpress ltac:(lra)).
  assert (X0 : 0 <= xr) by (rewrite xr_v; lra). destruct (h2o_defined 1000 xr ltac:(lra) X0) as [_ N]. destruct (helmholtz cf_h2o 1000 xr) as [h|] eqn:E; [|exfalso; assert (TP := T_pole_in); assert (Z := proj1 N eq_refl); lra].
  exists (stp_props 1000 xP xr h). split; [reflexivity|]. apply (props_id 1000 xP xr h). lra.
Qed.
