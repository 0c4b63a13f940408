(** Property theorems C43, C45, C46, C47, C64, C65, C66: water. *)
From Coq Require Import List Bool ZArith Reals Lra.
From Coquelicot Require Import Coquelicot.
From Verif Require Import ThermoScalarModel WaterModel WaterAdModel WaterSpec WaterProofs WaterMore WaterSolve WaterFd WaterWit.
Import ListNotations.
Open Scope R_scope.

(** C43: for any Helmholtz function whose stored derivatives are its derivatives and any continuous density solving P = rho^2 dA/drho,
    the returned density derivatives are those of that density *)
Theorem C43_density_first : forall H rho T P, helm2 H T (rho T P) -> w_pD (along H rho T P) <> 0 -> density_of H rho T P ->
  diff2 rho T P (w_dT (along H rho T P)) (w_dP (along H rho T P)).
Proof. exact rho_d. Qed.
Print Assumptions C43_density_first.
Theorem C43_density_second_partial : forall H rho T P, helm2 H T (rho T P) -> helm3' H T (rho T P) -> w_pD (along H rho T P) <> 0 -> w_dT (along H rho T P) <> 0 -> density_of H rho T P ->
  exists dTT, w_dTT (along H rho T P) = Some dTT /\ diff2 (fun t p => w_dT (along H rho t p)) T P dTT (w_dTP (along H rho T P)) /\
    diff2 (fun t p => w_dP (along H rho t p)) T P (w_dTP (along H rho T P)) (w_dPP (along H rho T P)).
Proof. exact second_d. Qed.
Print Assumptions C43_density_second_partial.
(** missing from the above: states where the density does not change with temperature; there the code computes 0/0, although the second
    derivative exists, for example at a density maximum *)
Theorem C43_density_maximum_refuted : exists H rho T P c, 0 < T /\ 0 < P /\ 0 < rho T P /\ (forall t d, 0 < d -> helm1 H t d /\ helm2 H t d /\ helm3 H t d) /\ (forall t p, 0 < p -> density_of H rho t p) /\
  0 < w_pD (along H rho T P) /\ is_derive (fun t : R => w_dT (along H rho t P)) T c /\ c < 0 /\
  w_dTT (along H rho T P) = None /\ sdAldT (along H rho T P) = None /\ jn T (along H rho T P) = None.
Proof. exact max_refuted. Qed.
Print Assumptions C43_density_maximum_refuted.
(** energies: dG = -S dT + V dP, dV, dS, dH with the returned heat capacity, expansivity and compressibility *)
Theorem C43_energies : forall H rho T P, rho T P <> 0 -> T <> 0 -> helm1 H T (rho T P) -> helm2 H T (rho T P) -> w_pD (along H rho T P) <> 0 -> density_of H rho T P ->
  let s := along H rho in
  diff2 (fun t p => w_G (s t p)) T P (- w_S (s T P)) (w_V (s T P)) /\
  diff2 (fun t p => w_V (s t p)) T P (sAlpha (s T P) * w_V (s T P)) (- sBeta (s T P) * w_V (s T P)) /\
  diff2 (fun t p => w_S (s t p)) T P (w_cp (s T P) / T) (- (sAlpha (s T P) * w_V (s T P))) /\
  diff2 (fun t p => w_H (s t p)) T P (w_cp (s T P)) (w_V (s T P) - T * (sAlpha (s T P) * w_V (s T P))).
Proof. exact energy_d. Qed.
Print Assumptions C43_energies.
Theorem C43_legendre : forall H rho T P, rho T P <> 0 -> density_of H rho T P -> let x := along H rho T P in
  w_G x = w_A x + P * w_V x /\ w_H x = w_G x + T * w_S x /\ w_U x = w_A x + T * w_S x /\ w_H x = w_U x + P * w_V x /\ w_V x * w_d x = 1.
Proof. exact legendre. Qed.
Print Assumptions C43_legendre.
Theorem C43_cv : forall H rho T P, T <> 0 -> helm1 H T (rho T P) -> helm2 H T (rho T P) ->
  is_derive (fun t : R => w_U (waterThermoState t P (rho T P) (H t (rho T P)))) T (w_cv (along H rho T P)) /\
  is_derive (fun t : R => w_S (waterThermoState t P (rho T P) (H t (rho T P)))) T (w_cv (along H rho T P) / T).
Proof. exact cv_d. Qed.
Print Assumptions C43_cv.
Theorem C43_cp_cv : forall H rho T P, rho T P <> 0 -> w_pD (along H rho T P) <> 0 -> let s := along H rho T P in
  sBeta s <> 0 /\ w_cp s - w_cv s = T * w_V s * sAlpha s ^ 2 / sBeta s.
Proof. exact cp_cv. Qed.
Print Assumptions C43_cp_cv.
Theorem C43_cp_ge_cv : forall H rho T P, rho T P <> 0 -> 0 < T -> 0 < w_pD (along H rho T P) -> w_cv (along H rho T P) <= w_cp (along H rho T P).
Proof. exact cp_ge'. Qed.
Print Assumptions C43_cp_ge_cv.
Theorem C43_expansivity_slope_partial : forall H rho T P, rho T P <> 0 -> helm2 H T (rho T P) -> helm3' H T (rho T P) -> w_pD (along H rho T P) <> 0 -> w_dT (along H rho T P) <> 0 -> density_of H rho T P ->
  exists a, sdAldT (along H rho T P) = Some a /\ is_derive (fun t : R => sAlpha (along H rho t P)) T a.
Proof. exact alpha_d. Qed.
Print Assumptions C43_expansivity_slope_partial.
(** molar values per mol, relative to the triple point; volume in J/bar *)
Theorem C43_molar : forall H rho T P Ttr wtr, rho T P <> 0 -> T <> 0 -> helm1 H T (rho T P) -> helm2 H T (rho T P) -> w_pD (along H rho T P) <> 0 -> density_of H rho T P ->
  let m := fun t p => molar Ttr t (along H rho t p) wtr in
  diff2 (fun t p => q_G (m t p)) T P (- q_S (m T P)) (q_V (m T P) / 100000) /\
  is_derive (fun t : R => q_H (m t P)) T (q_Cp (m T P)) /\ is_derive (fun t : R => q_S (m t P)) T (q_Cp (m T P) / T).
Proof. exact molar_d. Qed.
Print Assumptions C43_molar.
(** the molar G, H, S, U, A agree up to constants of the triple point record *)
Theorem C43_molar_legendre : forall Ttr T P D wh wtr, let m := molar Ttr T (waterThermoState T P D wh) wtr in
  q_G m - (q_H m - T * q_S m) = Ttr * t_S wtr + t_G wtr - t_H wtr /\ (D <> 0 -> q_U m - (q_H m - P * (q_V m / 100000)) = t_U wtr - t_H wtr) /\
  q_A m - (q_U m - T * q_S m) = Ttr * t_S wtr + t_A wtr - t_U wtr.
Proof. exact molar_gap. Qed.
Print Assumptions C43_molar_legendre.
Example C43_example : 0 < mrho 300 mP /\ helm1 mH 300 (mrho 300 mP) /\ helm2 mH 300 (mrho 300 mP) /\ helm3' mH 300 (mrho 300 mP) /\ density_of mH mrho 300 mP /\
  0 < w_pD (along mH mrho 300 mP) /\ w_dT (along mH mrho 300 mP) <> 0.
Proof.
  assert (P0 : 0 < mP) by (unfold mP; lra). assert (R0 := mrho_pos 300 mP P0).
  split; [exact R0|]. split; [exact (mH_1 _ _ R0)|]. split; [exact (mH_2 _ _ R0)|]. split; [exact (proj1 (helm3_weak _ _ _ (mH_3 _ _ R0)))|]. split; [exact (mrho_ok _ _ P0)|].
  split; [rewrite (m_pD 300 mP P0); apply mq_pos|]. rewrite (m_dT 300 mP P0). unfold mrho, mP, mq. lra.
Qed.

(** C45: dielectric constant and Born functions of Johnson and Norton along any density with first and second derivatives *)
Theorem C45_johnson_norton_partial : forall w e T P, T <> 0 -> w_d (w T P) <> 0 -> e_ (e T P) <> 0 -> dens_first w T P -> dens_second w T P ->
  locally_2d (fun t p => jn t (w t p) = Some (e t p)) T P -> born_first e T P /\ born_second e T P.
Proof. exact jn_d. Qed.
Print Assumptions C45_johnson_norton_partial.
(** missing: temperatures at which one of the coefficients k is zero; the code divides by it, whatever the density *)
Theorem C45_zero_coefficient_refuted : exists T, 447 < T < 597 /\ jn_k 4 (T / jn_Tr) = 0 /\ forall w, jn T w = None.
Proof. exact jn_zero. Qed.
Print Assumptions C45_zero_coefficient_refuted.
(** dielectric constant by finite differences (Fernandez, Sverjensky): the Born functions that are set follow from the stored derivatives,
    with the pressure derivative per bar and Q per Pa; the mixed derivative, U and N stay 0 *)
Theorem C45_finite_difference : forall eps TC Pb e, fd_electro eps TC Pb = Some e ->
  e_TP e = 0 /\ b_U e = 0 /\ b_N e = 0 /\ b_Z e = -1 / e_ e /\ b_Y e = e_T e / (e_ e * e_ e) /\ b_Q e = e_P e / (e_ e * e_ e) / 100000 /\
  b_X e = e_TT e / (e_ e * e_ e) - 2 * b_Y e * b_Y e * e_ e /\
  fd1 (fun t => eps t Pb) TC = Some (e_T e) /\ fd1 (fun p => eps TC p) Pb = Some (e_P e) /\ fd2 (fun t => eps t Pb) TC = Some (e_TT e) /\ fd2 (fun p => eps TC p) Pb = Some (e_PP e).
Proof. exact fd_electro_is. Qed.
Print Assumptions C45_finite_difference.
Theorem C45_finite_difference_refuted : exists eps TC Pb e, fd_electro eps TC Pb = Some e /\ e_ e <> 0 /\
  (forall t p, is_derive (fun s : R => Derive (fun q : R => eps s q) p) t (1 / 1000000)) /\ e_TP e = 0 /\
  (forall t p, is_derive (fun q : R => eps t (q / 100000)) p (t / 1000000 / 100000)) /\ e_P e = TC / 1000000.
Proof. exact fd_mixed_refuted. Qed.
Print Assumptions C45_finite_difference_refuted.
(** at 0 Celsius the temperature step is zero *)
Theorem C45_zero_celsius_refuted : forall eps Pb, fd_electro eps 0 Pb = None.
Proof. exact fd_electro_zero. Qed.
Print Assumptions C45_zero_celsius_refuted.
Example C45_example : let w := along mH mrho in 300 <> 0 /\ w_d (w 300 mP) = 1000 /\ 77 < e_ (me 300 mP) < 78 /\ dens_first w 300 mP /\ dens_second w 300 mP /\ locally_2d (fun t p => jn t (w t p) = Some (me t p)) 300 mP.
Proof. exact m_jn_example. Qed.

(** C46: the solver returns a density exactly when the residual test is met within the allowed number of passes, first at iterate k;
    what is returned is iterate k+1 *)
Theorem C46_found : forall P model n D D', nw_loop P model n D = Found D' <->
  exists k Dk, (k < n)%nat /\ iter_k (nw_next P model) k D = Some Dk /\ iter_k (nw_next P model) (S k) D = Some D' /\ Rabs (nw_f P Dk (model Dk)) < newton_tol /\
    (forall j Dj, (j < k)%nat -> iter_k (nw_next P model) j D = Some Dj -> newton_tol <= Rabs (nw_f P Dj (model Dj))).
Proof. exact nw_found. Qed.
Print Assumptions C46_found.
Theorem C46_throws : forall P model n D, nw_loop P model n D = NoConv <->
  (exists x, iter_k (nw_next P model) n D = Some x) /\ forall j Dj, (j < n)%nat -> iter_k (nw_next P model) j D = Some Dj -> newton_tol <= Rabs (nw_f P Dj (model Dj)).
Proof. exact nw_noconv. Qed.
Print Assumptions C46_throws.
Theorem C46_step : forall P model D D', nw_next P model D = Some D' -> let h := model D in
  (nw_df D h <> 0 /\ nw_f P D h / nw_df D h < D /\ D' = D - nw_f P D h / nw_df D h) \/ ((nw_df D h = 0 \/ D <= nw_f P D h / nw_df D h) /\ D * hD h <> 0 /\ D' = P / (D * hD h)).
Proof. exact nw_next_is. Qed.
Print Assumptions C46_step.
(** the pressure at the accepted iterate is within 0.22064 Pa of the one asked for, after at most 100 passes *)
Theorem C46_pressure_met : forall T P ps l v st model D', waterDensity T P ps l v st model = Found D' ->
  exists D, Rabs (D * D * hD (model T D) - P) < 22064 / 100000 /\ nw_next P (model T) D = Some D' /\
    exists k, (k < 100)%nat /\ iter_k (nw_next P (model T)) k (startDensity T P ps l v st) = Some D.
Proof. exact density_ok_pressure. Qed.
Print Assumptions C46_pressure_met.
(** ... but the returned density itself is not tested: it can miss the pressure by any amount *)
Theorem C46_returned_untested_refuted : forall K, exists T P model D', 0 < T /\ 0 < P /\ (forall t d, d <> 0 -> is_derive (fun x : R => hD (model t x)) d (hDD (model t d))) /\
  (forall ps l v st, waterDensity T P ps l v st model = Found D') /\ 0 < D' /\ K <= Rabs (D' * D' * hD (model T D') - P).
Proof. exact far_refuted. Qed.
Print Assumptions C46_returned_untested_refuted.
Theorem C46_positive : forall P model D D', nw_next P model D = Some D' -> 0 < P -> 0 < D * hD (model D) -> 0 < D'.
Proof. exact density_pos. Qed.
Print Assumptions C46_positive.
(** started at a solution it stays there *)
Theorem C46_solution_kept : forall P model n D, (0 < n)%nat -> 0 < D -> D * D * hD (model D) = P -> nw_df D (model D) <> 0 -> nw_loop P model n D = Found D.
Proof. exact density_fix. Qed.
Print Assumptions C46_solution_kept.
(** starting values by requested state; a state number above 2 starts from zero and gives no number *)
Theorem C46_start : forall T P ps l v, (T <= wp_Tc -> startDensity T P ps l v 0 = l /\ startDensity T P ps l v 1 = v) /\
  (wp_Tc < T -> forall st, startDensity T P ps l v st = wp_Dc * (99 / 100)) /\ (T <= wp_Tc -> forall st, (st < 0)%Z -> (P < ps -> startDensity T P ps l v st = v) /\ (ps <= P -> startDensity T P ps l v st = l)).
Proof. exact start_state. Qed.
Print Assumptions C46_start.
Theorem C46_state_number_refuted : forall T P ps l v st model, (2 < st)%Z -> T <= wp_Tc -> 0 < P -> waterDensity T P ps l v st model = NonNum.
Proof. exact start_bad. Qed.
Print Assumptions C46_state_number_refuted.
(** Zhang and Duan: the slope used is the slope of the residual; acceptance bounds the residual by the slope *)
Theorem C46_zhang_duan_slope : forall T P V, V <> 0 -> P <> 0 -> is_derive (fun v : R => zd_f T P v) V (zd_df T P V).
Proof. exact zd_df_ok. Qed.
Print Assumptions C46_zhang_duan_slope.
Theorem C46_zhang_duan_found : forall T P n V V', zd_loop T P n V = Found V' <->
  exists k Vk, (k < n)%nat /\ iter_k (zd_next T P) k V = Some Vk /\ iter_k (zd_next T P) (S k) V = Some V' /\ Rabs (V' - Vk) < newton_tol /\
    (forall j Vj Vj', (j < k)%nat -> iter_k (zd_next T P) j V = Some Vj -> zd_next T P Vj = Some Vj' -> newton_tol <= Rabs (Vj' - Vj)).
Proof. exact zd_found. Qed.
Print Assumptions C46_zhang_duan_found.
Theorem C46_zhang_duan_accept : forall T P V0 V', waterMolarVolume T P V0 = Found V' ->
  exists V, V <> 0 /\ P <> 0 /\ zd_df T P V <> 0 /\ V' = V - zd_f T P V / zd_df T P V /\ Rabs (zd_f T P V) < newton_tol * Rabs (zd_df T P V).
Proof. exact zd_accept. Qed.
Print Assumptions C46_zhang_duan_accept.
Example C46_example : exists T P model D', waterDensity T P 0 1000 1 (-1) model = Found D' /\ 0 < D'.
Proof. destruct (far_refuted 5) as (T & P & m & D & _ & _ & _ & H & H0 & _). exists T, P, m, D. split; [apply H|exact H0]. Qed.

(** C47: Woolley ideal gas *)
Theorem C47_derivatives : forall t, 0 < t -> let f := waterIdealGas in
  is_derive (fun s : R => q_G (f s)) t (- q_S (f t)) /\ is_derive (fun s : R => q_H (f s)) t (q_Cp (f t)) /\
  is_derive (fun s : R => q_S (f s)) t (q_Cp (f t) / t) /\ is_derive (fun s : R => q_A (f s)) t (- (q_S (f t) + R_CONSTANT)) /\ is_derive (fun s : R => q_U (f s)) t (q_Cv (f t)).
Proof. exact wo_d. Qed.
Print Assumptions C47_derivatives.
Theorem C47_relations : forall t, let x := waterIdealGas t in q_G x = q_H x - t * q_S x /\ q_U x = q_H x - R_CONSTANT * t /\ q_A x = q_U x - t * q_S x /\ q_Cv x = q_Cp x - R_CONSTANT.
Proof. exact wo_alg. Qed.
Print Assumptions C47_relations.
Example C47_example : 0 < 29815 / 100.
Proof. lra. Qed.

(** C64: the derivatives carried by the density through a Newton step at a solution are those of the implicit function, whatever was carried before *)
Theorem C64_implicit_derivatives : forall (P D hDv hDDv : TS) (aTD : R), ddt P = 0 -> ddp P = 1 ->
  ddt hDv = aTD + val hDDv * ddt D -> ddp hDv = val hDDv * ddp D ->
  let pT := val D * val D * aTD in let pD := 2 * val D * val hDv + val D * val D * val hDDv in
  pD <> 0 -> 0 < val D -> val D * val D * val hDv = val P ->
  let D' := ad_step P D hDv hDDv in val D' = val D /\ ddt D' = - pT / pD /\ ddp D' = 1 / pD.
Proof. exact ad_root. Qed.
Print Assumptions C64_implicit_derivatives.
(** away from a solution the error is the residual times the slope of the Newton divisor *)
Theorem C64_away : forall (P D hDv hDDv : TS) (aTD : R), ddt P = 0 -> ddp P = 1 ->
  ddt hDv = aTD + val hDDv * ddt D -> ddp hDv = val hDDv * ddp D ->
  let pT := val D * val D * aTD in let pD := 2 * val D * val hDv + val D * val D * val hDDv in
  let f := ad_f P D hDv in let df := ad_df D hDv hDDv in let D' := ad_step P D hDv hDDv in
  pD <> 0 -> val f / val df < val D ->
  val D' = val D - val f / val df /\ ddt D' = - pT / pD + val f * ddt df / val df ^ 2 /\ ddp D' = 1 / pD + val f * ddp df / val df ^ 2.
Proof. exact ad_newton. Qed.
Print Assumptions C64_away.
Example C64_example : let D := mkTS 2 7 (-3) 0 (notdefined, String.EmptyString) in let P := mkTS 8 0 1 0 (notdefined, String.EmptyString) in let a := mkTS 2 (5 + 3 * 7) (3 * -3) 0 (notdefined, String.EmptyString) in let b := mkTS 3 0 0 0 (notdefined, String.EmptyString) in
  ddt P = 0 /\ ddp P = 1 /\ ddt a = 5 + val b * ddt D /\ ddp a = val b * ddp D /\ 2 * val D * val a + val D * val D * val b <> 0 /\ 0 < val D /\ val D * val D * val a = val P.
Proof. cbn. repeat split; lra. Qed.

(** C65: pressure functions *)
Theorem C65_round_trip : forall hgk wp T P ps l v st D', waterDensity T P ps l v st hgk = Found D' ->
  exists D, nw_next P (hgk T) D = Some D' /\ Rabs (waterPressureHGK hgk wp T D - P) < 22064 / 100000.
Proof. exact round_trip. Qed.
Print Assumptions C65_round_trip.
Theorem C65_wagner_pruss_pressure_refuted : exists hgk wp T D, waterPressureWagnerPruss hgk wp T D <> D * D * hD (wp T D).
Proof. exact wp_pressure_refuted. Qed.
Print Assumptions C65_wagner_pruss_pressure_refuted.
(** Zhang and Duan: a zero of the residual is the pressure of the equation of state, and the fugacity coefficient belongs to that pressure *)
Theorem C65_zhang_duan_pressure : forall T P v, P <> 0 -> v <> 0 -> zd_f T P v = 0 -> P = zd_P T v.
Proof. exact zd_root_P. Qed.
Print Assumptions C65_zhang_duan_pressure.
Theorem C65_zhang_duan_fugacity : forall T v, T <> 0 -> 0 < v -> 0 < zd_Z T v -> exists p', is_derive (fun x : R => zd_P T x) v p' /\
  is_derive (fun x : R => zd_lnphi T (zd_P T x) x (x * zd_Vc)) v ((v * zd_Vc / (zd_R * T) - 1 / zd_P T v) * p').
Proof. exact zd_lnphi_d. Qed.
Print Assumptions C65_zhang_duan_fugacity.
Example C65_example : 0 < zd_Z (64725 / 100) 10.
Proof. exact zd_Z_example. Qed.

(** C66: finite differences over a thousandth of the coordinate *)
Theorem C66_first : forall (f f1 f2 f3 : R -> R) (x M : R), x <> 0 ->
  (forall t, Rabs (t - x) <= Rabs x / 1000 -> is_derive f t (f1 t) /\ is_derive f1 t (f2 t) /\ is_derive f2 t (f3 t) /\ Rabs (f3 t) <= M) ->
  exists d, fd1 f x = Some d /\ Rabs (d - f1 x) <= M / 6 * (Rabs x / 1000) ^ 2.
Proof. exact fd1_ok. Qed.
Print Assumptions C66_first.
Theorem C66_second : forall (f f1 f2 f3 f4 : R -> R) (x M : R), x <> 0 ->
  (forall t, Rabs (t - x) <= Rabs x / 1000 -> is_derive f t (f1 t) /\ is_derive f1 t (f2 t) /\ is_derive f2 t (f3 t) /\ is_derive f3 t (f4 t) /\ Rabs (f4 t) <= M) ->
  exists d, fd2 f x = Some d /\ Rabs (d - f2 x) <= M / 12 * (Rabs x / 1000) ^ 2.
Proof. exact fd2_ok. Qed.
Print Assumptions C66_second.
(** at coordinate zero nothing is computed *)
Theorem C66_zero_refuted : forall f, fd1 f 0 = None /\ fd2 f 0 = None.
Proof. exact fd_zero. Qed.
Print Assumptions C66_zero_refuted.
(** Zhang-Duan density derivatives: by temperature per K; by pressure per Pa, the first of them *)
Theorem C66_zhang_duan_density : forall rho T P, fd_T (zd_props rho T P) = fd1 (fun t => rho t P) T /\ fd_TT (zd_props rho T P) = fd2 (fun t => rho t P) T /\
  forall x, fd1 (fun p => rho T p) P = Some x -> fd_P (zd_props rho T P) = Some (x / 100000).
Proof. exact zd_props_is. Qed.
Print Assumptions C66_zhang_duan_density.
(** ... but the second derivative by pressure is scaled once: 10^5 times the derivative per Pa^2 *)
Theorem C66_zhang_duan_second_refuted : exists rho T P x, (forall t p, is_derive (fun q : R => Derive (fun r : R => rho t (r / 100000)) q) p (2 / 10000000000)) /\
  fd_PP (zd_props rho T P) = Some x /\ x = 2 / 100000.
Proof. exact zd_pp_refuted. Qed.
Print Assumptions C66_zhang_duan_second_refuted.
Example C66_example : forall t, Rabs (t - 300) <= Rabs 300 / 1000 -> is_derive (fun x : R => x ^ 3) t (3 * t ^ 2) /\ is_derive (fun x : R => 3 * x ^ 2) t (6 * t) /\ is_derive (fun x : R => 6 * x) t 6 /\ Rabs 6 <= 6.
Proof. exact cube_example. Qed.
