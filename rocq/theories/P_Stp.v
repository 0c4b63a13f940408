(** Properties of the Sterner-Pitzer fluids: C70 (derivatives and state functions), C71 (density, ranges).  T in K, P in bar, p in MPa, densities in mol/cm3. *)
From Coq Require Import Reals Lra String List.
From Coquelicot Require Import Coquelicot.
From Verif Require Import RDiff2 GasModel StpModel StpProofs StpSlope StpFluid StpLimit StpEx.
Open Scope R_scope.

(** every derivative of the reduced Helmholtz energy the code stores is the derivative it is meant to be, whatever the coefficients *)
Theorem C70_table : forall w T d h, 0 < T -> helmholtz w T d = Some h ->
  diff2 (ent w p_0) T d (p_T h) (p_D h) /\ diff2 (ent w p_T) T d (p_TT h) (p_DT h) /\ diff2 (ent w p_D) T d (p_DT h) (p_DD h) /\
  diff2 (ent w p_DT) T d (p_DTT h) (p_DDT h) /\ diff2 (ent w p_DD) T d (p_DDT h) (p_DDD h) /\ is_derive (fun v => ent w p_TT T v) d (p_DTT h).
Proof. exact stp_table. Qed.
Print Assumptions C70_table.
Example C70_table_example : exists h, helmholtz cf_co2 900 0.02 = Some h /\ diff2 (ent cf_co2 p_0) 900 0.02 (p_T h) (p_D h).
Proof. destruct (co2_defined 900 0.02 ltac:(lra) ltac:(lra)) as [_ [h E]]. exists h. split; [exact E|]. exact (proj1 (C70_table cf_co2 900 0.02 h ltac:(lra) E)). Qed.
(** the pressure is the one of that Helmholtz energy, and the gradient used by the search is its slope *)
Theorem C70_pressure : forall w T d q g, 0 < T -> stp_pressure w T d = Some (q, g) ->
  is_derive (fun x => match stp_pressure w T x with Some (y, _) => y | None => 0 end) d g /\
  (forall h, helmholtz w T d = Some h -> q = d * Rg * T * (1 + d * p_D h) /\ g = Rg * T * (1 + 2 * d * p_D h + d ^ 2 * p_DD h)).
Proof. exact (fun w T d q g HT Q => conj (press_slope w T d q g Q) (fun h E => press_phi w T d q g h HT E Q)). Qed.
Print Assumptions C70_pressure.
Example C70_pressure_example : exists q g, stp_pressure cf_h2o 700 0.03 = Some (q, g) /\ is_derive (fun x => match stp_pressure cf_h2o 700 x with Some (y, _) => y | None => 0 end) 0.03 g.
Proof. destruct (h2o_defined 700 0.03 ltac:(lra) ltac:(lra)) as [(q & g & E) _]. exists q, g. split; [exact E|]. exact (proj1 (C70_pressure cf_h2o 700 0.03 q g ltac:(lra) E)). Qed.
(** where the pressure has a slope, the density is a continuous function of T and p; its first and second derivatives are the stored ones *)
Theorem C70_density : forall w T d h p g, 0 < T -> helmholtz w T d = Some h -> stp_pressure w T d = Some (p, g) -> g <> 0 ->
  (exists r : R -> R -> R, r T p = d /\ exact_density w r T p) /\
  (forall r : R -> R -> R, r T p = d -> exact_density w r T p -> let k := stp_rho T d h in
    diff2 r T p (rh_T k) (rh_P k) /\ diff2 (fun t q => rh_T (rho_at w t (r t q))) T p (rh_TT k) (rh_TP k) /\ diff2 (fun t q => rh_P (rho_at w t (r t q))) T p (rh_TP k) (rh_PP k)).
Proof. exact (fun w T d h p g HT E Q Ng => conj (density_exists w T d h p g HT E Q Ng) (density_slopes w T d h p g HT E Q Ng)). Qed.
Print Assumptions C70_density.
Example C70_density_example : exists d q g h r, 0 < d /\ 0 < q /\ g <> 0 /\ stp_pressure cf_co2 900 d = Some (q, g) /\ helmholtz cf_co2 900 d = Some h /\ r 900 q = d /\ exact_density cf_co2 r 900 q.
Proof. exact (co2_dilute 900 ltac:(lra)). Qed.
(** along an exact density: dG/dP = V - R T / P, dG/dT = -S, dH/dT = Cp, dH/dP = V - T dV/dT *)
Theorem C70_state : forall w r T P g h, 0 < T -> 0 < P -> exact_density w r T (P / 10) -> 0 < r T (P / 10) -> stp_pressure w T (r T (P / 10)) = Some (P / 10, g) -> g <> 0 -> helmholtz w T (r T (P / 10)) = Some h ->
  let f := state w r in f T P = stp_props T P (r T (P / 10)) h /\
  is_derive (fun q => f_g (f T q)) P (f_v (f T P) - Rg * T / P) /\ is_derive (fun t => f_g (f t P)) T (- f_s (f T P)) /\ is_derive (fun t => f_h (f t P)) T (f_c (f T P)) /\
  exists l, is_derive (fun t => f_v (f t P)) T l /\ is_derive (fun q => f_h (f T q)) P (f_v (f T P) - T * l).
Proof. exact state_all. Qed.
Print Assumptions C70_state.
Example C70_state_example : exists P g h r, 0 < P /\ 0 < r 900 (P / 10) /\ g <> 0 /\ stp_pressure cf_co2 900 (r 900 (P / 10)) = Some (P / 10, g) /\ helmholtz cf_co2 900 (r 900 (P / 10)) = Some h /\ exact_density cf_co2 r 900 (P / 10).
Proof. exact (co2_dilute_bar 900 ltac:(lra)). Qed.
(** dilute fluids: the pressure and the fugacity coefficient approach those of an ideal gas *)
Theorem C70_ideal : forall w T, 0 < T -> helmholtz w T 0 <> None -> forall eps, 0 < eps -> exists del, 0 < del /\ forall d, 0 < d < del -> exists q g h, stp_pressure w T d = Some (q, g) /\ helmholtz w T d = Some h /\ 0 < q /\ 0 < g /\
  Rabs (q / (d * Rg * T) - 1) < eps /\ Rabs (f_phi (stp_props T (10 * q) d h) - 1) < eps.
Proof. exact ideal_limit. Qed.
Print Assumptions C70_ideal.
Example C70_ideal_example : helmholtz cf_co2 900 0 <> None /\ helmholtz cf_h2o 900 0 <> None.
Proof. split; [apply co2_at0; lra|apply h2o_at0; [lra|assert (H := T_pole_in); lra]]. Qed.

(** between 200 and 2000 K no denominator vanishes at any density, but for one of water at one temperature *)
Theorem C71_defined : forall T rho, 200 <= T <= 2000 -> 0 <= rho ->
  (exists q g, stp_pressure cf_co2 T rho = Some (q, g)) /\ (exists h, helmholtz cf_co2 T rho = Some h) /\
  (exists q g, stp_pressure cf_h2o T rho = Some (q, g)) /\ (helmholtz cf_h2o T rho = None <-> T = T_pole).
Proof. exact (fun T rho HT Hr => conj (proj1 (co2_defined T rho HT Hr)) (conj (proj2 (co2_defined T rho HT Hr)) (h2o_defined T rho HT Hr))). Qed.
Print Assumptions C71_defined.
Example C71_defined_example : 348 < T_pole < 349. Proof. exact T_pole_in. Qed.
(** at that temperature water has no result at any pressure *)
Theorem C71_pole_refuted : forall Tc Pc P, in_range T_pole P -> forall f, stp_pure "H2O" Tc Pc T_pole P <> Sval f.
Proof. exact pole_no_value. Qed.
Print Assumptions C71_pole_refuted.
Example C71_pole_example : in_range T_pole 100.
Proof. assert (H := T_pole_in). split; [lra|]. assert (K : / 10 ^ 20 <= 1) by (rewrite <- Rinv_1; apply Rinv_le_contravar; [lra|rewrite <- (pow1 20); apply pow_incr; lra]). lra. Qed.
(** a result: the density is one Newton step, kept within the limits, from one whose pressure is right to 1e-10; G = RT ln phi = H - TS and V belong to it *)
Theorem C71_result : forall formula Tmin Tc Pc T P f, in_window Tmin T P -> stp_calc formula Tmin Tc Pc T P = Sval f ->
  in_range T P /\ exists w mw top, ((formula = "H2O"%string /\ w = cf_h2o /\ mw = mw_h2o /\ top = 1800) \/ (formula = "CO2"%string /\ w = cf_co2 /\ mw = mw_co2 /\ top = 2400)) /\
  exists x q g rho h, rho_min mw <= x <= rho_max top mw /\ stp_pressure w T x = Some (q, g) /\ g <> 0 /\ Rabs (1 - q / (P / 10)) <= / 10 ^ 10 /\
    rho = clamp (rho_min mw) (rho_max top mw) (x + (P / 10 - q) / g) /\ rho_min mw <= rho <= rho_max top mw /\ helmholtz w T rho = Some h /\ f = stp_props T P rho h /\
    0 < f_phi f /\ f_g f = Rg * T * ln (f_phi f) /\ f_g f = f_h f - T * f_s f /\ f_v f = 1 / (10 * rho).
Proof. exact calc_result. Qed.
Print Assumptions C71_result.
(** a start at the right density is kept *)
Theorem C71_fixed : forall w mw top guess T p rho g, 1 <= top -> 0 < mw -> p <> 0 -> guess / 1000 / mw = rho -> rho_min mw <= rho <= rho_max top mw -> stp_pressure w T rho = Some (p, g) -> g <> 0 -> stp_density w mw top guess T p = Dfound rho.
Proof. exact density_fixed. Qed.
Print Assumptions C71_fixed.
Example C71_fixed_example : 4000 < xP < 50000 /\ exists f, stp_calc "H2O" 273 647 221 1000 xP = Sval f /\ f_v f = 1 / (10 * (800 / 1000 / mw_h2o)).
Proof. exact water_result. Qed.
(** inside the window accepted by the caller but outside the range of the equation, and for any other formula, the numbers handed back were never written; outside the window they are those of an ideal gas *)
Theorem C71_range_refuted : forall formula Tmin Tc Pc T P, in_window Tmin T P -> (~ (200 <= T <= 2000) \/ (formula <> "H2O"%string /\ formula <> "CO2"%string)) -> stp_calc formula Tmin Tc Pc T P = Suninit.
Proof. exact calc_uninit. Qed.
Print Assumptions C71_range_refuted.
Example C71_range_example : in_window 273 2500 1000 /\ ~ (200 <= 2500 <= 2000).
Proof. unfold in_window. split; [lra|]. lra. Qed.
Theorem C71_outside : forall formula Tmin Tc Pc T P, ~ in_window Tmin T P -> stp_calc formula Tmin Tc Pc T P = Sval (mkFug 1 0 0 0 (Rg * T / P) 0).
Proof. exact calc_out. Qed.
Print Assumptions C71_outside.
Example C71_outside_example : stp_calc "CO2" 273 304 74 250 1 = Sval (mkFug 1 0 0 0 (Rg * 250 / 1) 0).
Proof. apply C71_outside. unfold in_window. lra. Qed.
