(** Property theorems: pressure corrections of gases (C42), molar volume (C62) and residual functions (C63) of the cubic equations of state. *)
From Coq Require Import List Bool Reals Lra String.
From Coquelicot Require Import Coquelicot.
From Verif Require Import RDeriv ThermoScalarModel EngineModel GasModel GasSpec GasCubic GasProofs GasDeriv GasMore GasPhase GasInst GasWit GasApply GasEx.
Open Scope R_scope.

(** the constant-volume correction: G - (H - T S) kept, V the stored volume, G grows by V (P - Pref), U = H - P V, A = U - T S *)
Theorem C42_constant_volume : forall s T P t, fst (sta (V (s_ref s))) <> notdefined -> let r := conMolVol s T P t in let v := val (V (s_ref s)) in
  gap T r = gap T t /\ val (V r) = v /\ val (G r) = val (G t) + v * (P / 100000 - s_refP s / 100000) /\
  val (U r) = val (H r) - P / 100000 * val (V r) /\ val (A r) = val (U r) - T * val (S r) /\ val (S r) = val (S t).
Proof. exact con_volume. Qed.
Print Assumptions C42_constant_volume.
(** its volume is the slope of the Gibbs energy in the pressure (in bar) *)
Theorem C42_constant_volume_slope : forall s T P t, fst (sta (V (s_ref s))) <> notdefined ->
  is_derive (fun p => val (G (conMolVol s T (p * 100000) t))) P (val (V (conMolVol s T (P * 100000) t))).
Proof. exact con_volume_slope. Qed.
Print Assumptions C42_constant_volume_slope.
Example C42_constant_volume_example : val (G (conMolVol solid_ex 500 200000000 tps_ex)) = 100 + 2 * 1999 /\ gap 500 (conMolVol solid_ex 500 200000000 tps_ex) = gap 500 tps_ex.
Proof. exact con_volume_ex. Qed.

(** the ideal-gas correction with its pressure step: G - (H - T S) kept, V = R T / P, U and A set *)
Theorem C42_ideal_gas : forall s T P t, is_gasfluid (s_class s) = true -> 0 < P -> let r := idealGasVol s T P t true in
  gap T r = gap T t /\ val (V r) = Rgas * T / (P / 100000) /\ val (G r) = val (G t) + val (V r) * (P / 100000 - s_refP s / 100000) /\
  val (U r) = val (H r) - P / 100000 * val (V r) /\ val (A r) = val (U r) - T * val (S r) /\ val (S r) = val (S t).
Proof. exact ideal_gas. Qed.
Print Assumptions C42_ideal_gas.
(** but it adds V (P - Pref) with the final volume: always below the isothermal work R T ln (P/Pref) of an ideal gas *)
Theorem C42_ideal_gas_work_refuted : forall s T P t, is_gasfluid (s_class s) = true -> 0 < P -> 0 < T -> 0 < s_refP s -> P <> s_refP s ->
  val (G (idealGasVol s T P t true)) < val (G t) + Rgas * T * ln (P / s_refP s).
Proof. exact ideal_gas_low. Qed.
Print Assumptions C42_ideal_gas_work_refuted.
(** without the pressure step nothing but the volume changes: U and A keep what they had *)
Theorem C42_ideal_gas_off : forall s T P t, let r := idealGasVol s T P t false in G r = G t /\ H r = H t /\ S r = S t /\ U r = U t /\ A r = A t.
Proof. exact ideal_gas_off. Qed.
Print Assumptions C42_ideal_gas_off.
Example C42_ideal_gas_example : val (G (idealGasVol gas_ex 500 200000000 tps_ex true)) < 100 + Rgas * 500 * ln 2000 /\ gap 500 (idealGasVol gas_ex 500 200000000 tps_ex true) = gap 500 tps_ex.
Proof. exact ideal_gas_ex. Qed.

(** a gas model reads exactly the first seven critical parameters of the substance; with fewer it reads past the end *)
Theorem C42_critical_parameters : forall l r, gas_read l = Some r <-> (7 <= List.length l)%nat /\ r = List.firstn 7 l.
Proof. exact gas_read_spec. Qed.
Print Assumptions C42_critical_parameters.
Example C42_critical_parameters_example : gas_read (1 :: 2 :: 3 :: 4 :: 5 :: 6 :: nil)%list = None /\ gas_read (1 :: 2 :: 3 :: 4 :: 5 :: 6 :: 7 :: 8 :: nil)%list = Some (1 :: 2 :: 3 :: 4 :: 5 :: 6 :: 7 :: nil)%list.
Proof. split; reflexivity. Qed.

(** what a fugacity model writes: the two changes of G cancel; H and S move by the residuals, V is set, and Cp, U, A stay *)
Theorem C42_fugacity_values : forall f tk p t, 0 < f_phi f -> 0 < val p -> let r := gas_apply f tk p t in
  val (G r) = val (G t) /\ val (H r) = val (H t) + f_h f /\ val (S r) = val (S t) + f_s f /\ val (V r) = f_v f /\ Cp r = Cp t /\ U r = U t /\ A r = A t.
Proof. exact apply_vals. Qed.
Print Assumptions C42_fugacity_values.
(** so G - (H - T S) is off by the residual Gibbs energy *)
Theorem C42_fugacity_gap_refuted : forall f T p t, 0 < f_phi f -> 0 < val p -> f_g f = f_h f - T * f_s f -> f_g f <> 0 -> gap T (gas_apply f (Temperature T) p t) <> gap T t.
Proof. exact apply_gap_ne. Qed.
Print Assumptions C42_fugacity_gap_refuted.
(** a fluid computed by the Soave-Redlich-Kwong model for which this happens *)
Example C42_fugacity_gap_example : exists f, srk_pure PI 300 86.64 0 1200 400 = Some f /\ forall t, gap 1200 (gas_apply f (Temperature 1200) (ctor5 400 0 0 0 (calculated, ""%string)) t) <> gap 1200 t.
Proof. exact srk_gap_ex. Qed.
(** the Sterner-Pitzer wrapper picks no equation for a gas other than CO2 and H2O *)
Theorem C42_stp_code_refuted : forall formula, formula <> "CO2"%string -> formula <> "H2O"%string -> stp_code formula = None /\ cork_code formula <> None.
Proof. exact stp_undefined. Qed.
Print Assumptions C42_stp_code_refuted.
Example C42_stp_code_example : stp_code "CH4" = None.
Proof. reflexivity. Qed.

(** the volume reported by the Soave-Redlich-Kwong model is above the covolume, solves the equation of state at the
    given pressure and has the least Gibbs energy of all volumes above the covolume; the fugacity coefficient belongs to it *)
Theorem C62_srk_volume : forall Tc Pc w T P f, 0 < Tc -> 0 < Pc -> 0 < T -> 0 < P -> b_srk Tc Pc * P < 1000 * (Rgas * T) -> srk_pure PI Tc Pc w T P = Some f ->
  let a := a_srk Tc Pc w T in let b := b_srk Tc Pc in
  b < f_v f /\ eos_rk a b T (f_v f) = P /\ (forall u, b < u -> gres_rk a b T P (f_v f) <= gres_rk a b T P u) /\
  f_g f = gres_rk a b T P (f_v f) /\ Rgas * T * ln (f_phi f) = f_g f /\ f_g f = f_h f - T * f_s f.
Proof. exact srk_volume. Qed.
Print Assumptions C62_srk_volume.
Theorem C62_pr_volume : forall Tc Pc w T P f, 0 < Tc -> 0 < Pc -> 0 < T -> 0 < P -> b_pr Tc Pc * P < 1000 * (Rgas * T) -> pr78_pure PI Tc Pc w T P = Some f ->
  let a := a_pr Tc Pc w T in let b := b_pr Tc Pc in
  b < f_v f /\ eos_pr a b T (f_v f) = P /\ (forall u, b < u -> gres_pr a b T P (f_v f) <= gres_pr a b T P u) /\
  f_g f = gres_pr a b T P (f_v f) /\ Rgas * T * ln (f_phi f) = f_g f /\ f_g f = f_h f - T * f_s f.
Proof. exact pr78_volume. Qed.
Print Assumptions C62_pr_volume.
Theorem C62_prsv_volume : forall Tc Pc w k1 k2 k3 T P f, 0 < Tc -> 0 < Pc -> 0 < T -> 0 < P -> b_sv Tc Pc * P < 1000 * (Rgas * T) -> prsv_pure PI Tc Pc w k1 k2 k3 T P = Some f ->
  let a := a_sv Tc Pc w k1 k2 k3 T in let b := b_sv Tc Pc in
  b < f_v f /\ eos_pr a b T (f_v f) = P /\ (forall u, b < u -> gres_pr a b T P (f_v f) <= gres_pr a b T P u) /\
  f_g f = gres_pr a b T P (f_v f) /\ Rgas * T * ln (f_phi f) = f_g f /\ f_g f = f_h f - T * f_s f.
Proof. exact prsv_volume. Qed.
Print Assumptions C62_prsv_volume.
Example C62_volume_example : exists f, srk_pure PI 300 86.64 0 1200 400 = Some f /\ b_srk 300 86.64 < f_v f /\ eos_rk (a_srk 300 86.64 0 1200) (b_srk 300 86.64) 1200 (f_v f) = 400.
Proof. exact srk_volume_ex. Qed.

(** a result is missing (a division 0/0 in the code) exactly when the cubic has a triple-like centre: r = 0 and q <= 0 *)
Theorem C62_srk_undefined : forall pi Tc Pc w T P, let a := e_a (srk_ab Tc Pc w T) in let b := e_b (srk_ab Tc Pc w T) in
  srk_pure pi Tc Pc w T P = None <-> c_r (-1) (rk_a1 a b T P) (rk_a0 a b T P) = 0 /\ c_q (-1) (rk_a1 a b T P) <= 0.
Proof. exact srk_undefined. Qed.
Print Assumptions C62_srk_undefined.
(** at the critical temperature both Peng-Robinson models divide 0 by 0 at every pressure *)
Theorem C62_critical_refuted : forall pi Tc Pc w k1 k2 k3 P, 0 < Tc -> pr78_pure pi Tc Pc w Tc P = None /\ prsv_pure pi Tc Pc w k1 k2 k3 Tc P = None.
Proof. exact both_critical. Qed.
Print Assumptions C62_critical_refuted.
Example C62_critical_example : pr78_pure pi_code 300 77.7960739 0 300 400 = None.
Proof. apply (C62_critical_refuted pi_code 300 77.7960739 0 0 0 0 400). lra. Qed.
(** the rounded circle number of the code moves two of the three roots by at most 4/3 sqrt q |pi - PI| and never the first *)
Theorem C62_circle_number : forall pi a2 a1 a0 z1 z2 z3, cardano pi a2 a1 a0 = Some (z1, z2, z3) ->
  exists y1 y2 y3, cardano PI a2 a1 a0 = Some (y1, y2, y3) /\ z1 = y1 /\
    Rabs (z2 - y2) <= 4 / 3 * sqrt (c_q a2 a1) * Rabs (pi - PI) /\ Rabs (z3 - y3) <= 4 / 3 * sqrt (c_q a2 a1) * Rabs (pi - PI).
Proof. exact cardano_pi. Qed.
Print Assumptions C62_circle_number.
Example C62_circle_number_example : exists z1 z2 z3, cardano pi_code (-6) 11 (-6) = Some (z1, z2, z3).
Proof. exact circle_ex. Qed.

(** residual functions of the Soave-Redlich-Kwong model in a single-phase state: dG/dP = V - R T / P, dG/dT = -S, dH/dT = Cp *)
Theorem C63_srk : forall Tc Pc w T P, 0 < Tc -> 0 < Pc -> 0 < T -> 0 < P -> b_srk Tc Pc * P < 1000 * (Rgas * T) ->
  let a := a_srk Tc Pc w T in let b := b_srk Tc Pc in
  regular (-1) (rk_a1 a b T P) (rk_a0 a b T P) -> one_phase (eos_rk a b T) (gres_rk a b T P) b P ->
  exists F : R -> R -> fug, locally T (fun t => srk_pure PI Tc Pc w t P = Some (F t P)) /\ locally P (fun p => srk_pure PI Tc Pc w T p = Some (F T p)) /\
    is_derive (fun p => f_g (F T p)) P (f_v (F T P) - Rgas * T / P) /\ is_derive (fun t => f_g (F t P)) T (- f_s (F T P)) /\ is_derive (fun t => f_h (F t P)) T (f_c (F T P)).
Proof. exact srk_single. Qed.
Print Assumptions C63_srk.
Example C63_srk_example : exists F : R -> R -> fug, locally 1200 (fun t => srk_pure PI 300 86.64 0 t 400 = Some (F t 400)) /\ is_derive (fun t => f_g (F t 400)) 1200 (- f_s (F 1200 400)).
Proof. exact srk_single_ex. Qed.
(** the same for Peng-Robinson, as long as 1 + kappa (1 - sqrt Tr) is positive and the temperature is not critical *)
Theorem C63_pr_partial : forall Tc Pc w T P, 0 < Tc -> 0 < Pc -> 0 < T -> 0 < P -> b_pr Tc Pc * P < 1000 * (Rgas * T) -> T <> Tc -> 0 < 1 + k_pr w * (1 - sqrt (T / Tc)) ->
  let a := a_pr Tc Pc w T in let b := b_pr Tc Pc in
  regular (pr_a2 b T P) (pr_a1 a b T P) (pr_a0 a b T P) -> one_phase (eos_pr a b T) (gres_pr a b T P) b P ->
  exists F : R -> R -> fug, locally T (fun t => pr78_pure PI Tc Pc w t P = Some (F t P)) /\ locally P (fun p => pr78_pure PI Tc Pc w T p = Some (F T p)) /\
    is_derive (fun p => f_g (F T p)) P (f_v (F T P) - Rgas * T / P) /\ is_derive (fun t => f_g (F t P)) T (- f_s (F T P)) /\ is_derive (fun t => f_h (F t P)) T (f_c (F T P)).
Proof. exact pr78_slopes. Qed.
Print Assumptions C63_pr_partial.
Example C63_pr_example : exists F : R -> R -> fug, locally 1200 (fun t => pr78_pure PI 300 77.7960739 0 t 400 = Some (F t 400)) /\ is_derive (fun t => f_g (F t 400)) 1200 (- f_s (F 1200 400)).
Proof. exact pr_single_ex. Qed.
(** and for Stryjek-Vera above the critical temperature or with k1 = k2 = 0 *)
Theorem C63_prsv_partial : forall Tc Pc w k1 k2 k3 T P, 0 < Tc -> 0 < Pc -> 0 < T -> 0 < P -> b_sv Tc Pc * P < 1000 * (Rgas * T) -> T <> Tc ->
  0 < 1 + k_sv w 0 0 0 (T / Tc) * (1 - sqrt (T / Tc)) -> Tc < T \/ k1 = 0 /\ k2 = 0 ->
  let a := a_sv Tc Pc w k1 k2 k3 T in let b := b_sv Tc Pc in
  regular (pr_a2 b T P) (pr_a1 a b T P) (pr_a0 a b T P) -> one_phase (eos_pr a b T) (gres_pr a b T P) b P ->
  exists F : R -> R -> fug, locally T (fun t => prsv_pure PI Tc Pc w k1 k2 k3 t P = Some (F t P)) /\ locally P (fun p => prsv_pure PI Tc Pc w k1 k2 k3 T p = Some (F T p)) /\
    is_derive (fun p => f_g (F T p)) P (f_v (F T P) - Rgas * T / P) /\ is_derive (fun t => f_g (F t P)) T (- f_s (F T P)) /\ is_derive (fun t => f_h (F t P)) T (f_c (F T P)).
Proof. exact prsv_slopes. Qed.
Print Assumptions C63_prsv_partial.
Example C63_prsv_example : exists F : R -> R -> fug, locally 1200 (fun t => prsv_pure PI 300 77.796 0 1 0 0 t 400 = Some (F t 400)) /\ is_derive (fun t => f_g (F t 400)) 1200 (- f_s (F 1200 400)).
Proof. exact sv_single_ex. Qed.
(** the single-phase condition holds wherever a <= b R T *)
Theorem C63_hot_single_phase : forall a b T P, 0 < b -> 0 < T -> 0 <= a -> a <= b * Rgas * T ->
  one_phase (eos_rk a b T) (gres_rk a b T P) b P /\ one_phase (eos_pr a b T) (gres_pr a b T P) b P.
Proof. exact both_hot. Qed.
Print Assumptions C63_hot_single_phase.
Example C63_hot_example : one_phase (eos_rk 1 1 300) (gres_rk 1 1 300 5) 1 5.
Proof. apply C63_hot_single_phase; unfold Rgas; lra. Qed.
(** far above the critical temperature the entropy of the Peng-Robinson model is not -dG/dT: sqrt alpha is taken positive *)
Theorem C63_pr_hot_refuted : exists F : R -> fug, locally 1600 (fun t => pr78_pure PI 100 77.7960739 0 t 1600 = Some (F t)) /\
  exists l, is_derive (fun t => f_g (F t)) 1600 l /\ l <> - f_s (F 1600) /\ f_g (F 1600) = f_h (F 1600) - 1600 * f_s (F 1600).
Proof. exact pr78_hot. Qed.
Print Assumptions C63_pr_hot_refuted.
(** below the critical temperature the Stryjek-Vera model forgets that kappa depends on the temperature *)
Theorem C63_prsv_refuted : exists F : R -> fug, locally 100 (fun t => prsv_pure PI 400 77.796 0 1 0 0 t 250 = Some (F t)) /\
  exists l, is_derive (fun t => f_g (F t)) 100 l /\ l <> - f_s (F 100) /\ f_g (F 100) = f_h (F 100) - 100 * f_s (F 100).
Proof. exact prsv_k1. Qed.
Print Assumptions C63_prsv_refuted.
(** outside 1e-5..1e5 bar and Tmin..10000 K every model answers as an ideal gas *)
Theorem C63_range : forall pure Tmin T P, T < Tmin \/ 10000 <= T \/ P < 1 / 100000 \/ 100000 <= P ->
  calc_pure pure Tmin T P = Some (mkFug 1 0 0 0 (Rgas * T / P) 0).
Proof. exact calc_outside. Qed.
Print Assumptions C63_range.
Example C63_range_example : forall pure, calc_pure pure 200 300 200000 = Some (mkFug 1 0 0 0 (Rgas * 300 / 200000) 0).
Proof. intros. apply C63_range. lra. Qed.
