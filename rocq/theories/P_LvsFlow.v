(** Property theorems: saturated water near the critical point (C90), the loops around it (C91) and the parametric variables (C92). *)
From Coq Require Import List Reals Lra Lia Bool.
From Coquelicot Require Import Coquelicot.
From Verif Require Import RDeriv LvsModel LvsSpec LvsTab LvsFlow LvsFlowPf LvsDome LvsFlowUse.
Open Scope R_scope.

(** The two saturated states meet the parametric equations, at one pressure and with one Gibbs energy. *)
Theorem C90_equilibrium : forall c, lvs_constants c -> 1 < l_b2 c -> forall T, 0 < T < l_Tc c ->
  (solves c T (Dvap c T) (coex_r c T) (-1) /\ solves c T (Dliq c T) (coex_r c T) 1) /\
  (Pof c T (coex_r c T) (-1) = sat_P c T /\ Pof c T (coex_r c T) 1 = sat_P c T) /\
  (Dvap c T <> 0 -> Dliq c T <> 0 -> h_G (thmSat c T (-1)) = h_G (thmSat c T 1)).
Proof. exact sat_equilibrium. Qed.
Print Assumptions C90_equilibrium.
Theorem C90_vapour_liquid : forall c, lvs_constants c -> forall T, 0 < l_k0 c -> 0 <= l_k1 c -> Dvap c T < Dliq c T.
Proof. exact vap_liq. Qed.
Print Assumptions C90_vapour_liquid.
(** The slope by which TsLVS divides is the slope of the saturation pressure. *)
Theorem C90_slope : forall c, lvs_constants c -> 1 < l_b2 c -> forall T, 0 < T < l_Tc c -> is_derive (sat_P c) T (sat_slope c T).
Proof. exact sat_newton. Qed.
Print Assumptions C90_slope.
(** The heat of vaporisation is the difference of the enthalpies and satisfies Clapeyron's equation. *)
Theorem C90_heat : forall c, lvs_constants c -> forall T th, 0 < T < l_Tc c -> Dvap c T <> 0 -> Dliq c T <> 0 -> side th ->
  sat_heat c T th = h_H (thmSat c T (-1)) - h_H (thmSat c T 1) /\ sat_heat c T th = 1000 * T * sat_slope c T * (1 / Dvap c T - 1 / Dliq c T).
Proof. exact clapeyron. Qed.
Print Assumptions C90_heat.
Example C90_example : lvs_constants co_exact /\ 1 < l_b2 co_exact /\ 0 < 646 < l_Tc co_exact /\ 0 < l_k0 co_exact /\ 0 <= l_k1 co_exact /\ 0 < Dvap co_exact 646 < Dliq co_exact 646.
Proof. exact sat_example. Qed.

(** For every temperature from 643 K to the critical one, Pfind at the critical density leaves the slope that TsLVS divides by as it was: 0 after the start. *)
Theorem C91_slope_unset_refuted : forall T, 643 <= T < l_Tc co_ -> exists th, conver_dome co_ T 1 = Some th /\ Rabs th < 1 /\ forall computed before, slope_after th computed before = before.
Proof. exact slope_unset. Qed.
Print Assumptions C91_slope_unset_refuted.
Theorem C91_dome : forall T rho th, 643 <= T < l_Tc co_ -> conver_dome co_ T rho = Some th -> forall computed before, slope_after th computed before = before.
Proof. exact dome_unset. Qed.
Print Assumptions C91_dome.
(** TsLVS ends exactly when one of the first twenty rounds converges. *)
Theorem C91_tsat_partial : forall newton T n, (n < 20)%nat -> (forall k, (k < n)%nat -> unconverged newton (ts_iter newton k T)) -> ~ unconverged newton (ts_iter newton n T) -> forall fuel, (n < fuel)%nat -> ts_loop newton fuel 0 T = Some (ts_iter newton (S n) T).
Proof. exact ts_ends. Qed.
Print Assumptions C91_tsat_partial.
Theorem C91_tsat_refuted : forall newton T, (forall k, (k < 20)%nat -> unconverged newton (ts_iter newton k T)) -> forall fuel, ts_loop newton fuel 0 T = None.
Proof. exact ts_endless. Qed.
Print Assumptions C91_tsat_refuted.
(** a sequence that halves its distance to 600 K is close enough after thirty rounds and is never let go *)
Example C91_tsat_example : (forall k, (k < 20)%nat -> unconverged halving (ts_iter halving k 646)) /\ ~ unconverged halving (ts_iter halving 30 646).
Proof. exact halving_slow. Qed.
(** LVSeqn ends after one round unless both densities agree, and then never. *)
Theorem C91_eqn_partial : forall (A : Type) (round : A -> bool -> A) equal s isat fuel, (isat = true -> equal (round s true) = false) -> eqn_loop round equal (S fuel) s isat false false = Some (round s isat).
Proof. exact eqn_once. Qed.
Print Assumptions C91_eqn_partial.
Theorem C91_eqn_refuted : forall (A : Type) (round : A -> bool -> A) equal s, equal (round s true) = true -> forall fuel, eqn_loop round equal fuel s true false false = None.
Proof. exact eqn_endless. Qed.
Print Assumptions C91_eqn_refuted.
(** The density stays in the range of the equation, and where the loop stopped by itself the pressure of the last round was that asked for to one part in 10^6 of D dP/dD. *)
Theorem C91_density : forall pf P D, den_Dmin <= D <= den_Dmax -> den_Dmin <= fst (den_loop pf P 20 D) <= den_Dmax /\
  (snd (den_loop pf P 20 D) = true -> exists D0 Pn sl two, pf D0 = (Pn, sl, two) /\ (sl <> 0 -> Rabs (Pn - P) <= 1 / 10 ^ 6 * Rabs (fst (den_loop pf P 20 D)) * Rabs sl)).
Proof. exact den_both. Qed.
Print Assumptions C91_density.
(** Twenty rounds without an answer look like an answer. *)
Theorem C91_density_refuted : exists pf P, (forall D, fst (fst (pf D)) = P -> ~ den_Dmin <= D <= den_Dmax) /\ den_Dmin <= denLVS_ 322.778 pf P <= den_Dmax.
Proof. exact den_silent. Qed.
Print Assumptions C91_density_refuted.

(** rtheta: its iteration is Newton's for its equation, and where it stands still the answer solves both equations. *)
Theorem C92_fixed_point : forall c rho Tee, 0 < l_k0 c -> 1 < l_b2 c -> forall z, rt_dz c rho Tee z = 0 -> 1 - z * z + 2 * l_b c * (z * z) <> 0 -> 0 < Tee * (1 - z * z) ->
  let p := rt_498 c Tee z in l_k0 c * snd p * Rpower (fst p) (l_b c) = rho /\ fst p * (1 - l_b2 c * (snd p * snd p)) = Tee.
Proof. exact fixed_point. Qed.
Print Assumptions C92_fixed_point.
Theorem C92_newton : forall c rho Tee z, 1 - z * z <> 0 -> 1 - z * z + 2 * l_b c * (z * z) <> 0 -> exists g', is_derive (fun y => y * Rpower (Rabs (1 - y * y)) (- l_b c) + rt_c c rho Tee) z g' /\ g' <> 0 /\
  rt_dz c rho Tee z = (z * Rpower (Rabs (1 - z * z)) (- l_b c) + rt_c c rho Tee) / g'.
Proof. exact rt_newton. Qed.
Print Assumptions C92_newton.
Theorem C92_guess : forall c rho Tee, 1 < l_b2 c -> rho <> 0 -> Tee <> 0 -> 0 < l_b c -> 0 < Tee * (1 - rt_z0 c rho Tee * rt_z0 c rho Tee).
Proof. exact guess_side. Qed.
Print Assumptions C92_guess.
Theorem C92_isotherm : forall c rho, 0 < l_k0 c -> 1 < l_b2 c -> rho <> 0 -> l_b c <> 0 -> let p := rt_495 c rho in l_k0 c * snd p * Rpower (fst p) (l_b c) = rho /\ fst p * (1 - l_b2 c * (snd p * snd p)) = 0.
Proof. exact ans_495. Qed.
Print Assumptions C92_isotherm.
Theorem C92_coexistence : forall c rho Tee, 1 < l_b2 c -> rho <> 0 -> Tee < 0 -> let p := rt_496 c rho Tee in fst p * (1 - l_b2 c * (snd p * snd p)) = Tee /\ Rabs (snd p) = 1 /\ 0 < fst p.
Proof. exact ans_496. Qed.
Print Assumptions C92_coexistence.
(** a state with z = 1/2 *)
Example C92_example : exists rho Tee, 0 < rho /\ 0 < Tee /\ rt_dz co_exact rho Tee (1 / 2) = 0 /\ 1 - 1 / 2 * (1 / 2) + 2 * l_b co_exact * (1 / 2 * (1 / 2)) <> 0 /\ 0 < Tee * (1 - 1 / 2 * (1 / 2)).
Proof. exact rtheta_example. Qed.
