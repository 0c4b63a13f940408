(** C72-C75: the water of Haar, Gallagher and Kell as in GEMS.  Statements only; proofs are in Gems*.v.  *)
From Coq Require Import List Bool Arith Reals Lra Lia.
From Coquelicot Require Import Coquelicot.
From Verif Require Import GemsModel GemsSpec GemsRun GemsIso GemsDie GemsLim GemsRef GemsEx GemsRunPf.
Open Scope R_scope.

(** *** C72: one Helmholtz energy in temperature and density *)
(** dpdt and dpdd are the slopes of the pressure; Cv and (p - T dp/dT)/d^2 those of the internal energy *)
Theorem C72_pressure_energy : forall T D, regular T D ->
  diff2 press T D (dpdt (state_at T D)) (dpdd (state_at T D)) /\
  diff2 (fun t d => gascon * t * ud (state_at t d)) T D (gascon * cvd (state_at T D)) ((press T D - T * dpdt (state_at T D)) / D ^ 2).
Proof. exact (fun T D H => conj (press_d T D H) (energy_d T D H)). Qed.
Print Assumptions C72_pressure_energy.
(** H, G, S and Cp follow from U, A, Cv and the pressure *)
Theorem C72_identities : forall T D, 0 < T -> 0 < D -> let f := state_at T D in
  hd f = ud f + press T D / (gascon * T * D) /\ gd f = ad f + press T D / (gascon * T * D) /\ sd f = ud f - ad f.
Proof. exact (fun T D HT HD => conj (hd_eq T D HT HD) (conj (gd_eq T D HT HD) (sd_eq T D))). Qed.
Print Assumptions C72_identities.
(** entropy and pressure are the slopes of A once the surplus, below 4e-9 R T / (1-y)^2, is taken off *)
Theorem C72_helmholtz_partial : forall T D, regular T D ->
  diff2 (fun t d => gascon * t * ad (state_at t d) - surplus t d) T D (- (gascon * sd (state_at T D) + surplus T D / T)) (press T D / D ^ 2).
Proof. exact helmholtz_d. Qed.
Print Assumptions C72_helmholtz_partial.
(** with it they are not, in any state *)
Theorem C72_helmholtz_refuted : forall T D, regular T D -> ~ is_derive (fun d => gascon * T * ad (state_at T d)) D (press T D / D ^ 2).
Proof. exact helmholtz_wrong. Qed.
Print Assumptions C72_helmholtz_refuted.
Example C72_case : exists D, regular 300 D /\ 0 < dpdd (state_at 300 D).
Proof. destruct (sample 300 off_300) as (d & _ & _ & _ & _ & A & B & _). exists d. split; assumption. Qed.

(** *** C73: the reported properties along the density that solves the equation *)
(** where the pressure rises with density such a density function exists *)
Theorem C73_density : forall T D, regular T D -> dpdd (state_at T D) <> 0 -> exists rho, rho T (press T D) = D /\ solves rho T (press T D).
Proof. exact density_ex. Qed.
Print Assumptions C73_density.
(** density, densityT and densityP (kg/m3, K, Pa; P in MPa here) agree, as do Alpha and Beta *)
Theorem C73_solvent : forall w rho T P, regular T (rho T P) -> solves rho T P -> dpdd (state_at T (rho T P)) <> 0 -> let o := solvent w rho in
  diff2 (fun t p => o_rho (o t p)) T P (o_rhoT (o T P)) (1000000 * o_rhoP (o T P)) /\ o_rhoT (o T P) = - o_alpha (o T P) * o_rho (o T P) /\ o_rhoP (o T P) = o_beta (o T P) * o_rho (o T P).
Proof. exact solv_d. Qed.
Print Assumptions C73_solvent.
(** Cp is the slope of the enthalpy, and the enthalpy rises with pressure by (1 - T alpha) / rho *)
Theorem C73_enthalpy : forall w rho T P, regular T (rho T P) -> solves rho T P -> dpdd (state_at T (rho T P)) <> 0 ->
  is_derive (fun t => o_H (thermo w rho t P)) T (o_Cp (thermo w rho T P)) /\
  is_derive (fun p => o_H (thermo w rho T p)) P (molar * (1 / rho T P - T * (o_alpha (solvent w rho T P) / rho T P))).
Proof. exact enth_d. Qed.
Print Assumptions C73_enthalpy.
(** S and the volume are the slopes of G, up to the surplus and to the molar mass the energies use *)
Theorem C73_gibbs_partial : forall w rho T P, regular T (rho T P) -> solves rho T P -> dpdd (state_at T (rho T P)) <> 0 ->
  diff2 (fun t p => o_G (thermo w rho t p) - molar * surplus t (rho t p)) T P (- (o_S (thermo w rho T P) + molar * (surplus T (rho T P) / T))) (molar / rho T P).
Proof. exact gibbs_d. Qed.
Print Assumptions C73_gibbs_partial.
(** the reported volume is not that slope: 18.015268 against 18.0155341 g/mol, and the surplus adds to it *)
Theorem C73_volume_refuted : forall w rho T P, regular T (rho T P) -> solves rho T P -> 0 < dpdd (state_at T (rho T P)) -> 0 < b1 (bb T) ->
  ~ is_derive (fun p => o_G (thermo w rho T (p / 10))) (10 * P) (o_V (thermo w rho T P)).
Proof. exact volume_wrong. Qed.
Print Assumptions C73_volume_refuted.
(** G = H - T S and A = U - T S up to one constant of the triple-point data *)
Theorem C73_euler : forall w rho T P, let o := thermo w rho T P in
  o_G o = o_H o - T * o_S o + (tr_G w - tr_H w + Ttr * tr_S w) /\ o_A o = o_U o - T * o_S o + (tr_A w - tr_U w + Ttr * tr_S w).
Proof. exact (fun w rho T P => euler w T P (rho T P) (rho T P)). Qed.
Print Assumptions C73_euler.
(** dAldT and densityTT are the slopes of Alpha and densityT where the temperature cuts the second of the last four terms off *)
Theorem C73_second_partial : forall w rho T P, regular T (rho T P) -> solves rho T P -> dpdd (state_at T (rho T P)) <> 0 -> cut T ->
  is_derive (fun t => o_alpha (solvent w rho t P)) T (o_dal (solvent w rho T P)) /\ is_derive (fun t => o_rhoT (solvent w rho t P)) T (o_rhoTT (solvent w rho T P)).
Proof. exact (fun w rho T P HR HS HN C => dal_d w rho T P HR HS HN (bugs_cut T (rho T P) C)). Qed.
Print Assumptions C73_second_partial.
(** elsewhere they need not be: dalHGK divides by the reference density where it should divide by the reduced one *)
Theorem C73_second_refuted : exists T P rho, regular T (rho T P) /\ solves rho T P /\ 0 < dpdd (state_at T (rho T P)) /\
  forall w, ~ is_derive (fun t => o_alpha (solvent w rho t P)) T (o_dal (solvent w rho T P)) /\ ~ is_derive (fun t => o_rhoT (solvent w rho t P)) T (o_rhoTT (solvent w rho T P)).
Proof. exact expansivity_wrong. Qed.
Print Assumptions C73_second_refuted.
Example C73_case : exists P rho, regular 300 (rho 300 P) /\ solves rho 300 P /\ 0 < dpdd (state_at 300 (rho 300 P)) /\ cut 300 /\ 0 < b1 (bb 300).
Proof. destruct (sample 300 off_300) as (d & rho & _ & E & S & A & B & _). exists (press 300 d), rho. rewrite E. split; [exact A|split; [exact S|split; [exact B|split; [exact cut_300|exact b1_300]]]]. Qed.

(** *** C74: the dielectric constant of Johnson and Norton *)
Theorem C74_dielectric : forall w rho T P, regular T (rho T P) -> solves rho T P -> dpdd (state_at T (rho T P)) <> 0 -> T < 1273 -> P < 500 -> o_eps (dielectric w rho T P) <> 0 -> let o := dielectric w rho in
  diff2 (fun t p => o_eps (o t p)) T P (o_epsT (o T P)) (10 * o_epsP (o T P)) /\ diff2 (fun t p => o_Z (o t p)) T P (o_Y (o T P)) (1000000 * o_Q (o T P)) /\ o_Z (o T P) = - 1 / o_eps (o T P).
Proof. exact die_1. Qed.
Print Assumptions C74_dielectric.
Theorem C74_second_partial : forall w rho T P, regular T (rho T P) -> solves rho T P -> dpdd (state_at T (rho T P)) <> 0 -> T < 1273 -> P < 500 -> o_eps (dielectric w rho T P) <> 0 -> cut T ->
  is_derive (fun t => o_epsT (dielectric w rho t P)) T (o_epsTT (dielectric w rho T P)) /\ is_derive (fun t => o_Y (dielectric w rho t P)) T (o_X (dielectric w rho T P)).
Proof. exact cut_die. Qed.
Print Assumptions C74_second_partial.
(** epsilonP is per bar while every other pressure derivative is per Pa *)
Theorem C74_epsilonP_refuted : exists T P rho, regular T (rho T P) /\ solves rho T P /\ 0 < dpdd (state_at T (rho T P)) /\ T < 1273 /\ P < 500 /\
  forall w, ~ is_derive (fun p => o_eps (dielectric w rho T (p / 1000000))) (1000000 * P) (o_epsP (dielectric w rho T P)).
Proof. exact epsP_wrong. Qed.
Print Assumptions C74_epsilonP_refuted.
(** above 1000 C or 5000 bar the constant is reported as zero, and so is Z *)
Theorem C74_outside : forall w rho T P, (1000 + 1 / 1000 < T - 27315 / 100 \/ 5000 + 1 / 1000 < P * 10) -> o_eps (dielectric w rho T P) = 0 /\ o_Z (dielectric w rho T P) = 0.
Proof. exact born_off. Qed.
Print Assumptions C74_outside.
Example C74_case : forall w, exists P rho, regular 300 (rho 300 P) /\ solves rho 300 P /\ 0 < dpdd (state_at 300 (rho 300 P)) /\ P < 500 /\ o_eps (dielectric w rho 300 P) <> 0 /\ cut 300.
Proof. intro w. destruct (epsP_low 300 w off_300 ltac:(lra)) as (d & rho & E & S & A & B & C & F & _). exists (press 300 d), rho. rewrite E. split; [exact A|split; [exact S|split; [exact B|split; [exact C|split; [exact F|exact cut_300]]]]]. Qed.
Example C74_outside_case : 1000 + 1 / 1000 < 1300 - 27315 / 100. Proof. lra. Qed.

(** *** C75: the search for the density and the records it feeds *)
(** at most 31 evaluations; a converged search returns the density it evaluated last, a stable solution *)
Theorem C75_search : forall P guess T, let f := denHGK P guess T in (1 <= f_count f <= 31)%nat /\ (f_ok f = false -> (11 <= f_count f)%nat) /\
  (f_ok f = true -> f_dens f = f_eval f /\ 0 < f_dens f <= 19 / 10 /\ 0 < dpdd (state_at T (f_dens f)) /\ Rabs (1 - press T (f_dens f) / P) < 1 / 10 ^ 6 /\
    (guess <= 7 / 10 -> Rabs (1 - press T (f_dens f) / P) < 1 / 10 ^ 7) /\ (guess <= 3 / 10 -> Rabs (1 - press T (f_dens f) / P) < 1 / 10 ^ 8)).
Proof. exact search. Qed.
Print Assumptions C75_search.
Example C75_search_case : exists g, 0 < g /\ f_ok (denHGK (press 300 g) g 300) = true.
Proof. exact search_300. Qed.
(** compressed liquid, state 0: the record belongs to the density reported with it and that density solves the equation, unless the search took 11 evaluations or more *)
Theorem C75_liquid_partial : forall w T P Psat ps dll, T < tz -> ps < P -> let o := HGKeqn w T P Psat ps dll in
  (exists n : nat, f_count (denHGK P dll T) = n /\ (11 <= n <= 31)%nat) \/
  (s0_w o = dim T P (s0_d o) (state_at T (s0_d o)) w /\ 0 < s0_d o <= 19 / 10 /\ 0 < dpdd (state_at T (s0_d o)) /\ Rabs (1 - press T (s0_d o) / P) < 1 / 10 ^ 6).
Proof. exact liquid. Qed.
Print Assumptions C75_liquid_partial.
Example C75_liquid_case : 300 < tz /\ 3537 / 1000000 < 1 / 10. Proof. unfold tz. lra. Qed.
(** vapour below saturation and supercritical fluid, state 1 *)
Theorem C75_vapour_partial : forall w T P Psat ps dll, (P * 10 <= Psat \/ 647126 / 1000 <= T) -> let o := HGKeqn w T P Psat ps dll in
  (exists n : nat, f_count (denHGK P (guess3 T P ps dll) T) = n /\ (11 <= n <= 31)%nat) \/
  (s1_w o = dim T P (s1_d o) (state_at T (s1_d o)) w /\ 0 < s1_d o <= 19 / 10 /\ 0 < dpdd (state_at T (s1_d o)) /\ Rabs (1 - press T (s1_d o) / P) < 1 / 10 ^ 6).
Proof. exact vapour. Qed.
Print Assumptions C75_vapour_partial.
Example C75_vapour_case : 1 / 10 * 10 <= 22 /\ 647126 / 1000 <= 700. Proof. lra. Qed.
(** metastable vapour, state 1 above saturation: the enthalpy takes q0 at the vapour's density but divides it by the liquid's *)
Theorem C75_metastable : forall w T P Psat ps dll, 0 < T -> Psat < P * 10 -> T < 647126 / 1000 -> let o := HGKeqn w T P Psat ps dll in
  f_ok (denHGK P (guess3 T P ps dll) T) = true -> f_ok (denHGK P 0 T) = true ->
  let t1 := therm_out (s1_w o) (s1_d o) in
  o_H t1 - o_U t1 - (tr_H w - tr_U w) = molar * (press T (s1_d o) / s1_d o + q0 (resid T (s1_d o)) * (1 / s0_d o - 1 / s1_d o)).
Proof. exact mixed. Qed.
Print Assumptions C75_metastable.
Example C75_metastable_case : 35 / 1000 < 1 / 10 * 10 /\ 300 < 647126 / 1000. Proof. lra. Qed.
(** the caller's pressure: kept above the pressure of the triple point, replaced by the saturation pressure below *)
Theorem C75_pressure : forall PsHGK Tk P, 0 <= PsHGK Tk ->
  (low_bar <= P -> Rabs (snd (set_P PsHGK Tk P) - P) < 1 / 10 ^ 14) /\ (P < low_bar -> set_P PsHGK Tk P = (true, PsHGK Tk * 10)).
Proof. exact (fun Q Tk P HQ => conj (set_P_high Q Tk P HQ) (set_P_low Q Tk P)). Qed.
Print Assumptions C75_pressure.
Example C75_pressure_case : low_bar <= 1 /\ 1 / 1000 < low_bar /\ 0 <= (fun _ : R => 3537 / 1000000) 300. Proof. unfold low_bar. lra. Qed.
