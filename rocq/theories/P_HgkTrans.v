(** C100-C103: viscosity, thermal conductivity and surface tension of water.  Statements only; proofs are in HgkTransPf.v.  *)
From Coq Require Import List Bool Arith Reals Lra.
From Verif Require Import GemsModel GemsRun HgkSat HgkTrans HgkTransSpec HgkTransPf.
Open Scope R_scope.

(** *** C100: viscosity *)
(** the viscosity is not that of Watson, Basu and Sengers *)
Theorem C100_watson_refuted : ~ (forall Tk P rho beta, 270 <= Tk -> visc_range Tk P -> ordinary Tk -> viscos Tk P rho beta = watson Tk rho).
Proof. exact not_watson. Qed.
Print Assumptions C100_watson_refuted.
(** water below its boiling point never gets a tenth of a millipascal second; the correlation gives 1.6 and more at 0 degrees *)
Theorem C100_cold : forall Tk P rho beta, 270 <= Tk <= 37315 / 100 -> visc_range Tk P -> 0 <= rho <= 1010 -> viscos Tk P rho beta < 1 / 10 ^ 4 /\ 16 / 10 ^ 4 < watson (27315 / 100) 1000.
Proof. exact (fun Tk P rho beta A B C => conj (visc_small Tk P rho beta A B C) watson_cold). Qed.
Print Assumptions C100_cold.
Example C100_cold_case : 270 <= 27315 / 100 <= 37315 / 100 /\ visc_range (27315 / 100) 1 /\ 0 <= 1000 <= 1010. Proof. unfold visc_range. lra. Qed.
(** the double sum stops after its first row: what is reported is the gas at that temperature times a function of the density *)
Theorem C100_form : forall Tk P rho beta, 0 < Tk -> visc_range Tk P -> ordinary Tk ->
  viscos Tk P rho beta = gas (Tk / (64727 / 100)) * exp (rho / (317763 / 1000) * row0 (rho / (317763 / 1000))) /\
  watson Tk rho = viscos Tk P rho beta * exp (rho / (317763 / 1000) * lost (Tk / (64727 / 100)) (rho / (317763 / 1000))).
Proof. exact (fun Tk P rho beta A B C => conj (visc_form_ord Tk P rho beta A B C) (visc_lost Tk P rho beta A B C)). Qed.
Print Assumptions C100_form.
Example C100_form_case : 0 < 300 /\ visc_range 300 1 /\ ordinary 300. Proof. unfold visc_range, ordinary. lra. Qed.
(** so at one density it rises with temperature, for the liquid as for the gas *)
Theorem C100_rises : forall T1 T2 P1 P2 rho b1 b2, 270 <= T1 < T2 -> visc_range T1 P1 -> visc_range T2 P2 -> ordinary T1 -> ordinary T2 ->
  0 < viscos T1 P1 rho b1 < viscos T2 P2 rho b2.
Proof. exact (fun T1 T2 P1 P2 rho b1 b2 A B C D E => conj (visc_pos T1 P1 rho b1 (proj1 A) B) (visc_up T1 T2 P1 P2 rho b1 b2 A B C D E)). Qed.
Print Assumptions C100_rises.
Example C100_rises_case : 270 <= 300 < 350 /\ visc_range 300 1 /\ visc_range 350 500 /\ ordinary 300 /\ ordinary 350. Proof. unfold visc_range, ordinary. lra. Qed.
(** at the reference temperature 647.27 K, and nowhere else by design, the lost rows are zero *)
Theorem C100_star : forall P rho beta, visc_range (64727 / 100) P -> viscos (64727 / 100) P rho beta = watson (64727 / 100) rho * u2 1 (rho / (317763 / 1000)) rho beta.
Proof. exact visc_star. Qed.
Print Assumptions C100_star.
Example C100_star_case : visc_range (64727 / 100) 250. Proof. unfold visc_range. lra. Qed.

(** *** C101: thermal conductivity *)
(** the conductivity is that of a first row too, plus the enhancement, which is never negative *)
Theorem C101_form : forall Tk P rho alph beta, 270 <= Tk -> cond_range Tk P ->
  thcond Tk P rho alph beta = sqrt (Tk / (64727 / 100)) / poly3 aL (1 / (Tk / (64727 / 100))) * exp (rho / (317763 / 1000) * rowL (rho / (317763 / 1000))) + crit_part Tk rho alph beta /\
  0 <= crit_part Tk rho alph beta /\ 0 < thcond Tk P rho alph beta.
Proof. exact (fun Tk P rho alph beta A B => conj (cond_form Tk P rho alph beta (Rlt_le_trans 0 270 Tk (IZR_lt 0 270 eq_refl) A) B) (conj (crit_nonneg Tk rho alph beta A) (cond_pos Tk P rho alph beta A B))). Qed.
Print Assumptions C101_form.
Example C101_form_case : 270 <= 300 /\ cond_range 300 1. Proof. unfold cond_range. lra. Qed.
(** it does not reach the part of the correlation without the enhancement *)
Theorem C101_sengers_refuted : ~ (forall Tk P rho alph beta, 270 <= Tk -> cond_range Tk P -> 0 < beta -> sengers Tk rho <= thcond Tk P rho alph beta).
Proof. exact not_sengers. Qed.
Print Assumptions C101_sengers_refuted.
(** at 3.98 degrees, where water does not expand, it stays below 0.5 W/(m K); the correlation gives more than 0.55 *)
Theorem C101_cold : forall P beta, cond_range (27713 / 100) P -> thcond (27713 / 100) P 1000 0 beta < 1 / 2 /\ 55 / 100 < sengers (27713 / 100) 1000.
Proof. exact (fun P beta A => conj (cond_low P beta A) sengers_high). Qed.
Print Assumptions C101_cold.
Example C101_cold_case : cond_range (27713 / 100) 1. Proof. unfold cond_range. lra. Qed.

(** *** C102: the record of the transport properties *)
(** poise and calories: ten times the viscosity and 0.0023901 times the conductivity of the two functions *)
Theorem C102_units : forall isat T P d f, let r := dim_trans isat T P d f in
  t_visc r = 10 * viscos T (P * 10) (d * 1000) (1 / (d * dpdd f * 10) * 10 / 10 ^ 6) /\
  t_cond r = 23901 / 10 ^ 7 * thcond T (P * 10) (d * 1000) (d * dvdt f) (1 / (d * dpdd f * 10) * 10 / 10 ^ 6).
Proof. exact rec_eq. Qed.
Print Assumptions C102_units.
(** the kinematic viscosity times the reported density (kg/m3) is a thousand times the dynamic viscosity *)
Theorem C102_kinematic : forall isat T P d f, d <> 0 -> let r := dim_trans isat T P d f in t_visck r * (d * 1000) = 1000 * t_visc r.
Proof. exact rec_kin. Qed.
Print Assumptions C102_kinematic.
Example C102_kinematic_case : (1 : R) <> 0. Proof. lra. Qed.
(** the diffusivity is the conductivity over density and heat capacity, the Prandtl number the quotient of the two diffusivities, zero without a conductivity *)
Theorem C102_diffusivity : forall isat T P d f, d <> 0 -> cpd f <> 0 -> let r := dim_trans isat T P d f in
  t_diff r * (d * 1000) * (cpd f * gascon * 1000) * (23901 / 10 ^ 7) = 10000 * t_cond r /\
  (t_cond r <> 0 -> t_prandtl r * t_diff r = t_visck r) /\ (t_cond r = 0 -> t_prandtl r = 0 /\ t_diff r = 0).
Proof. exact (fun isat T P d f A B => conj (rec_diff isat T P d f A B) (rec_prandtl isat T P d f A B)). Qed.
Print Assumptions C102_diffusivity.
Example C102_diffusivity_case : exists f : fcts, (1 : R) <> 0 /\ cpd f <> 0. Proof. exact case_cp. Qed.
(** beyond the limits of a correlation its results are zero, without an error *)
Theorem C102_beyond : forall isat T P d f, let r := dim_trans isat T P d f in
  (visc_beyond T (P * 10) -> t_visc r = 0 /\ t_visck r = 0 /\ t_prandtl r = 0) /\ (cond_beyond T (P * 10) -> t_cond r = 0 /\ t_diff r = 0 /\ t_prandtl r = 0).
Proof. exact rec_zero. Qed.
Print Assumptions C102_beyond.
Example C102_beyond_case : visc_beyond 300 6000 /\ cond_beyond 300 4500. Proof. unfold visc_beyond, cond_beyond. lra. Qed.
(** so a viscosity vanishes with one bar more *)
Theorem C102_step_refuted : forall Tk rho beta, 270 <= Tk <= 42315 / 100 -> 0 < viscos Tk 5000 rho beta /\ viscos Tk 5001 rho beta = 0.
Proof. exact visc_step. Qed.
Print Assumptions C102_step_refuted.
Example C102_step_case : 270 <= 300 <= 42315 / 100. Proof. lra. Qed.
(** and between the limits of the two there are viscous states with Prandtl number zero *)
Theorem C102_prandtl_refuted : forall T P d f, 3982 / 10 <= T <= 423 -> 2001 <= P * 10 <= 3000 -> t_visc (dim_trans 0 T P d f) > 0 /\ t_prandtl (dim_trans 0 T P d f) = 0.
Proof. exact rec_gap. Qed.
Print Assumptions C102_prandtl_refuted.
Example C102_prandtl_case : 3982 / 10 <= 410 <= 423 /\ 2001 <= 250 * 10 <= 3000. Proof. lra. Qed.

(** *** C103: surface tension *)
(** it is positive and falls with temperature from the triple point to 647.0667 K *)
Theorem C103_falls : forall T1 T2, 27316 / 100 <= T1 < T2 -> T2 <= 6470667 / 10000 -> exists s1 s2 : R, surten T1 = Some s1 /\ surten T2 = Some s2 /\ 0 < s2 < s1 /\ s1 < 88 / 1000.
Proof. exact surt_falls. Qed.
Print Assumptions C103_falls.
Example C103_falls_case : 27316 / 100 <= 300 < 400 /\ 400 <= 6470667 / 10000. Proof. lra. Qed.
(** outside the two-phase range it is zero *)
Theorem C103_outside : forall T, T < 27316 / 100 \/ 647067 / 1000 < T -> surten T = Some 0.
Proof. exact surt_out. Qed.
Print Assumptions C103_outside.
Example C103_outside_case : 650 < 27316 / 100 \/ 647067 / 1000 < 650. Proof. lra. Qed.
(** just below the critical temperature it is not a number *)
Theorem C103_number_refuted : forall T, 64706677 / 100000 <= T < 647067 / 1000 - 1 / 10 ^ 10 -> surten T = None.
Proof. exact surt_nan. Qed.
Print Assumptions C103_number_refuted.
Example C103_number_case : 64706677 / 100000 <= 6470669 / 10000 < 647067 / 1000 - 1 / 10 ^ 10. Proof. lra. Qed.
(** at saturation both states carry it, in mN/m *)
Theorem C103_saturated : forall q T, t_surf (fst (sat_trans q T)) = option_map (fun s => s * 1000) (surten T) /\ t_surf (snd (sat_trans q T)) = option_map (fun s => s * 1000) (surten T).
Proof. exact rec_sat. Qed.
Print Assumptions C103_saturated.
(** away from saturation state 0 has none; above the saturation pressure state 1 nevertheless has one *)
Theorem C103_single_phase_refuted : forall T P Psat ps dll, 27316 / 100 <= T <= 647 -> Psat < P * 10 ->
  t_surf (fst (HGKeqn_trans T P Psat ps dll)) = Some 0 /\ exists s, t_surf (snd (HGKeqn_trans T P Psat ps dll)) = Some s /\ 0 < s.
Proof. exact surf_mixed. Qed.
Print Assumptions C103_single_phase_refuted.
Example C103_single_phase_case : 27316 / 100 <= 300 <= 647 /\ 1 / 10 < 100 * 10. Proof. lra. Qed.
