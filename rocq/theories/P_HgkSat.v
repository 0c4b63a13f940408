(** C96-C99: the saturation curve of the water of Haar, Gallagher and Kell.  Statements only; proofs are in HgkPs.v, HgkSatPf.v, HgkSatEx.v.  *)
From Coq Require Import List Bool Arith Reals Lra Lia.
From Coquelicot Require Import Coquelicot.
From Verif Require Import GemsModel GemsSpec GemsRun GemsEx GemsRunPf HgkSat HgkSatSpec HgkPs HgkSatPf HgkSatEx.
Open Scope R_scope.

(** *** C96: the vapour pressure PsHGK *)
(** it rises with temperature, across the change of formula at 314 K too, up to 22.093 MPa at 647.25 K *)
Theorem C96_rises : forall t1 t2, 0 < t1 < t2 -> t2 <= 64725 / 100 -> 0 < PsHGK t1 < PsHGK t2 /\ PsHGK t2 <= 22093 / 1000.
Proof. exact rises. Qed.
Print Assumptions C96_rises.
Example C96_rises_case : 0 < 300 < 320 /\ 320 <= 64725 / 100. Proof. lra. Qed.
(** at 314 K it jumps *)
Theorem C96_continuous_refuted : ~ continuous PsHGK 314.
Proof. exact ps_jump. Qed.
Print Assumptions C96_continuous_refuted.
(** a request for saturation (pressure zero) keeps a positive pressure at every temperature *)
Theorem C96_pressure : forall Tk P, (low_bar <= P -> Rabs (snd (set_P PsHGK Tk P) - P) < 1 / 10 ^ 14) /\ (P < low_bar -> set_P PsHGK Tk P = (true, PsHGK Tk * 10) /\ 0 < PsHGK Tk * 10).
Proof. exact request. Qed.
Print Assumptions C96_pressure.
Example C96_pressure_case : low_bar <= 1 /\ 0 < low_bar. Proof. unfold low_bar. lra. Qed.
(** above 647.25 K too, where there is no saturation and the curve is mirrored; the request is then refused (C96_refused in P_HgkRoute.v) *)
Theorem C96_mirrored : forall t1 t2, 64725 / 100 <= t1 < t2 -> t2 < 12945 / 10 ->
  fst (set_P PsHGK t1 0) = true /\ fst (set_P PsHGK t2 0) = true /\ 0 < snd (set_P PsHGK t2 0) < snd (set_P PsHGK t1 0).
Proof. exact above_falls. Qed.
Print Assumptions C96_mirrored.
Example C96_mirrored_case : 64725 / 100 <= 700 < 800 /\ 800 < 12945 / 10. Proof. lra. Qed.

(** *** C97: pcorr, the densities and the pressure of saturation *)
(** what it leaves, from any start: two different states at one pressure with the same Gibbs energy to 1e-4 RT, unless one of the two density searches
    of the last round took 11 evaluations or more, or the vapour is thinner than 5e-7 g/cm3 *)
Theorem C97_saturation_partial : forall n T p dL dV q, pc n T p dL dV = Found q -> exists gl gv : R,
  (11 <= f_count (denHGK (q_at q) gl T) <= 31)%nat \/ (11 <= f_count (denHGK (q_at q) gv T) <= 31)%nat \/ f_dens (denHGK (q_at q) gv T) < 5 / 10 ^ 7 \/
  (settled T (q_at q) (q_dL q) /\ settled T (q_at q) (q_dV q) /\ q_dL q <> q_dV q /\
   Rabs (gd (state_at T (q_dL q)) - gd (state_at T (q_dV q))) <= 1 / 10 ^ 4 /\
   q_p q - q_at q = gascon * T * (gd (state_at T (q_dL q)) - gd (state_at T (q_dV q))) / (1 / q_dV q - 1 / q_dL q)).
Proof. exact found_q. Qed.
Print Assumptions C97_saturation_partial.
Example C97_saturation_case : exists p d q, pc 1 300 p d d = Found q.
Proof. exact found_ex. Qed.
(** the correction of the pressure is a step of Newton's method for equal Gibbs energies (less the surplus of C72) *)
Theorem C97_newton : forall T q, main T q -> regular T (q_dL q) -> regular T (q_dV q) -> exists (rl rv : R -> R -> R) (sl sv : R),
  rl T (press T (q_dL q)) = q_dL q /\ solves rl T (press T (q_dL q)) /\ rv T (press T (q_dV q)) = q_dV q /\ solves rv T (press T (q_dV q)) /\
  is_derive (fun p => gascon * T * gd (state_at T (rl T p)) - surplus T (rl T p)) (press T (q_dL q)) sl /\
  is_derive (fun p => gascon * T * gd (state_at T (rv T p)) - surplus T (rv T p)) (press T (q_dV q)) sv /\
  q_p q = q_at q - gascon * T * (gd (state_at T (q_dL q)) - gd (state_at T (q_dV q))) / (sl - sv).
Proof. exact newton_q. Qed.
Print Assumptions C97_newton.
Example C97_newton_case : exists T q, main T q /\ regular T (q_dL q) /\ regular T (q_dV q).
Proof. exact main_ex. Qed.

(** *** C98: the saturated states *)
(** state 0 is the liquid and state 1 the vapour of pcorr, each record that of its own density *)
Theorem C98_states : forall w q T, 0 < T -> exists l v : therm, at_sat w q T 0 = Some l /\ at_sat w q T 1 = Some v /\
  l = therm_out (dim T (press T (q_dL q)) (q_dL q) (state_at T (q_dL q)) w) (q_dL q) /\ v = therm_out (dim T (press T (q_dV q)) (q_dV q) (state_at T (q_dV q)) w) (q_dV q) /\
  o_G l - o_G v = molar * (gascon * T * (gd (state_at T (q_dL q)) - gd (state_at T (q_dV q)))) /\
  o_H l - o_H v - T * (o_S l - o_S v) = o_G l - o_G v.
Proof. exact sat_states. Qed.
Print Assumptions C98_states.
(** their Gibbs energies agree to 1e-4 RT, and the heat of vaporisation is T times the entropy of vaporisation to the same accuracy *)
Theorem C98_equilibrium : forall w q T, 0 < T -> main T q -> exists l v : therm, at_sat w q T 0 = Some l /\ at_sat w q T 1 = Some v /\
  Rabs (o_G l - o_G v) <= molar * gascon * T / 10 ^ 4 /\ Rabs (o_H l - o_H v - T * (o_S l - o_S v)) <= molar * gascon * T / 10 ^ 4 /\
  o_V l * q_dL q = o_V v * q_dV q.
Proof. exact sat_equal. Qed.
Print Assumptions C98_equilibrium.
Example C98_case : exists T q, 0 < T /\ main T q.
Proof. destruct main_ex as (T & q & A & B & _). exists T, q. split; [exact (proj1 B)|exact A]. Qed.

(** *** C99: pressures near saturation *)
(** within 1e-6 MPa of the pressure of pcorr the answer is that of pcorr's pressure, whatever the caller's pressure *)
Theorem C99_snapped : forall w q T P Psat, Ttr <= T <= Tc -> P <= Pc -> Rabs (P - q_p q) <= PTOL -> unsat w q T P Psat = unsat w q T (q_p q) Psat.
Proof. exact snap_near. Qed.
Print Assumptions C99_snapped.
Example C99_snapped_case : Ttr <= 373 <= Tc /\ 1013 / 10000 <= Pc /\ Rabs (1013 / 10000 - (1013 / 10000 + 1 / 10 ^ 7)) <= PTOL.
Proof. unfold Ttr, Tc, Pc, PTOL. rewrite Rabs_left; lra. Qed.
(** elsewhere above pcorr's pressure state 0 is one liquid density: its record and its volume belong together *)
Theorem C99_liquid_partial : forall w q T P Psat, T < tz -> q_p q < P -> PTOL < P - q_p q -> let o := unsat w q T P Psat in
  (exists n : nat, f_count (denHGK P (q_dL q) T) = n /\ (11 <= n <= 31)%nat) \/
  (s0_w o = dim T P (s0_d o) (state_at T (s0_d o)) w /\ settled T P (s0_d o)).
Proof. exact liquid_far. Qed.
Print Assumptions C99_liquid_partial.
Example C99_liquid_case : 373 < tz /\ PTOL < 1 - 1013 / 10000. Proof. unfold tz, PTOL. lra. Qed.
(** between PsHGK and a larger pressure of pcorr, and at the latter, state 0 carries the energies of the liquid with the volume of the vapour *)
Theorem C99_mixed_refuted : forall w q T P, 0 < T < tz -> PsHGK T < P <= q_p q -> (PTOL < q_p q - P \/ P = q_p q) ->
  f_ok (denHGK P (q_dL q) T) = true -> f_ok (denHGK P (P / T / (4 / 10)) T) = true ->
  let o := unsat w q T P (PsHGK T * 10) in let t0 := therm_out (s0_w o) (s0_d o) in
  let dl := f_dens (denHGK P (q_dL q) T) in let dg := f_dens (denHGK P (P / T / (4 / 10)) T) in
  settled T P dl /\ settled T P dg /\ o_V t0 = 1 / dg * H2OMolarMass * (1 / 10) /\ o_H t0 - o_U t0 - (tr_H w - tr_U w) = molar * (press T dl / dl).
Proof. exact mixed_far. Qed.
Print Assumptions C99_mixed_refuted.
(** between a smaller pressure of pcorr and PsHGK, the vapour of state 1 is the liquid of state 0 *)
Theorem C99_twin_refuted : forall w q T P, T < tz -> q_p q + PTOL < P <= PsHGK T ->
  let o := unsat w q T P (PsHGK T * 10) in s1_w o = s0_w o /\ s1_d o = s0_d o.
Proof. exact twin_far. Qed.
Print Assumptions C99_twin_refuted.
Example C99_windows_case : exists q P, 0 < 300 < tz /\ PsHGK 300 < P <= q_p q /\ PTOL < q_p q - P /\ exists q', q_p q' + PTOL < PsHGK 300 /\ PsHGK 300 <= PsHGK 300.
Proof. exact windows_ex. Qed.
