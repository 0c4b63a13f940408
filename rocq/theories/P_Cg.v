(** Property theorems C80-C83: the Churakov-Gottschalk fluid. *)
From Coq Require Import List Bool ZArith Reals Lra Lia.
From Coquelicot Require Import Coquelicot.
From Verif Require Import CgModel RDeriv CgPf CgPf2 CgEx.
Import ListNotations.
Open Scope R_scope.

(** C80: the method of a gas copies seven parameters and the fluid then reads twelve: no call is defined, whatever the record, the temperature and the pressure. *)
Theorem C80_array_refuted : forall critical Tlow TK Pbar, gasCGF critical Tlow TK Pbar = CgUndefined.
Proof. exact gasCGF_undefined. Qed.
Print Assumptions C80_array_refuted.
Example C80_array_case : gasCGF [3; 300; 1; 1; 0; 0; 0; 0; 0; 1; 0; 1] 273.15 500 1000 = CgUndefined.
Proof. apply C80_array_refuted. Qed.

(** C80: given twelve coefficients, a temperature or pressure outside the range yields the ideal gas. *)
Theorem C80_outside : forall c Tmin T Pbar, (12 <= length c)%nat -> ~ (Tmin <= T < 10000 /\ 1 / 100000 <= Pbar < 100000) ->
  CGcalcFugPure c Tmin T Pbar = CgOk (mkCg 1 0 0 (8.31451 * T / Pbar)).
Proof. exact calc_outside. Qed.
Print Assumptions C80_outside.
Example C80_outside_case : CGcalcFugPure [3; 300; 1; 1; 0; 0; 0; 0; 0; 1; 0; 1] 298.15 280 100 = CgOk (mkCg 1 0 0 (8.31451 * 280 / 100)).
Proof. apply C80_outside; [cbn; lia|lra]. Qed.

(** C80: inside the range, a pressure that no seed density exceeds: the fugacity is a variable nobody has written. *)
Theorem C80_too_high_refuted : forall (F : R -> R -> option R) (s : R -> R) Tmin T Pbar, Tmin <= T < 10000 /\ 1 / 100000 <= Pbar < 100000 ->
  (forall r, In r seeds -> exists p, cg_pressure (F T) T (s T) r = Some p /\ p <= Pbar / 10 /\ Pbar / 10 - p < 10000000) -> CGcalc F s Tmin T Pbar = CgUndefined.
Proof. exact calc_too_high. Qed.
Print Assumptions C80_too_high_refuted.
Example C80_too_high_case : CGcalc (fun _ _ => Some 0) (fun _ => flat_s) 0 298.15 9000 = CgUndefined.
Proof.
  apply C80_too_high_refuted; [lra|]. intros r Hr. exists (r * (cR * 298.15) / 10). split; [apply flat_p|].
  assert (B : 0 <= r <= 3).
  { apply in_app_or in Hr. destruct Hr as [[<-|[<-|Hr]]|Hr]; [unfold ROMIN; lra|unfold ROMIN; lra| |];
      apply in_map_iff in Hr; destruct Hr as [i [<- Hi]]; apply in_seq in Hi; assert (I1 : 0 <= INR i) by apply pos_INR; assert (I2 : INR i <= 14) by (replace 14 with (INR 14) by (cbn; lra); apply le_INR; lia); unfold ROMIN; lra. }
  unfold cR. lra.
Qed.

(** C81: what the search for the density returns, for every isotherm that is finite at the seed densities. *)
Theorem C81_search : forall (pr : R -> option R) (P : R), (forall r, In r seeds -> exists q, pr r = Some q /\ Rabs (q - P) < 10000000) ->
  match rototal pr P with
  | Ideal => exists q, pr (1 / 100) = Some q /\ P < q
  | TooHigh => forall r q, In r seeds -> pr r = Some q -> q <= P
  | At r => exists p, pr r = Some p /\ Rabs (p - P) < 1 / 100000
  | Line r => exists a b lo hi, In a seeds /\ In b seeds /\ pr a = Some lo /\ pr b = Some hi /\ lo <= P /\ P < hi
      /\ exists a' b' pa pb, pr a' = Some pa /\ pr b' = Some pb /\ lo <= pa /\ pa < P /\ P <= pb /\ pb <= hi /\ (r - a') * (pb - pa) = (P - pa) * (b' - a')
  | NoNumber => False
  end.
Proof. exact rototal_ok. Qed.
Print Assumptions C81_search.
Example C81_search_case : rototal (fun r => Some r) (3 / 200) = At (3 / 200).
Proof. exact linear_total. Qed.

(** C81: on a continuous isotherm the two densities of a chord enclose a density with the requested pressure, no farther from the answer than they are from each other. *)
Theorem C81_encloses : forall (f : R -> R) P lo hi r a b, (forall x, Rmin a b <= x <= Rmax a b -> continuous f x) -> chord (fun x => Some (f x)) P lo hi r a b ->
  exists x, Rmin a b <= x <= Rmax a b /\ f x = P /\ Rabs (r - x) <= Rabs (b - a).
Proof. exact chord_root. Qed.
Print Assumptions C81_encloses.
Example C81_encloses_case : exists x, Rmin 0 2 <= x <= Rmax 0 2 /\ x * x = 1 /\ Rabs (1 / 2 - x) <= Rabs (2 - 0).
Proof. apply (C81_encloses (fun x => x * x) 1 0 4). { intros x _. apply (ex_derive_continuous (fun x => x * x)). auto_derive. exact I. } exists 0, 4. repeat split; try lra; f_equal; ring. Qed.

(** C81: the answer need not have the requested pressure: at a jump the search keeps its first pair of densities for all its rounds. *)
Theorem C81_pressure_refuted : exists r, rototal jump (1 / 2) = Line r /\ (forall x, Rabs (x - r) < 1 / 50 -> jump x = Some 1) /\ forall x, exists q, jump x = Some q /\ Rabs (q - 1 / 2) = 1 / 2.
Proof. exact jump_far. Qed.
Print Assumptions C81_pressure_refuted.

(** C82: a result inside the range: fugacity coefficient and volume belong to the density of (T, P), enthalpy and entropy to the density of (T + T/100000, P). *)
Theorem C82_result : forall (F : R -> R -> option R) (s : R -> R) Tmin T Pbar g, Tmin <= T < 10000 /\ 1 / 100000 <= Pbar < 100000 -> 0 < T -> CGcalc F s Tmin T Pbar = CgOk g ->
  let T1 := T + T * cDELTA in
  exists ra rb Fa F0 F1 Fr, 0 < ra /\ 0 < rb /\ ROTOTAL (F T) T (s T) (Pbar / 10) = Some ra /\ ROTOTAL (F T1) T1 (s T1) (Pbar / 10) = Some rb
   /\ F T ra = Some Fa /\ F T rb = Some F0 /\ F T1 rb = Some F1 /\ F T (rb * (1 + cDELTA)) = Some Fr
   /\ cg_v g = 0.1 / ra
   /\ (let Z := Pbar / 10 / (cR * T * ra) in (Fa < 100 -> ln (cg_phi g) = Fa + Z - 1 - ln Z) /\ (100 <= Fa -> cg_phi g = 0))
   /\ cg_enth g = cR_CONST * T * (1 + ((Fr - F0) / cDELTA - (F1 - F0) / cDELTA))
   /\ cg_entr g = - cR_CONST * (F0 + (F1 - F0) / cDELTA).
Proof. exact calc_inside. Qed.
Print Assumptions C82_result.
Example C82_result_case : exists v, CGcalc (fun _ _ => Some 0) (fun _ => flat_s) 0 298.15 1 = CgOk (mkCg 1 (cR_CONST * 298.15) 0 v) /\ v = cR * 298.15.
Proof. exact flat_calc. Qed.

(** C82: F + Z - 1 - ln Z is the logarithm of the fugacity coefficient: along an isotherm the fugacity changes by dP / density, for every smooth F. *)
Theorem C82_fugacity : forall (F F1 F2 : R -> R) (RT ro : R), 0 < RT -> 0 < ro ->
  (forall r, 0 < r -> is_derive F r (F1 r)) -> (forall r, 0 < r -> is_derive F1 r (F2 r)) ->
  exists dP dG : R, is_derive (fun r : R => RT * r * (1 + r * F1 r)) ro dP
   /\ is_derive (fun r : R => let Z := 1 + r * F1 r in RT * (F r + Z - 1 + ln (RT * r))) ro dG /\ dG = dP / ro.
Proof. exact fug_gd. Qed.
Print Assumptions C82_fugacity.
Example C82_fugacity_case : exists dP dG : R, is_derive (fun r : R => 2 * r * (1 + r * 3)) 1 dP /\ is_derive (fun r : R => let Z := 1 + r * 3 in 2 * (3 * r + Z - 1 + ln (2 * r))) 1 dG /\ dG = dP / 1.
Proof. apply (C82_fugacity (fun r => 3 * r) (fun _ => 3) (fun _ => 0)); try lra; intros r _; auto_derive; try exact I; ring. Qed.

(** C82: the enthalpy is RT above the departure enthalpy RT (rho f_rho - T f_T), up to the error of the difference quotients. *)
Theorem C82_enthalpy_refuted : forall (f fT fTT : R -> R) (g g1 g2 : R -> R) (T ro M : R), 0 < T -> 0 < ro -> f T = g ro ->
  (forall t, T <= t <= T + T * cDELTA -> is_derive f t (fT t) /\ is_derive fT t (fTT t) /\ Rabs (fTT t) <= M / T ^ 2) ->
  (forall t, ro <= t <= ro + ro * cDELTA -> is_derive g t (g1 t) /\ is_derive g1 t (g2 t) /\ Rabs (g2 t) <= M / ro ^ 2) ->
  Rabs (cg_H T (f T) (f (T + T * cDELTA)) (1 + (g (ro * (1 + cDELTA)) - g ro) / cDELTA) - (cR_CONST * T * (ro * g1 ro - T * fT T) + cR_CONST * T)) <= cR_CONST * T * (2 * M * cDELTA).
Proof. exact res_H_wrong. Qed.
Print Assumptions C82_enthalpy_refuted.
Example C82_enthalpy_case : Rabs (cg_H 500 1 1 (1 + (1 * (1 + cDELTA) - 1) / cDELTA) - (cR_CONST * 500 * (1 * 1 - 500 * 0) + cR_CONST * 500)) <= cR_CONST * 500 * (2 * 0 * cDELTA).
Proof.
  apply (C82_enthalpy_refuted (fun _ => 1) (fun _ => 0) (fun _ => 0) (fun r => r) (fun _ => 1) (fun _ => 0) 500 1 0); try lra; intros t _; (split; [|split]).
  - apply d_const. - apply d_const. - rewrite Rabs_R0. lra. - apply d_id. - apply d_const. - rewrite Rabs_R0. lra.
Qed.

(** C82: enthalpy minus temperature times entropy is not RT times the logarithm of the fugacity coefficient of the same state: the gap is RT (1 + ln Z). *)
Theorem C82_gibbs_refuted : forall T F0 F1 Z lnphi, lnphi = F0 + Z - 1 - ln Z -> cg_H T F0 F1 Z - T * cg_S F0 F1 - cR_CONST * T * lnphi = cR_CONST * T * (1 + ln Z).
Proof. exact res_G. Qed.
Print Assumptions C82_gibbs_refuted.
Example C82_gibbs_case : cg_H 300 0 0 1 - 300 * cg_S 0 0 - cR_CONST * 300 * 0 = cR_CONST * 300.
Proof. rewrite (C82_gibbs_refuted 300 0 0 1 0); rewrite ln_1; ring. Qed.

(** C83: the second polynomial of the hard-sphere diameter is the derivative of the first. *)
Theorem C83_newton : forall dB dbdl r d, is_derive (hs_F0 dB dbdl r) d (hs_F1 dB dbdl r d).
Proof. exact hs_derive. Qed.
Print Assumptions C83_newton.

(** C83: the loop ends with the start value or with a Newton step shorter than 1e-7. *)
Theorem C83_diameter : forall n dB dbdl r d0, let d := hs_loop n dB dbdl r d0 in
  d = dB \/ exists d', hs_F1 dB dbdl r d' <> 0 /\ d = d' - hs_F0 dB dbdl r d' / hs_F1 dB dbdl r d' /\ Rabs (d - d') < 1 / 10000000.
Proof. exact hs_loop_ok. Qed.
Print Assumptions C83_diameter.

(** C83: at zero density the diameter is the start value times one plus delta, and the reference fluid has no residual energy. *)
Theorem C83_zero_density : (forall beta, dHS beta 0 = hs_dB beta * (1 + hs_delta beta)) /\ forall T, 0 < T -> FWCA T 0 = Some 0.
Proof. exact (conj dHS_zero FWCA_zero). Qed.
Print Assumptions C83_zero_density.
Example C83_zero_case : FWCA 2 0 = Some 0.
Proof. apply (proj2 C83_zero_density). lra. Qed.

(** C83: the results remembered in static variables are never seen, for every history of calls without the pair (0, 0). *)
Theorem C83_memory_partial : forall (f : R -> R -> option R) (l : list (R * R)), (forall a, In a l -> a <> (0, 0)) -> memo_run f memo0 l = map (fun a => f (fst a) (snd a)) l.
Proof. exact memo_ok. Qed.
Print Assumptions C83_memory_partial.
Example C83_memory_case : memo_run FWCA memo0 [(2, 0); (2, 0); (1, 0)] = [Some 0; Some 0; Some 0].
Proof.
  rewrite C83_memory_partial; [cbn [map fst snd]; now rewrite !FWCA_zero by lra|].
  intros a [<-|[<-|[<-|[]]]] E; injection E as E; lra.
Qed.
