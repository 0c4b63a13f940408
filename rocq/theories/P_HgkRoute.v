(** C96, C104, C105: the requests the water of Haar, Gallagher and Kell answers and the records near the critical point.  Statements only; proofs are in HgkRoutePf.v.  *)
From Coq Require Import List Bool Arith Reals Lra Lia.
From Verif Require Import GemsModel GemsRun HgkSat HgkTrans HgkRoute HgkRoutePf.
Open Scope R_scope.

(** a request for saturation (pressure below that of the triple point) is refused below 0 degrees and above the critical temperature, else answered at PsHGK;
    from 643 K on with the near-critical equation *)
Theorem C96_refused : forall pf T P, P < low_bar ->
  (T < 0 \/ Tc - 27315 / 100 + 1 / 10 ^ 7 < T -> route pf T P = None) /\
  (0 <= T <= Tc - 27315 / 100 -> exists l, route pf T P = Some (true, lift_0 T + 27315 / 100, PsHGK (T + 27315 / 100) * 10, l) /\ (l = true <-> 643 <= T + 27315 / 100)).
Proof. exact sat_iff. Qed.
Print Assumptions C96_refused.
Example C96_refused_case : 0 < low_bar /\ Tc - 27315 / 100 + 1 / 10 ^ 7 < 400 /\ 0 <= 100 <= Tc - 27315 / 100. Proof. unfold low_bar, Tc. lra. Qed.

(** *** C104: the records near the critical point *)
(** above the critical temperature both states are the one phase there is *)
Theorem C104_above : forall (A : Type) (zero r : A) T d, d <> 0 -> Tc < T -> forall state, (state <= 1)%nat ->
  exists x, reads false state (after zero false T (One r d)) = Some (r, x) /\ out_rho x = d /\ out_vol x <> None.
Proof. exact both_volumes. Qed.
Print Assumptions C104_above.
Example C104_above_case : (300 : R) <> 0 /\ Tc < 650 /\ (1 <= 1)%nat. Proof. unfold Tc. repeat split; try lra; lia. Qed.
(** at saturation state 0 is the liquid, state 1 the vapour *)
Theorem C104_saturated : forall (A : Type) (zero l v : A) T dl dv, dl <> 0 -> dv <> 0 -> T <= Tc ->
  exists x y, reads true 0 (after zero true T (Two l v dl dv)) = Some (l, x) /\ reads true 1 (after zero true T (Two l v dl dv)) = Some (v, y) /\ out_rho x = dl /\ out_rho y = dv.
Proof. exact sat_volumes. Qed.
Print Assumptions C104_saturated.
Example C104_saturated_case : (400 : R) <> 0 /\ (250 : R) <> 0 /\ 645 <= Tc. Proof. unfold Tc. repeat split; lra. Qed.
(** one phase at or below the critical temperature: state 0 has density 0 and no volume, state 1 the density and no properties *)
Theorem C104_below_refuted : forall (A : Type) (zero r : A) pf T P d, d <> 0 -> 6453 / 10 <= T + 27315 / 100 <= Tc ->
  210 + (9 / 5) * (T + 27315 / 100 - 643) <= P <= 2158 / 10 + 38 / 10 * (T + 27315 / 100 - 6453 / 10) -> 1 / 10 ^ 14 <= Rabs (P - PsHGK (T + 27315 / 100) * 10) ->
  route pf T P = Some (false, T + 27315 / 100, P, true) /\
  (exists d0, reads false 0 (after zero false (T + 27315 / 100) (One r d)) = Some (r, d0) /\ out_rho d0 = 0 /\ out_vol d0 = None) /\
  (exists d1, reads false 1 (after zero false (T + 27315 / 100) (One r d)) = Some (zero, d1) /\ out_rho d1 = d).
Proof. exact zero_volume. Qed.
Print Assumptions C104_below_refuted.
Example C104_below_case : 6453 / 10 <= 37335 / 100 + 27315 / 100 <= Tc /\ 210 + (9 / 5) * (37335 / 100 + 27315 / 100 - 643) <= 2203 / 10 <= 2158 / 10 + 38 / 10 * (37335 / 100 + 27315 / 100 - 6453 / 10) /\
  exists P, 219 <= P <= 2203 / 10 /\ 1 / 10 ^ 14 <= Rabs (P - PsHGK (37335 / 100 + 27315 / 100) * 10).
Proof. exact band_case. Qed.

(** *** C105: the limits *)
(** what is accepted as one phase lies within the range of the equation and on the side of the melting curve that is not ice *)
Theorem C105_limits : forall pf T P isat Tk P' l, route pf T P = Some (isat, Tk, P', l) -> isat = false ->
  P' = P /\ Tk = lift_0 T + 27315 / 100 /\ low_bar <= P <= 30000 + 1 / 10 ^ 7 /\ -20 - 1 / 10 ^ 7 <= T <= 2250 + 1 / 10 ^ 7 /\
  (P < 20741 / 10 -> 20741 / 10 - 138180804975562958 / 10 ^ 15 * (lift_0 T + 15) <= P + 1 / 10 ^ 7) /\ (20741 / 10 <= P -> P - 1 / 10 ^ 7 <= 20741 / 10 + 174536875 / 10 ^ 6 * (lift_0 T + 15)).
Proof. exact one_not_ice. Qed.
Print Assumptions C105_limits.
Example C105_limits_case : exists r, route (fun _ => 0) 300 6000 = Some r /\ fst (fst (fst r)) = false.
Proof. exact limits_case. Qed.
(** from the triple point to 2250 degrees and 4693 bar everything is accepted *)
Theorem C105_accepted : forall T P, 1 / 100 <= T <= 2250 -> low_bar <= P <= 4693 -> valid false T P = true.
Proof. exact one_accepted. Qed.
Print Assumptions C105_accepted.
Example C105_accepted_case : 1 / 100 <= 25 <= 2250 /\ low_bar <= 1 <= 4693. Proof. unfold low_bar. lra. Qed.
(** an accepted request may get no dielectric constant, no viscosity and no conductivity *)
Theorem C105_blind_refuted : forall pf T P, 150 <= T <= 2250 -> 5001 <= P <= 30000 -> exists l, route pf T P = Some (false, T + 27315 / 100, P, l) /\
  (forall D b al da, born92 (T + 27315 / 100) P D b al da = mkBorn 0 0 0 0 0) /\ (forall rho b, viscos (T + 27315 / 100) P rho b = 0) /\ (forall rho al b, thcond (T + 27315 / 100) P rho al b = 0).
Proof. exact blind. Qed.
Print Assumptions C105_blind_refuted.
Example C105_blind_case : 150 <= 300 <= 2250 /\ 5001 <= 6000 <= 30000. Proof. lra. Qed.
