(** C36, C37, C48, C58: reactions described by logK(T) functions and by water density. *)
From Coq Require Import List Reals Lra Lia.
From Coquelicot Require Import Coquelicot.
From Verif Require Import ReacModel ReacSpec ReacProofs ReacDens ReacConv ReacWit.
Import ListNotations.
Open Scope R_scope.

(** C36: the polynomial, from any logK coefficients (shorter vectors are padded with zeros) *)
Theorem C36_logK_polynomial_partial : forall d ce P, (ce = LGK \/ ce = LGX) -> rA d <> [] -> rC d = [] ->
  exists q, (forall T, 0 < T -> logK_fT d ce T P = Some (q T)) /\
  forall T, 0 < T -> consistent_T q T /\ equilibrium lg_to_ln q T.
Proof. exact logK_LGK. Qed.
Print Assumptions C36_logK_polynomial_partial.
Example C36_polynomial_example : rA rx_lgk <> [] /\ rC rx_lgk = [].
Proof. split; [discriminate|reflexivity]. Qed.
Theorem C36_two_term : forall d P, given (rH d) -> given (rS d) -> v (rCp d) = 0 ->
  exists q, (forall T, 0 < T -> logK_fT d EK2 T P = Some (q T)) /\
  forall T, 0 < T -> consistent_T q T /\ equilibrium lg_to_ln q T.
Proof. exact logK_EK2. Qed.
Print Assumptions C36_two_term.
Theorem C36_three_term : forall d P, given (rH d) -> given (rS d) -> given (rCp d) -> 0 < rTr d ->
  exists q, (forall T, 0 < T -> logK_fT d EK3 T P = Some (q T)) /\
  forall T, 0 < T -> consistent_T q T /\ equilibrium lg_to_ln q T.
Proof. exact logK_EK3. Qed.
Print Assumptions C36_three_term.
Theorem C36_three_term_reference : forall d P, given (rH d) -> given (rS d) -> given (rCp d) -> 0 < rTr d ->
  exists t, logK_fT d EK3 (rTr d) P = Some t /\
  dH t = v (rH d) /\ dS t = v (rS d) /\ dCp t = v (rCp d) /\ dG t = v (rH d) - rTr d * v (rS d).
Proof. exact logK_EK3_ref. Qed.
Print Assumptions C36_three_term_reference.
Theorem C36_energies_partial : forall d ce T P t, logK_fT d ce T P = Some t -> dH t <> 0 -> energies t T P.
Proof. exact logK_energies. Qed.
Print Assumptions C36_energies_partial.
Example C36_terms_example : given (rH rx_hs) /\ given (rS rx_hs) /\ v (rCp rx_hs) = 0 /\
  given (rH rx_hscp) /\ given (rS rx_hscp) /\ given (rCp rx_hscp) /\ 0 < rTr rx_hscp /\
  (exists t, logK_fT rx_hscp EK2 300 1 = Some t /\ dH t <> 0).
Proof. repeat split; cbn; try lra. eexists. split; [reflexivity|]. cbn. lra. Qed.
(** when data are missing a three-term request becomes the two-term one (no Cp), the one-term one (H or S given as 0) or the constant *)
Theorem C36_method_chosen : forall d T P, def (rG d) = false ->
  (given (rH d) -> given (rS d) -> def (rCp d) = false -> logK_fT d EK3 T P = logK_fT d EK2 T P) /\
  (given (rH d) -> v (rH d) = 0 -> def (rS d) = false -> logK_fT d EK3 T P = logK_fT d EK1 T P) /\
  (given (rS d) -> v (rS d) = 0 -> def (rH d) = false -> logK_fT d EK3 T P = logK_fT d EK1 T P) /\
  (def (rH d) = false -> def (rS d) = false -> logK_fT d EK3 T P = logK_fT d EK0 T P).
Proof. exact method_chosen. Qed.
Print Assumptions C36_method_chosen.
Example C36_method_example : let d := mkR (mkSc 0 false) (mkSc 1000 true) (mkSc 5 true) (mkSc 7 false) (mkSc 0 false) (mkSc 0 false) 300 1 [] [] in
  def (rG d) = false /\ given (rH d) /\ given (rS d) /\ def (rCp d) = false.
Proof. repeat split. Qed.
(** with Cp coefficients only, H and S stay where they were although Cp is not 0 *)
Theorem C36_Cp_coefficients_refuted : forall d ce P q T, (ce = LGK \/ ce = LGX) -> rA d = [] -> rC d <> [] -> given (rH d) -> given (rS d) ->
  (forall t, 0 < t -> logK_fT d ce t P = Some (q t)) -> 0 < T -> Cp5 (resize 5 (rC d)) T <> 0 -> ~ consistent_T q T.
Proof. exact logK_Cp_inconsistent. Qed.
Print Assumptions C36_Cp_coefficients_refuted.
Example C36_Cp_example : rA rx_cp = [] /\ rC rx_cp <> [] /\ given (rH rx_cp) /\ given (rS rx_cp) /\
  (forall t, 0 < t -> exists p, logK_fT rx_cp LGK t 1 = Some p) /\ Cp5 (resize 5 (rC rx_cp)) 300 <> 0.
Proof. repeat split; try discriminate. - intros t Ht. eexists. reflexivity. - apply Cp_pos. lra. Qed.
(** with S missing it is derived using the temperature asked for *)
Theorem C36_entropy_missing_refuted : forall d P q T, given (rH d) -> given (rG d) -> def (rS d) = false -> v (rH d) <> v (rG d) ->
  (forall t, 0 < t -> logK_fT d EK2 t P = Some (q t)) -> 0 < T -> ~ consistent_T q T.
Proof. exact logK_S_missing. Qed.
Print Assumptions C36_entropy_missing_refuted.
(** with only H given logK is constant *)
Theorem C36_enthalpy_only_refuted : forall d P q T, given (rH d) -> def (rG d) = false -> def (rS d) = false -> v (rH d) <> 0 ->
  (forall t, 0 < t -> logK_fT d EK3 t P = Some (q t)) -> 0 < T -> ~ equilibrium lg_to_ln q T.
Proof. exact logK_H_only. Qed.
Print Assumptions C36_enthalpy_only_refuted.
(** coefficients missing, or both given and one too short: the vectors are read outside their bounds *)
Theorem C36_no_coefficients_refuted : forall d ce T P, (ce = LGK \/ ce = LGX) -> rA d = [] -> rC d = [] -> logK_fT d ce T P = None.
Proof. exact logK_nothing. Qed.
Print Assumptions C36_no_coefficients_refuted.
Theorem C36_short_coefficients_refuted : forall d ce T P, (ce = LGK \/ ce = LGX) -> rA d <> [] -> rC d <> [] ->
  (length (rA d) < 7 \/ length (rC d) < 5)%nat -> logK_fT d ce T P = None.
Proof. exact logK_both_short. Qed.
Print Assumptions C36_short_coefficients_refuted.
(** with a zero enthalpy U and A are reported as 0 whatever the volume *)
Theorem C36_energies_refuted : forall d T P t, given (rH d) -> given (rS d) -> v (rH d) = 0 -> P <> 0 -> v (rV d) <> 0 ->
  logK_fT d EK2 T P = Some t -> ~ energies t T P.
Proof. exact logK_energy_zero. Qed.
Print Assumptions C36_energies_refuted.
Example C36_missing_example : (given (rH rx_hg) /\ given (rG rx_hg) /\ def (rS rx_hg) = false /\ v (rH rx_hg) <> v (rG rx_hg)) /\
  (given (rH rx_h) /\ def (rG rx_h) = false /\ def (rS rx_h) = false /\ v (rH rx_h) <> 0) /\
  (given (rH rx_v) /\ given (rS rx_v) /\ v (rH rx_v) = 0 /\ v (rV rx_v) <> 0).
Proof. repeat split; cbn; lra. Qed.

(** C37: water is any pair of functions of T and P (Pa) with matching alpha, beta, dalpha/dT *)
Theorem C37_frantz_T : forall w a b c d e f g r P Pb T, 0 < T -> (forall t, 0 < t -> water_ok w t P) -> exists q,
  (forall t, 0 < t -> frantz (a :: b :: c :: d :: e :: f :: g :: r) (w t P) t Pb = Some (q t)) /\
  consistent_T q T /\ energies (q T) T Pb /\ dG (q T) * lg_to_ln = - Rgas * T * lnK (q T) * LN10.
Proof. exact frantz_T. Qed.
Print Assumptions C37_frantz_T.
Theorem C37_frantz_P : forall w a b c d e f g r Pb T P, 0 < T -> water_ok w T P -> exists q,
  (forall p, frantz (a :: b :: c :: d :: e :: f :: g :: r) (w T p) T Pb = Some (q p)) /\ volume_ok q P.
Proof. exact frantz_P. Qed.
Print Assumptions C37_frantz_P.
Theorem C37_dolejs_T : forall w a b c d e r P Pb T, 0 < T -> (forall t, 0 < t -> water_ok w t P) -> exists q,
  (forall t, 0 < t -> dolejs (a :: b :: c :: d :: e :: r) (w t P) t Pb = Some (q t)) /\
  consistent_T q T /\ energies (q T) T Pb /\
  dG (q T) = - Rgas * T * ((- 1 / Rgas) * (a / T + b + c * ln T + d * T + e * ln (rho (w T P) / 1000))).
Proof. exact dolejs_T. Qed.
Print Assumptions C37_dolejs_T.
Theorem C37_dolejs_P : forall w a b c d e r Pb T P, 0 < T -> water_ok w T P -> exists q,
  (forall p, dolejs (a :: b :: c :: d :: e :: r) (w T p) T Pb = Some (q p)) /\ volume_ok q P.
Proof. exact dolejs_P. Qed.
Print Assumptions C37_dolejs_P.
Theorem C37_ryzhenko_T_partial : forall w pK A B r P Pb T, 0 < T -> (forall t, 0 < t -> water_ok w t P) -> exists q,
  (forall t, 0 < t -> ryzhenko (pK :: A :: B :: r) (w t P) t Pb = Some (q t)) /\ consistent_T q T /\
  dG (q T) * lg_to_ln = - Rgas * T * lnK (q T) * LN10 /\ lnK (q T) = lgK (q T) * lg_to_ln.
Proof. exact ryzhenko_T. Qed.
Print Assumptions C37_ryzhenko_T_partial.
Theorem C37_ryzhenko_P : forall w pK A B r Pb T P, 0 < T -> water_ok w T P -> exists q,
  (forall p, ryzhenko (pK :: A :: B :: r) (w T p) T Pb = Some (q p)) /\ volume_ok q P.
Proof. exact ryzhenko_P. Qed.
Print Assumptions C37_ryzhenko_P.
Example C37_example : forall T P, water_ok liquid T P.
Proof. exact liquid_ok. Qed.
(** the Frantz-Marshall model never sets logK: it is 0 while lnK is not *)
Theorem C37_logK_unset_refuted : (forall fm w T P t, model_frantz fm w T P = Some t -> lgK t = 0) /\
  exists t, model_frantz [1; 0; 0; 0; 0; 0; 0] (liquid 400 200000) 400 200000 = Some t /\ lnK t <> 0 /\ lgK t = 0.
Proof. exact (conj frantz_logK_unset frantz_unset). Qed.
Print Assumptions C37_logK_unset_refuted.
(** Ryzhenko-Bryzgalin subtracts P V with V in J/Pa and P in bar *)
Theorem C37_ryzhenko_energies_refuted : forall co w T Pb t, ryzhenko co w T Pb = Some t -> Pb <> 0 -> dV t <> 0 -> ~ energies t T Pb.
Proof. exact ryzhenko_not_energies. Qed.
Print Assumptions C37_ryzhenko_energies_refuted.
Example C37_ryzhenko_example : exists t, model_ryzhenko [1; 1; 0] (liquid 400 200000) 400 200000 = Some t /\ dV t <> 0.
Proof. exact ryz_volume. Qed.

(** C48 *)
Theorem C48_there_and_back : forall d a t, length (rC d) = 5%nat -> convert_C_to_A d = Some (a, t) ->
  forall d', rA d' = a -> exists t', convert_A_to_C d' = Some (rC d, t').
Proof. exact convert_there_and_back. Qed.
Print Assumptions C48_there_and_back.
Theorem C48_same_functions : forall d a t, length (rC d) = 5%nat -> 0 < rTr d -> convert_C_to_A d = Some (a, t) ->
  length a = 7%nat /\ H7 a (rTr d) = v (rH d) /\ S7 a (rTr d) = v (rS d) /\
  forall T, 0 < T -> is_derive (H7 a) T (Cp5 (rC d) T) /\ is_derive (S7 a) T (Cp5 (rC d) T / T) /\
    Rln10 * T * lgK7 a T = T * S7 a T - H7 a T.
Proof. exact convert_same. Qed.
Print Assumptions C48_same_functions.
Theorem C48_back_and_there : forall d c t, length (rA d) = 7%nat -> 0 < rTr d -> convert_A_to_C d = Some (c, t) ->
  A_of_C c (S7 (rA d) (rTr d)) (H7 (rA d) (rTr d)) (rTr d) = rA d /\
  forall T, 0 < T -> is_derive (H7 (rA d)) T (Cp5 c T) /\ is_derive (S7 (rA d)) T (Cp5 c T / T).
Proof. exact convert_back_same. Qed.
Print Assumptions C48_back_and_there.
(** the reference properties stored along with the coefficients are those of the functions exactly
    when the T^-2 coefficient is 0 *)
Theorem C48_reference_refuted : forall d a t, length (rC d) = 5%nat -> 0 < rTr d -> rTr d <> 1 -> convert_C_to_A d = Some (a, t) ->
  (ref_ok a (rC d) t (rTr d) <-> at_ (rC d) 2 = 0).
Proof. exact convert_ref. Qed.
Print Assumptions C48_reference_refuted.
Theorem C48_reference_back_refuted : forall d c t, length (rA d) = 7%nat -> 0 < rTr d -> rTr d <> 1 -> convert_A_to_C d = Some (c, t) ->
  (ref_ok (rA d) c t (rTr d) <-> at_ (rA d) 4 = 0).
Proof. exact convert_back_ref. Qed.
Print Assumptions C48_reference_back_refuted.
Theorem C48_extrapolation_coefficients : forall d ce P T t, (ce = EK2 \/ ce = EK3) -> given (rH d) -> given (rS d) -> given (rCp d) ->
  0 < rTr d -> 0 < T -> logK_fT d ce T P = Some t -> lgK t = lgK7 (calc_A d ce) T.
Proof. exact calc_A_EK. Qed.
Print Assumptions C48_extrapolation_coefficients.
Example C48_example : length (rC rx_cp) = 5%nat /\ 0 < rTr rx_cp /\ rTr rx_cp <> 1 /\ (exists a t, convert_C_to_A rx_cp = Some (a, t)) /\ at_ (rC rx_cp) 2 <> 0 /\
  length (rA rx_lgk) = 7%nat /\ (exists c t, convert_A_to_C rx_lgk = Some (c, t)) /\ at_ (rA rx_lgk) 4 <> 0.
Proof. repeat split; cbn; try lra; eexists _, _; reflexivity. Qed.

(** C58: choosing the Dolejs-Manning method evaluates the Frantz-Marshall model: the coefficients
    given for it have no influence, and without Frantz-Marshall coefficients a vector is read outside its bounds *)
Theorem C58_dolejs_ignored_refuted : (forall dm dm' fm w T P, model_dolejs dm fm w T P = model_dolejs dm' fm w T P) /\
  (forall dm w T P, model_dolejs dm [] w T P = None).
Proof. exact (conj dolejs_ignores_coefficients dolejs_ub). Qed.
Print Assumptions C58_dolejs_ignored_refuted.
