(** Property theorems C32-C35: heat-capacity integration. *)
From Coq Require Import List Reals Lra Lia.
From Coquelicot Require Import Coquelicot.
From Verif Require Import CpModel CpSpec CpProofs CpWit.
Import ListNotations.
Open Scope R_scope.

(** C32: H' = Cp, S' = Cp/T, G' = -S of the reported functions, in the interior of every interval and
    beyond the outer ones, for records without a coefficient of sqrt(T) *)
Theorem C32_consistent_partial : forall d l k T, cp_rec d l -> (forall c, In c (coeffs d) -> a_ c 9 = 0) -> inside l k T -> 0 < T ->
  exists q, locally T (fun t => empCp d t = COk (q t)) /\ cp_consistent q T.
Proof. exact consistent. Qed.
Print Assumptions C32_consistent_partial.
Theorem C32_reference : forall d l p, cp_rec d l -> nth_error l 0 = Some p -> fst p <= cTr d < snd p ->
  exists q, empCp d (cTr d) = COk q /\ pG q = cG d /\ pH q = cH d /\ pS q = cS d.
Proof. exact reference. Qed.
Print Assumptions C32_reference.
(** missing: the coefficient of sqrt(T) (it enters Cp as a constant), and records whose coefficient
    vectors have different lengths (the longer ones shine through in H, S and G) *)
Theorem C32_sqrt_coefficient_refuted : exists d l T, cp_rec d l /\ inside l 0 T /\ 0 < T /\ (exists q, empCp d T = COk q) /\
  ~ exists q, locally T (fun t => empCp d t = COk (q t)) /\ is_derive (fun t : R => pH (q t)) T (pCp (q T)).
Proof. exact sqrt_coefficient. Qed.
Print Assumptions C32_sqrt_coefficient_refuted.
Theorem C32_uneven_vectors_refuted : exists d l T, contiguous l /\ ints d = rows l /\ length (coeffs d) = length l /\ trans_ok l (trans d) /\ inside l 1 T /\ 0 < T /\
  (forall c, In c (coeffs d) -> a_ c 9 = 0) /\ (exists q, empCp d T = COk q) /\
  ~ exists q, locally T (fun t => empCp d t = COk (q t)) /\ is_derive (fun t : R => pH (q t)) T (pCp (q T)).
Proof. exact stale_coefficients. Qed.
Print Assumptions C32_uneven_vectors_refuted.
Example C32_example : cp_rec d3 l3 /\ (forall c, In c (coeffs d3) -> a_ c 9 = 0) /\ inside l3 1 500 /\
  nth_error l3 0 = Some (200, 400) /\ 200 <= cTr d3 < 400.
Proof. split; [exact d3_rec|split; [exact d3_a9|split; [exact d3_inside|split; [reflexivity|cbn; lra]]]]. Qed.

(** C33: every temperature but the upper end of the last interval gets a result, calculated with the
    coefficients of the right interval *)
Theorem C33_reported : forall d l T, cp_rec d l -> l <> [] -> T <> snd (last l (0, 0)) -> exists k q, chosen l k T /\ empCp d T = COk q.
Proof. exact chosen_reported. Qed.
Print Assumptions C33_reported.
Theorem C33_right_interval : forall d l k T c, cp_rec d l -> chosen l k T -> 0 < T -> nth_error (coeffs d) k = Some c -> nth 9 c 0 = 0 ->
  exists q, empCp d T = COk q /\ pCp q = cp_poly c T.
Proof. exact chosen_cp. Qed.
Print Assumptions C33_right_interval.
(** the upper end itself reads Cp_coeff[-1] *)
Theorem C33_upper_end_refuted : forall d l, cp_rec d l -> l <> [] -> empCp d (snd (last l (0, 0))) = CUB.
Proof. exact upper_ub. Qed.
Print Assumptions C33_upper_end_refuted.
Example C33_example : cp_rec d3 l3 /\ chosen l3 2 800 /\ nth_error (coeffs d3) 2 = Some [1; 0; 1; 0; 1; 0; 1; 0; 1; 0] /\ snd (last l3 (0, 0)) = 1600.
Proof. split; [exact d3_rec|]. split; [exists (800, 1600); split; [reflexivity|left; cbn; lra]|]. now split. Qed.

(** C34: G - (H - TS) keeps its reference value over all intervals and transitions *)
Theorem C34_gibbs : forall d l k T, cp_rec d l -> chosen l k T -> 0 < T ->
  exists q, empCp d T = COk q /\ pG q - (pH q - T * pS q) = cG d - (cH d - cTr d * cS d).
Proof. exact gibbs_const. Qed.
Print Assumptions C34_gibbs.
(** at an inner boundary S and H jump by the transition's dS and dH and G is continuous *)
Theorem C34_jumps : forall d l k p p' t, cp_rec d l -> nth_error l k = Some p -> nth_error l (S k) = Some p' -> nth_error (trans d) k = Some t ->
  exists h s g q, filterlim (fun x => pH (val_of (empCp d x))) (at_left (snd p)) (locally h) /\
    filterlim (fun x => pS (val_of (empCp d x))) (at_left (snd p)) (locally s) /\
    filterlim (fun x => pG (val_of (empCp d x))) (at_left (snd p)) (locally g) /\
    empCp d (snd p) = COk q /\ pS q = s + nth 1 t 0 /\ pH q = h + nth 2 t 0 /\ pG q = g.
Proof. exact jump. Qed.
Print Assumptions C34_jumps.
(** without transitions more than one interval is an error; with fewer than inner boundaries a vector
    is read out of range; one listed above its boundary is left out; one without dH breaks the identity *)
Theorem C34_no_transition : forall d l k T, ints d = rows l -> contiguous l -> length (coeffs d) = length l -> trans d = [] -> chosen l (S k) T ->
  empCp d T = CThrow.
Proof. exact no_transition. Qed.
Print Assumptions C34_no_transition.
Theorem C34_transitions_refuted : empCp l3d 900 = CUB /\
  (exists q, empCp du 20 = COk q /\ empCp (mkCp (rows ls) [[1]; [1]] [[11; 0; 0]] 1 0 0 0) 20 = COk q) /\
  (exists d l T q, contiguous l /\ ints d = rows l /\ length (coeffs d) = length l /\ rect (coeffs d) /\ chosen l 1 T /\ 0 < T /\
     empCp d T = COk q /\ pG q - (pH q - T * pS q) <> cG d - (cH d - cTr d * cS d)).
Proof. exact (conj too_few (conj late_transition short_transition)). Qed.
Print Assumptions C34_transitions_refuted.
Example C34_example : cp_rec d3 l3 /\ chosen l3 2 900 /\ nth_error (trans d3) 1 = Some [800; 3; 2400; 1].
Proof. split; [exact d3_rec|]. split; [exists (800, 1600); split; [reflexivity|left; cbn; lra]|reflexivity]. Qed.

(** C35 *)
Theorem C35_consistent : forall Tr G H S Cp T, 0 < Tr -> 0 < T -> cp_consistent (constCp Tr G H S Cp true true) T.
Proof. exact const_consistent. Qed.
Print Assumptions C35_consistent.
Theorem C35_gibbs : forall Tr G H S Cp T, 0 < Tr -> 0 < T ->
  pG (constCp Tr G H S Cp true true T) - (pH (constCp Tr G H S Cp true true T) - T * pS (constCp Tr G H S Cp true true T)) = G - (H - Tr * S).
Proof. exact const_gibbs. Qed.
Print Assumptions C35_gibbs.
Theorem C35_reference : forall Tr G H S Cp b1 b2, 0 < Tr -> let q := constCp Tr G H S Cp b1 b2 Tr in pG q = G /\ pH q = H /\ pS q = S /\ pCp q = Cp.
Proof. exact const_reference. Qed.
Print Assumptions C35_reference.
Example C35_example : 0 < 29815 / 100 /\ pS (constCp (29815 / 100) (-10) (-9) 5 3 true true (29815 / 100)) = 5.
Proof. split; [lra|]. apply (const_reference (29815 / 100) (-10) (-9) 5 3 true true). lra. Qed.
