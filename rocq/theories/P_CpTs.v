(** Property theorems C59: derivatives carried by the results of the heat-capacity integrations. *)
From Coq Require Import List Reals Lra Lia.
From Coquelicot Require Import Coquelicot.
From Verif Require Import ThermoScalarModel CpModel CpSpec CpProofs CpWit CpTsModel CpTsProofs.
Import ListNotations.
Open Scope R_scope.

(** C59: the values are those of C32-C34, and in the first interval the temperature derivatives carried
    by H, S and G are those of the reported functions *)
Theorem C59_first_interval_partial : forall d l T s, cp_rec d l -> inside l 0 T -> 0 < T -> ref_ts d s ->
  let '(S', G', H') := passes_ts (passes_of d l 0 T) s in
  is_derive (fun t : R => pH (val_of (empCp d t))) T (ddt H') /\ is_derive (fun t : R => pS (val_of (empCp d t))) T (ddt S') /\
  is_derive (fun t : R => pG (val_of (empCp d t))) T (ddt G').
Proof. exact carried_first. Qed.
Print Assumptions C59_first_interval_partial.
(** in later intervals the heat capacities at the ends of the earlier ones are added to dH/dT *)
Theorem C59_values_and_enthalpy : forall d l k T s, cp_rec d l -> chosen l k T -> 0 < T -> ref_ts d s ->
  let '(S', G', H') := passes_ts (passes_of d l k T) s in
  exists q, empCp d T = COk q /\ val S' = pS q /\ val G' = pG q /\ val H' = pH q /\ ddt H' = cp_poly (nth k (coeffs d) []) T + earlier d l k /\
    (k = 0%nat -> ddt S' = cp_poly (nth k (coeffs d) []) T / T /\ ddt G' = - pS q).
Proof. exact carried. Qed.
Print Assumptions C59_values_and_enthalpy.
Theorem C59_later_intervals_refuted : forall d l k T s, cp_rec d l -> inside l k T -> 0 < T -> ref_ts d s -> earlier d l k <> 0 ->
  let '(_, _, H') := passes_ts (passes_of d l k T) s in ~ is_derive (fun t : R => pH (val_of (empCp d t))) T (ddt H').
Proof. exact carried_later. Qed.
Print Assumptions C59_later_intervals_refuted.
(** with a constant heat capacity the enthalpy carries the derivative 0, whatever Cp is, and so on:
    the reference temperature counts as a variable *)
Theorem C59_constant_refuted : forall Tr vG vH vS vCp T, 0 < Tr -> 0 < T -> ddt vG = 0 -> ddt vH = 0 -> ddt vS = 0 -> ddt vCp = 0 ->
  let '(S', G', H') := constCp_ts Tr vG vH vS vCp T in
  let q := constCp Tr (val vG) (val vH) (val vS) (val vCp) true true T in
  val S' = pS q /\ val G' = pG q /\ val H' = pH q /\ ddt H' = 0 /\ ddt S' = val vCp * (1 / T - 1 / Tr) /\
  ddt G' = - (val vCp * (ln (T / Tr) + 1 - T / Tr)).
Proof. exact const_carried. Qed.
Print Assumptions C59_constant_refuted.
Example C59_example : cp_rec d3 l3 /\ inside l3 0 300 /\ inside l3 1 500 /\ earlier d3 l3 1 <> 0 /\ ref_ts d3 (ts_assign 50, ts_assign (-100), ts_assign (-90)).
Proof.
  split; [exact d3_rec|]. split; [exists (200, 400); split; [reflexivity|left; cbn; lra]|]. split; [exact d3_inside|].
  split; [|repeat split; reflexivity]. unfold earlier, cp_poly. cbn [seq map fold_right nth coeffs d3 l3 snd].
  pose proof (sqrt_lt_R0 400 ltac:(lra)) as Hs. pose proof (Rdiv_lt_0_compat 4 (sqrt 400) ltac:(lra) Hs).
  replace (3 / 400 ^ 2) with (3 / 160000) by field. replace (8 / 400 ^ 3) with (8 / 64000000) by field. lra.
Qed.
