(** Property theorems C22-C25 and C56: units. *)
From Coq Require Import String Ascii List Bool ZArith QArith Qreals Reals Lra.
From Verif Require Import DatabaseModel EquationModel UnitsModel UnitsSpec UnitsProofs UnitsConv.
Import ListNotations.
Open Scope R_scope.
Notation T := list_ascii_of_string.

(** C22: conversion is the identity for one unit, invertible, composable and linear, for all texts
    that are accepted and are not two temperature units. *)
Theorem C22_same_unit : forall x u, both_temp u u = false -> (exists b, convertible u u = UOk b) -> convert x u u = UOk x.
Proof. exact conv_refl. Qed.
Print Assumptions C22_same_unit.
Theorem C22_and_back : forall x u v y, both_temp u v = false -> convert x u v = UOk y -> convert y v u = UOk x.
Proof. exact conv_round. Qed.
Print Assumptions C22_and_back.
Theorem C22_in_two_steps : forall x u v w y z, both_temp u v = false -> both_temp v w = false ->
  convert x u v = UOk y -> convert y v w = UOk z -> convert x u w = UOk z.
Proof. exact conv_trans. Qed.
Print Assumptions C22_in_two_steps.
Theorem C22_linear : forall a b x y u v x' y', both_temp u v = false -> convert x u v = UOk x' -> convert y u v = UOk y' ->
  convert (a * x + b * y) u v = UOk (a * x' + b * y').
Proof. exact conv_linear. Qed.
Print Assumptions C22_linear.
Example C22_example : exists y z, convert 3 (T "kcal/(mol*K)") (T "J/K/mol") = UOk y /\ convert y (T "J/K/mol") (T "bar*cm3/(K*mol)") = UOk z /\
  both_temp (T "kcal/(mol*K)") (T "J/K/mol") = false.
Proof.
  assert (A : forall x, exists y, convert x (T "kcal/(mol*K)") (T "J/K/mol") = UOk y) by (intros x; apply (refuse_iff x); vm_compute; reflexivity).
  assert (B : forall x, exists y, convert x (T "J/K/mol") (T "bar*cm3/(K*mol)") = UOk y) by (intros x; apply (refuse_iff x); vm_compute; reflexivity).
  destruct (A 3) as [y Hy]. destruct (B y) as [z Hz]. exists y, z. repeat split; assumption.
Qed.

(** C23: between any two of the eight temperature units the conversion always succeeds, keeps
    the temperature (in kelvin) and is undone by the conversion back. *)
Theorem C23_same_temperature : forall x u v, both_temp u v = true ->
  exists y, convert x u v = UOk y /\ kelvins y (str v) = kelvins x (str u).
Proof. exact temp_same. Qed.
Print Assumptions C23_same_temperature.
Theorem C23_and_back : forall x u v y, both_temp u v = true -> convert x u v = UOk y -> convert y v u = UOk x.
Proof. exact temp_round. Qed.
Print Assumptions C23_and_back.
Example C23_example : both_temp (T "degF") (T "rankine") = true /\ both_temp (T "celsius") (T "K") = true.
Proof. split; reflexivity. Qed.

(** C24: convert succeeds exactly when convertible says so; convertible is symmetric, and
    transitive as long as the temperature rule is used in both steps or in none. *)
Theorem C24_refused_iff : forall x u v, (convertible u v = UOk true <-> exists y, convert x u v = UOk y) /\
  (convertible u v = UOk false -> convert x u v = UThrow) /\
  (convertible u v = UThrow -> convert x u v = UThrow) /\ (convertible u v = UUB -> convert x u v = UUB).
Proof. exact refuse_iff. Qed.
Print Assumptions C24_refused_iff.
Theorem C24_symmetric : forall u v, convertible u v = UOk true -> convertible v u = UOk true.
Proof. exact convertible_sym. Qed.
Print Assumptions C24_symmetric.
Theorem C24_transitive_partial : forall u v w, both_temp u v = both_temp v w ->
  convertible u v = UOk true -> convertible v w = UOk true -> convertible u w = UOk true.
Proof. exact convertible_trans. Qed.
Print Assumptions C24_transitive_partial.
(** For all expressions over the named units except the listed odd ones, convertible holds
    exactly when the physical dimensions agree. *)
Theorem C24_physical_partial : forall e e', ux_ok e -> ux_ok e' -> both_temp (ux_text e) (ux_text e') = false ->
  (forall s, In s (atoms e) -> known s /\ ~ In s odd_names) -> (forall s, In s (atoms e') -> known s /\ ~ In s odd_names) ->
  exists b, convertible (ux_text e) (ux_text e') = UOk b /\ (b = true <-> forall k, uexpo physical2 e k = uexpo physical2 e' k).
Proof. exact physical_iff. Qed.
Print Assumptions C24_physical_partial.
Example C24_example : let e := UDiv (UA (T "kJ")) (UPar (UMul (UA (T "mol")) (UA (T "K")))) in let e' := UDiv (UDiv (UMul (UA (T "bar")) (UA (T "cm^3"))) (UA (T "K"))) (UA (T "mol")) in
  ux_ok e /\ ux_ok e' /\ ux_text e = T "kJ/(mol*K)" /\ ux_text e' = T "bar*cm^3/K/mol" /\
  forallb (fun s => mem s names && negb (mem s odd_names)) (atoms e ++ atoms e') = true /\ convertible (ux_text e) (ux_text e') = UOk true.
Proof.
  assert (P : forall s, forallb plain s = true -> forall c, In c s -> plain c = true) by (intros s H; now apply forallb_forall).
  cbn [ux_ok primary]. repeat split; try discriminate; try (apply P; reflexivity).
Qed.
(** The general statement is false: *)
Theorem C24_transitive_refuted : convertible (T "degC") (T "K") = UOk true /\ convertible (T "K") (T "K^2/K") = UOk true /\
  convertible (T "degC") (T "K^2/K") = UOk false.
Proof. repeat split; vm_compute; reflexivity. Qed.
Print Assumptions C24_transitive_refuted.
(** different dimensions accepted: powers of bar are powers of kelvin, half powers are dropped, a
    tesla is a weber times a square metre; *)
Theorem C24_wrong_units_accepted_refuted : convertible (T "bar^2") (T "K^2") = UOk true /\ convertible (T "K^0.5") (T "m/m") = UOk true /\
  convertible (T "K^1.5") (T "K") = UOk true /\ convertible (T "T") (T "Wb*m2") = UOk true.
Proof. repeat split; vm_compute; reflexivity. Qed.
Print Assumptions C24_wrong_units_accepted_refuted.
(** equal dimensions refused. *)
Theorem C24_right_units_refused_refuted : convertible (T "bar^2") (T "bar*bar") = UOk false /\ convertible (T "J/kelvin") (T "J/K") = UOk false /\
  convertible (T "percent") (T "m/m") = UOk false /\ convertible (T "T") (T "Wb/m2") = UOk false /\ convertible (T "1") (T "ppm*ppm") = UOk false.
Proof. repeat split; vm_compute; reflexivity. Qed.
Print Assumptions C24_right_units_refused_refuted.

(** C25: the text of any unit expression is parsed to its atoms with the signs the usual
    precedence gives, and its factor is that of the expression. *)
Theorem C25_parsed : forall e, ux_ok e -> parseUnit (ux_text e) = UOk (signed e 1).
Proof. exact parse_ux. Qed.
Print Assumptions C25_parsed.
Theorem C25_value : forall x e e' y, ux_ok e -> ux_ok e' -> both_temp (ux_text e) (ux_text e') = false ->
  convert x (ux_text e) (ux_text e') = UOk y -> y = x * uvalue fac e / uvalue fac e'.
Proof. exact conv_ux. Qed.
Print Assumptions C25_value.
(** Texts outside this grammar: a text is cut off before a parenthesis without operator, and the empty text,
    empty parentheses and a leading operator are undefined behaviour. *)
Theorem C25_juxtaposition_refuted : forall x, convert x (T "m(s)") (T "m") = convert x (T "m") (T "m").
Proof. intros x. reflexivity. Qed.
Print Assumptions C25_juxtaposition_refuted.
Theorem C25_undefined_refuted : forall x v,
  convert x (T "") v = UUB /\ convert x (T "()") v = UUB /\ convert x (T "/s") v = UUB.
Proof. intros x v. repeat split; reflexivity. Qed.
Print Assumptions C25_undefined_refuted.

(** C56: the named units with exact definitions convert by the ratio of these definitions. *)
Theorem C56_exact_values : forall s q s' q' x y, In (s, q) exact_values -> In (s', q') exact_values ->
  convert x (T s) (T s') = UOk y -> y = x * Q2R q / Q2R q'.
Proof. exact exact_convert. Qed.
Print Assumptions C56_exact_values.
Example C56_example : In ("cal"%string, (4184 # 1)%Q) exact_values /\ In ("J"%string, (1000 # 1)%Q) exact_values /\ exists y, convert 1 (T "cal") (T "J") = UOk y.
Proof. split; [cbn; auto 60|]. split; [cbn; auto 60|]. apply (refuse_iff 1). vm_compute. reflexivity. Qed.
