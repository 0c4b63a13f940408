(** Property theorems: the derivatives that results of reactions carry (C86). *)
From Coq Require Import List Bool Reals Lra String.
Import ListNotations.
From Coquelicot Require Import Coquelicot.
From Verif Require Import RDeriv ThermoScalarModel CarryModel CarrySpec CarryPf ReacModel ReacSpec ReacProofs CarryReac CarryReacSpec CarryReacPf CarryDens.
Open Scope R_scope.

(** Whatever the method, the data missing and the coefficients given, log K, ln K, G, H, S, Cp and V carry the derivatives of the reported values; U and A too where the enthalpy is not 0 (only then are they set).
    With the seven-term method logK coefficients are asked for; see below for the other case. *)
Theorem C86_logK : forall e d T P, reads_reaction e d -> 0 < T -> forall ce o, 0 < rTr d -> (ce = LGK \/ ce = LGX -> rA d <> []) -> logK_fT d ce T (P / 100000) = Some o ->
  exists r, logKTS e ce T P = Some r /\ carriesR7 r (fun t p => logK_fT d ce t (p / 100000)) T P /\ (dH o <> 0 -> carriesR r (fun t p => logK_fT d ce t (p / 100000)) T P).
Proof. exact logK_carries. Qed.
Print Assumptions C86_logK.
(** With heat capacity coefficients only: the logK coefficients are calculated at the temperature asked for and then taken as numbers.  The reported H and S do not change with temperature (C36), the derivatives
    they carry are Cp and Cp/T; log K carries the right one. *)
Theorem C86_Cp_coefficients_refuted : forall e d ce T P, reads_reaction e d -> ce = LGK \/ ce = LGX -> rA d = [] -> rC d <> [] -> def (rH d) = true -> def (rS d) = true -> 0 < T ->
  exists r, logKTS e ce T P = Some r /\
  ddt (oH r) = Cp5 (resize 5 (rC d)) T /\ is_derive (fun t : R => reported dH (logK_fT d ce t (P / 100000))) T 0 /\
  T * ddt (oS r) = Cp5 (resize 5 (rC d)) T /\ is_derive (fun t : R => reported dS (logK_fT d ce t (P / 100000))) T 0 /\
  carries (oK r) (fun t p => reported lgK (logK_fT d ce t (p / 100000))) T P.
Proof. exact fromCp_carried. Qed.
Print Assumptions C86_Cp_coefficients_refuted.
(** the density models, given a water that carries its derivatives *)
Theorem C86_frantz : forall w W T P, carriesW w W T P -> 0 < T -> 0 < rho (W T P) -> forall co o, frantz co (W T P) T (P / 100000) = Some o ->
  exists r, frantzTS w T P co = Some r /\ carriesR r (fun t p => frantz co (W t p) t (p / 100000)) T P.
Proof. exact frantz_carries. Qed.
Print Assumptions C86_frantz.
Theorem C86_ryzhenko : forall w W T P, carriesW w W T P -> 0 < T -> 0 < rho (W T P) -> forall co o, ryzhenko co (W T P) T (P / 100000) = Some o ->
  exists r, ryzhenkoTS w T P co = Some r /\ carriesR r (fun t p => ryzhenko co (W t p) t (p / 100000)) T P.
Proof. exact ryzhenko_carries. Qed.
Print Assumptions C86_ryzhenko.
Theorem C86_dolejs : forall w W T P, carriesW w W T P -> 0 < T -> 0 < rho (W T P) -> forall co o, dolejs co (W T P) T (P / 100000) = Some o ->
  exists r, dolejsTS w T P co = Some r /\ carriesR r (fun t p => dolejs co (W t p) t (p / 100000)) T P.
Proof. exact dolejs_carries. Qed.
Print Assumptions C86_dolejs.
(** Where the reported values belong to one Gibbs energy (C36, C37), the numbers in one result do: dG/dT = -S, dH/dT = Cp, T dS/dT = Cp, d lnK/dT = H/(R T^2). *)
Theorem C86_relations : forall r (q : R -> tpr) (o : R -> R -> option tpr) T P, (forall t, 0 < t -> o t P = Some (q t)) -> carriesR7 r o T P -> 0 < T -> consistent_T q T -> equilibrium lg_to_ln q T ->
  ddt (oG r) = - val (oS r) /\ ddt (oH r) = val (oCp r) /\ T * ddt (oS r) = val (oCp r) /\ ddt (oLn r) = val (oH r) / (Rgas * T ^ 2) /\ val (oG r) = val (oH r) - T * val (oS r).
Proof. exact reaction_relations. Qed.
Print Assumptions C86_relations.
Example C86_relations_example : let x (r : R) := mkTS r 0 0 0 (read, EmptyString) in let u := ts_default in
  let e := mkRts u (x 1000) (x 5) (x 7) (x 2) u 300 [] [] in
  exists r, logKTS e EK3 400 100000 = Some r /\ ddt (oG r) = - val (oS r) /\ ddt (oH r) = 7 /\ 400 * ddt (oS r) = 7 /\ ddt (oLn r) = 1700 / (Rgas * 400 ^ 2).
Proof.
  cbv zeta. set (d := mkR (mkSc 0 false) (mkSc 1000 true) (mkSc 5 true) (mkSc 7 true) (mkSc 2 true) (mkSc 0 false) 300 1 [] []). set (e := mkRts _ _ _ _ _ _ _ _ _).
  assert (HR : reads_reaction e d) by (unfold reads_reaction, reads, read_value, e, d; cbn [xG xH xS xCp xV xK xTr xA xC rG rH rS rCp rV rlgK rTr rA rC v def val ddt ddp ts_default ts_of_double ctor5]; repeat split).
  destruct (logK_EK3 d (100000 / 100000) eq_refl eq_refl eq_refl ltac:(cbn; lra)) as [q [E K]].
  destruct (C86_logK e d 400 100000 HR ltac:(lra) EK3 (q 400) ltac:(cbn; lra) ltac:(intros [Z|Z]; discriminate) (E 400 ltac:(lra))) as [r [E1 [C _]]].
  exists r. split; [exact E1|].
  destruct (K 400 ltac:(lra)) as [K1 K2].
  destruct (C86_relations r q _ 400 100000 E C ltac:(lra) K1 K2) as [R1 [R2 [R3 [R4 _]]]].
  split; [exact R1|].
  unfold logKTS, HTS, STS, isdef, e in E1. cbn in E1. inversion E1. subst r. cbn in R2, R3, R4 |- *. rewrite R2, R3, R4. split; [reflexivity|]. split; [reflexivity|]. f_equal. ring.
Qed.
Example C86_water_example : let w := mkWts (TK 500) (ts_assign 1) (ts_assign 2) (ts_assign 0) in carriesW w (fun t p => mkW t 1 2 0) 500 100000 /\ exists o, ryzhenko [1; 1; 0] (mkW 500 1 2 0) 500 (100000 / 100000) = Some o.
Proof. cbv zeta. split; [|eexists; reflexivity]. split; [apply c_T|]. split; [apply c_assign|]. split; apply c_assign. Qed.
Example C86_Cp_example : let x (r : R) := mkTS r 0 0 0 (read, EmptyString) in let u := ts_default in let e := mkRts u (x 1000) (x 5) u u u 300 [] (7 :: nil) in
  exists r, logKTS e LGK 400 100000 = Some r /\ ddt (oH r) = 7 /\ val (oH r) = 1000.
Proof.
  cbv zeta. set (d := mkR (mkSc 0 false) (mkSc 1000 true) (mkSc 5 true) (mkSc 0 false) (mkSc 0 false) (mkSc 0 false) 300 1 [] (7 :: nil)). set (e := mkRts _ _ _ _ _ _ _ _ _).
  assert (HR : reads_reaction e d) by (unfold reads_reaction, reads, read_value, e, d; cbn [xG xH xS xCp xV xK xTr xA xC rG rH rS rCp rV rlgK rTr rA rC v def val ddt ddp ts_default ts_of_double ctor5]; repeat split).
  destruct (C86_Cp_coefficients_refuted e d LGK 400 100000 HR (or_introl eq_refl) eq_refl ltac:(discriminate) eq_refl eq_refl ltac:(lra)) as [r [E1 [E2 _]]]. exists r. split; [exact E1|].
  split; [rewrite E2; unfold Cp5, resize, d, at_; cbn [rC app repeat firstn nth]; pose proof (sqrt_lt_R0 400 ltac:(lra)); field; lra|].
  rewrite (fromCp_TS e d LGK 400 100000 HR (or_introl eq_refl) eq_refl ltac:(discriminate) eq_refl eq_refl ltac:(lra)) in E1. inversion E1. subst r. cbn [finTS oH].
  rewrite (proj1 (c_H7 400 100000 ltac:(lra) _)). apply (ReacConv.A_of_C_ref (resize 5 (rC d)) (v (rS d)) (v (rH d)) 400). lra.
Qed.
