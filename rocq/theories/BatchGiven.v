(** Model of the batch calls that are handed ready results.  Definitions only. *)
From Coq Require Import String List Bool Arith Reals.
From Verif Require Import BatchModel.
Import ListNotations.
Open Scope R_scope.

Section G.
Variable V : Type.
Variable ask : string -> R -> R -> R * (string -> option V).
Variables toT toP fromP : R -> R.
(** a ThermoPropertiesSubstance or -Reaction handed in: the properties by name *)
Definition record : Type := string -> option V.
(** selectProvidedSubstancesProperties, selectProvidedReactionsProperties (ThermoBatch.cpp:301-317) *)
Definition selectProvided (names : list string) (given : list record) : list (list V) := map (select V names) given.
(** thermoPropertiesSubstance with pairs, symbols, properties and records (ThermoBatch.cpp:400-412; reactions 488-500, from temperatures and pressures 381-393, 469-481):
    an empty vector of records means that the engine is asked *)
Definition batchGiven (tpFirst : bool) (symbols names : list string) (ps : list (R * R)) (given : list record) : option (tps * list (list V)) :=
  let t := addPairs ps in
  match given with
  | [] => match calculate V ask toT toP fromP tpFirst symbols names t with Some (t', r, _) => Some (t', r) | None => None end
  | _ => Some (t, selectProvided names given)
  end.
(** the printed table of such a call *)
Definition tableGiven (tpFirst : bool) (symbols names : list string) (ps : list (R * R)) (given : list record) : option (list (row V)) :=
  match batchGiven tpFirst symbols names ps given with Some (t, r) => foutResults V tpFirst symbols names t r | None => None end.
End G.
