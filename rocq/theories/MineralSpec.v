(** What consistency of the properties of a substance means, independent of the models. *)
From Coq Require Import Reals.
From Coquelicot Require Import Coquelicot.
From Verif Require Import MineralModel.
Open Scope R_scope.

(** properties as functions of temperature (K) and pressure (bar): entropy and volume are the
    derivatives of the Gibbs energy, H = G + T S, and the heat capacity is that of the entropy *)
Definition cons_S (f : R -> R -> mprop) (T P : R) : Prop := is_derive (fun t => mG (f t P)) T (- mS (f T P)).
Definition cons_V (f : R -> R -> mprop) (T P : R) : Prop := is_derive (fun p => mG (f T p)) P (mV (f T P)).
Definition cons_H (f : R -> R -> mprop) (T P : R) : Prop := mH (f T P) = mG (f T P) + T * mS (f T P).
Definition cons_C (f : R -> R -> mprop) (T P : R) : Prop := is_derive (fun t => mS (f t P)) T (mCp (f T P) / T).
Definition cons_U (f : R -> R -> mprop) (T P : R) : Prop :=
  mU (f T P) = mH (f T P) - P * mV (f T P) /\ mA (f T P) = mU (f T P) - T * mS (f T P).
(** without internal and Helmholtz energy, which a pressure model sets anew *)
Definition consistent (f : R -> R -> mprop) (T P : R) : Prop := cons_S f T P /\ cons_V f T P /\ cons_H f T P /\ cons_C f T P.
