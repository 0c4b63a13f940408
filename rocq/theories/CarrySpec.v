(** Vocabulary: a ThermoScalar carries a function of T and P when it has its value and its two derivatives. *)
From Coq Require Import Reals.
From Coquelicot Require Import Coquelicot.
From Verif Require Import ThermoScalarModel MineralModel CarryModel.
Open Scope R_scope.
Definition carries (x : TS) (f : R -> R -> R) (T P : R) : Prop :=
  val x = f T P /\ is_derive (fun t : R => f t P) T (ddt x) /\ is_derive (fun p : R => f T p) P (ddp x).
(** each property of a record; U and A are left out where a function sets them anew *)
Definition carries5 (t : tprop) (f : R -> R -> mprop) (T P : R) : Prop :=
  carries (tG t) (fun t p => mG (f t p)) T P /\ carries (tH t) (fun t p => mH (f t p)) T P /\ carries (tS t) (fun t p => mS (f t p)) T P /\
  carries (tV t) (fun t p => mV (f t p)) T P /\ carries (tC t) (fun t p => mCp (f t p)) T P.
Definition carries7 (t : tprop) (f : R -> R -> mprop) (T P : R) : Prop :=
  carries5 t f T P /\ carries (tU t) (fun t p => mU (f t p)) T P /\ carries (tA t) (fun t p => mA (f t p)) T P.
(** the volume as read from a database record *)
Definition read_value (x : TS) (v : R) : Prop := val x = v /\ ddt x = 0 /\ ddp x = 0.
