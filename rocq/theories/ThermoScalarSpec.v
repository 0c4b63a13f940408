(** Specification vocabulary for ThermoScalar formulas: the mathematical function a
    formula denotes, its domain, and its leaves.  Nothing here mentions the operators of
    ThermoScalarModel except the libc power function [cpow]. *)
From Coq Require Import Reals String List.
From Coquelicot Require Import Coquelicot.
From Verif Require Import ThermoScalarModel.
Open Scope R_scope.

(** The function of (T,P) a formula stands for. *)
Fixpoint den (e : texpr) (t p : R) : R :=
  match e with
  | XT => t
  | XP => p
  | XAssign c => c
  | XExt f _ _ _ _ => f t p
  | XNeg a => - den a t p
  | XAdd a b => den a t p + den b t p
  | XSub a b => den a t p - den b t p
  | XMul a b => den a t p * den b t p
  | XDiv a b => den a t p / den b t p
  | XDAdd c a => c + den a t p
  | XAddD a c => den a t p + c
  | XDSub c a => c - den a t p
  | XSubD a c => den a t p - c
  | XDMul c a => c * den a t p
  | XMulD a c => den a t p * c
  | XDDiv c a => c / den a t p
  | XDivD a c => den a t p / c
  | XSqrt a => sqrt (den a t p)
  | XPowD a c => cpow (den a t p) c
  | XPow a b => exp (den b t p * ln (den a t p))
  | XExp a => exp (den a t p)
  | XLog a => ln (den a t p)
  | XLog10 a => ln (den a t p) / ln10_literal
  end.

(** Admissible bases of x^c: positive; non-zero with an integer exponent; zero with a
    natural exponent other than 1 (at 0 the code reports a zero derivative). *)
Definition pow_ok (x c : R) : Prop :=
  0 < x \/ (x <> 0 /\ exists z : Z, c = IZR z) \/ (x = 0 /\ exists n : nat, n <> 1%nat /\ c = INR n).

(** (t,p) is in the domain of every operation of the formula. *)
Fixpoint dom (e : texpr) (t p : R) : Prop :=
  match e with
  | XT | XP | XAssign _ => True
  | XExt f ft fp _ _ =>
      is_derive (fun t => f t p) t (ft t p) /\ is_derive (fun p => f t p) p (fp t p)
  | XNeg a | XExp a | XDAdd _ a | XAddD a _ | XDSub _ a | XSubD a _
  | XDMul _ a | XMulD a _ => dom a t p
  | XAdd a b | XSub a b | XMul a b => dom a t p /\ dom b t p
  | XDiv a b => dom a t p /\ dom b t p /\ den b t p <> 0
  | XDDiv _ a => dom a t p /\ den a t p <> 0
  | XDivD a c => dom a t p /\ c <> 0
  | XSqrt a | XLog a | XLog10 a => dom a t p /\ 0 < den a t p
  | XPowD a c => dom a t p /\ pow_ok (den a t p) c
  | XPow a b => dom a t p /\ dom b t p /\ 0 < den a t p
  end.

(** Status of the leaves of a formula. *)
Fixpoint leaf_status (e : texpr) : list Status :=
  match e with
  | XT | XP | XAssign _ => assigned :: nil
  | XExt _ _ _ _ s => fst s :: nil
  | XNeg a | XDAdd _ a | XAddD a _ | XDSub _ a | XSubD a _ | XDMul _ a | XMulD a _
  | XDDiv _ a | XDivD a _ | XSqrt a | XPowD a _ | XExp a | XLog a | XLog10 a => leaf_status a
  | XAdd a b | XSub a b | XMul a b | XDiv a b | XPow a b => leaf_status a ++ leaf_status b
  end.

Definition is_leaf (e : texpr) : bool :=
  match e with XT | XP | XAssign _ | XExt _ _ _ _ _ => true | _ => false end.

(** Textbook first-order propagation of independent errors. *)
Definition prop1 (fx dx : R) : R := Rabs (fx * dx).
Definition prop2 (fx dx fy dy : R) : R := sqrt ((fx * dx) * (fx * dx) + (fy * dy) * (fy * dy)).
