(** Vocabulary: a result for a reaction carries the derivatives of the values reported for it. *)
From Coq Require Import List Bool Reals.
Import ListNotations.
From Verif Require Import ThermoScalarModel CarryModel CarrySpec ReacModel CarryReac.
Open Scope R_scope.
(** the data of a reaction as read: values without derivatives, the same ones defined *)
Definition reads (x : TS) (s : sc) : Prop := read_value x (v s) /\ isdef x = def s.
Definition reads_reaction (e : rts) (d : rdata) : Prop :=
  reads (xG e) (rG d) /\ reads (xH e) (rH d) /\ reads (xS e) (rS d) /\ reads (xCp e) (rCp d) /\ reads (xV e) (rV d) /\ reads (xK e) (rlgK d) /\
  xTr e = rTr d /\ xA e = rA d /\ xC e = rC d.
Definition reported (f : tpr -> R) (o : option tpr) : R := match o with Some t => f t | None => 0 end.
(** without U and A *)
Definition carriesR7 (r : rprop) (q : R -> R -> option tpr) (T P : R) : Prop :=
  carries (oK r) (fun t p => reported lgK (q t p)) T P /\ carries (oLn r) (fun t p => reported lnK (q t p)) T P /\ carries (oG r) (fun t p => reported dG (q t p)) T P /\
  carries (oH r) (fun t p => reported dH (q t p)) T P /\ carries (oS r) (fun t p => reported dS (q t p)) T P /\ carries (oCp r) (fun t p => reported dCp (q t p)) T P /\
  carries (oV r) (fun t p => reported dV (q t p)) T P.
Definition carriesR (r : rprop) (q : R -> R -> option tpr) (T P : R) : Prop :=
  carriesR7 r q T P /\ carries (oA r) (fun t p => reported dA (q t p)) T P /\ carries (oU r) (fun t p => reported dU (q t p)) T P.
(** the water handed over carries the derivatives of W *)
Definition carriesW (w : wts) (W : R -> R -> water) (T P : R) : Prop :=
  carries (w_rho w) (fun t p => rho (W t p)) T P /\ carries (w_alp w) (fun t p => alp (W t p)) T P /\
  carries (w_bet w) (fun t p => bet (W t p)) T P /\ carries (w_dal w) (fun t p => dal (W t p)) T P.
