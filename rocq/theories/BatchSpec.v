(** Vocabulary of the statements about batch calculations: what a printed row claims. *)
From Coq Require Import String List Reals.
From Verif Require Import BatchModel.
Import ListNotations.
Open Scope R_scope.

Section S.
Variable V : Type.
(** the engine: pressure it settles on and the properties by name *)
Variable ask : string -> R -> R -> R * (string -> option V).
Variables toT toP fromP : R -> R.
(** [v] is the property [n] of [s] at the temperature and pressure [T], [P] (output units) *)
Definition is_value (s : string) (T P : R) (n : string) (v : V) : Prop := snd (ask s (toT T) (toP P)) n = Some v.
(** every requested name belongs to this kind of calculation *)
Definition known (symbols names : list string) (ps : list (R * R)) : Prop :=
  forall s T P n, In s symbols -> In (T, P) ps -> In n names -> exists v, is_value s T P n v.
(** the engine does not change the pressure *)
Definition quiet (symbols : list string) (ps : list (R * R)) : Prop :=
  forall s T P, In s symbols -> In (T, P) ps -> fromP (fst (ask s (toT T) (toP P))) = P.
(** all symbols settle on the same pressure, where they have the same properties *)
Definition settles (w : R -> R -> R) (symbols names : list string) (ps : list (R * R)) : Prop :=
  forall s T P, In s symbols -> In (T, P) ps ->
    fromP (fst (ask s (toT T) (toP P))) = w T P /\ fromP (fst (ask s (toT T) (toP (w T P)))) = w T P /\
    forall n, In n names -> snd (ask s (toT T) (toP (w T P))) n = snd (ask s (toT T) (toP P)) n.
(** a printed row is right: labels in the order asked for, each with its value *)
Definition row_right (names : list string) (r : row V) : Prop :=
  let '(s, T, P, vals) := r in map fst vals = names /\ Forall (fun nv => is_value s T P (fst nv) (snd nv)) vals.
Definition trow_right (symbols : list string) (r : row V) : Prop :=
  let '(n, T, P, vals) := r in map fst vals = symbols /\ Forall (fun sv => is_value (fst sv) T P n (snd sv)) vals.
Definition key (r : row V) : string * R * R := let '(s, T, P, _) := r in (s, T, P).
(** the combinations a table must have, in the order of the rows *)
Definition outer_first (xs : list string) (ps : list (R * R)) : list (string * R * R) :=
  flat_map (fun x => map (fun p => (x, fst p, snd p)) ps) xs.
Definition pairs_outer (xs : list string) (ps : list (R * R)) : list (string * R * R) :=
  flat_map (fun p => map (fun x => (x, fst p, snd p)) xs) ps.
Definition gkey (g : grow V) : string * R := let '(s, r, _) := g in (s, r).
Definition grow_right (tThenP : bool) (cols : list R) (n : string) (g : grow V) : Prop :=
  let '(s, r, vals) := g in map fst vals = cols /\
    Forall (fun cv => is_value s (if tThenP then r else fst cv) (if tThenP then fst cv else r) n (snd cv)) vals.
End S.
