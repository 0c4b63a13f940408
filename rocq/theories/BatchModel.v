(** Model of ThermoFun/Batch/ThermoBatch.cpp and OutputBatch.cpp.  Definitions only.
    Printed files are lists of rows (labels and values); number formatting and the separator are
    left out.  [None] is undefined behaviour (an index outside a vector). *)
From Coq Require Import String List Bool Arith Reals.
Import ListNotations.
Open Scope R_scope.

Definition Reqb (x y : R) : bool := if Req_EM_T x y then true else false.
Fixpoint upd {A : Type} (n : nat) (x : A) (l : list A) : option (list A) :=
  match l, n with
  | [], _ => None
  | _ :: l', O => Some (x :: l')
  | y :: l', S k => match upd k x l' with Some r => Some (y :: r) | None => None end
  end.
Fixpoint traverse {A : Type} (l : list (option A)) : option (list A) :=
  match l with
  | [] => Some []
  | Some x :: l' => match traverse l' with Some r => Some (x :: r) | None => None end
  | None :: _ => None
  end.

(** Impl::tpPairs, Ts, Ps (ThermoBatch.cpp:30-34) *)
Record tps : Type := mkTP { pairs : list (R * R); Ts : list R; Ps : list R }.
Definition noTP : tps := mkTP [] [] [].
Definition add_new (x : R) (l : list R) : list R := if existsb (Reqb x) l then l else (l ++ [x])%list.
(** addTPpair (118-127) *)
Definition addTPpair (t : tps) (p : R * R) : tps :=
  mkTP (pairs t ++ [p])%list (add_new (fst p) (Ts t)) (add_new (snd p) (Ps t)).
(** addTPpairs from a list of pairs (170-177); rows have two entries *)
Definition addPairs (l : list (R * R)) : tps := fold_left addTPpair l noTP.
(** addTPpairs from temperatures and pressures (129-144) *)
Definition gridPairs (tThenP : bool) (ts ps : list R) : list (R * R) :=
  if tThenP then flat_map (fun r => map (fun c => (r, c)) ps) ts
  else flat_map (fun r => map (fun c => (c, r)) ts) ps.
Definition addGrid (tThenP : bool) (ts ps : list R) : tps := addPairs (gridPairs tThenP ts ps).
(** the do-while loops (155-165): [None] when more than [n] rounds are needed *)
Fixpoint rounds (n : nat) (x step max : R) : option (list R) :=
  match n with
  | O => None
  | S k => let y := x + step in
           if Rlt_dec y max then match rounds k y step max with Some l => Some (y :: l) | None => None end
           else Some [y]
  end.
(** the list pushed by the loop that starts from min - step (150-151) *)
Definition increments (n : nat) (min max step : R) : option (list R) := rounds n (min - step) step max.

Section Batch.
Variable V : Type.
(** the engine call made for a cell: pressure written back and the properties by name; which
    names have a value depends on the kind of calculation (selectResults*, 180-245) *)
Variable ask : string -> R -> R -> R * (string -> option V).
(** units::convert of temperature and pressure to and from the default units *)
Variables toT toP fromP : R -> R.

(** selectResultsSubst, -Solvent, -React (180-245): one value per known name, in order *)
Definition select (names : list string) (f : string -> option V) : list V :=
  flat_map (fun n => match f n with Some v => [v] | None => [] end) names.

(** local state of calculate (247-299): the pairs, the results, and the list of engine calls made
    (the list is not in the code; it records the order and the arguments of the calls) *)
Record bst : Type := mkB { bp : list (R * R); br : list (list V); bl : list (string * R * R) }.
(** one pass through the loop body (263-290) *)
Definition cell (tpFirst : bool) (symbols names : list string) (jn j i : nat) (st : bst) : option bst :=
  let '(p, k) := if tpFirst then (j, i) else (i, j) in
  match nth_error (bp st) p, nth_error symbols k with
  | Some (T, P), Some s =>
      let '(P', f) := ask s (toT T) (toP P) in
      match upd (jn * i + j) (select names f) (br st), upd p (T, fromP P') (bp st) with
      | Some r, Some ps => Some (mkB ps r (bl st ++ [(s, toT T, toP P)])%list)
      | _, _ => None
      end
  | _, _ => None
  end.
Definition cells (jn im : nat) : list (nat * nat) := flat_map (fun j => map (fun i => (j, i)) (seq 0 im)) (seq 0 jn).
(** result: the T-P data, the results and the calls *)
Definition calculate (tpFirst : bool) (symbols names : list string) (t : tps) : option (tps * list (list V) * list (string * R * R)) :=
  let jn := if tpFirst then length (pairs t) else length symbols in
  let im := if tpFirst then length symbols else length (pairs t) in
  match fold_left (fun a c => match a with Some st => cell tpFirst symbols names jn (fst c) (snd c) st | None => None end)
          (cells jn im) (Some (mkB (pairs t) (repeat [] (jn * im)) [])) with
  | Some st => Some (addPairs (bp st), br st, bl st)
  | None => None
  end.

(** a printed row: symbol or property, T, P, labelled values *)
Definition row := (string * R * R * list (string * V))%type.
(** foutResults (OutputBatch.cpp:174-230); the k-th value is labelled by the k-th property *)
Definition foutResults (tpFirst : bool) (symbols names : list string) (t : tps) (res : list (list V)) : option (list row) :=
  let jn := if tpFirst then length (pairs t) else length symbols in
  let im := if tpFirst then length symbols else length (pairs t) in
  traverse (flat_map (fun i => map (fun j =>
    let '(p, k) := if tpFirst then (j, i) else (i, j) in
    match nth_error (pairs t) p, nth_error symbols k, nth_error res (jn * i + j) with
    | Some (T, P), Some s, Some vs => if Nat.leb (length vs) (length names) then Some (s, T, P, combine names vs) else None
    | _, _, _ => None
    end) (seq 0 jn)) (seq 0 im)).
(** foutResultsTransposed (232-293): rows by property, one column per symbol *)
Definition foutTransposed (tpFirst : bool) (symbols names : list string) (t : tps) (res : list (list V)) : option (list row) :=
  let np := length (pairs t) in
  let jn := if tpFirst then np else length names in
  let im := if tpFirst then length names else np in
  traverse (flat_map (fun i => map (fun j =>
    let '(p, n) := if tpFirst then (j, i) else (i, j) in
    match nth_error (pairs t) p, nth_error names n,
          traverse (map (fun k => match nth_error res (if tpFirst then np * k + j else length symbols * i + k) with
                                  | Some vs => nth_error vs (if tpFirst then i else j) | None => None end) (seq 0 (length symbols))) with
    | Some (T, P), Some name, Some vs => Some (name, T, P, combine symbols vs)
    | _, _, _ => None
    end) (seq 0 jn)) (seq 0 im)).
(** foutPropertyGrid (295-355) for the property at [idx], loop over T-P pairs first: rows are
    (symbol, row value, values labelled by the column values of the header, 138-172) *)
Definition grow := (string * R * list (R * V))%type.
Fixpoint grid_columns (res : list (list V)) (idx count : nat) (cols : list R) : option (list (R * V)) :=
  match cols with
  | [] => Some []
  | c :: cols' => match nth_error res count with
                  | Some vs => match nth_error vs idx with
                               | Some v => match grid_columns res idx (S count) cols' with Some l => Some ((c, v) :: l) | None => None end
                               | None => None end
                  | None => None end
  end.
Fixpoint grid_rows (res : list (list V)) (idx count : nat) (cells : list (string * R)) (cols : list R) : option (list grow) :=
  match cells with
  | [] => Some []
  | (s, r) :: cells' =>
      if Nat.eqb count (length res) then
        (* break: the remaining rows of this symbol and, at once, of the others are skipped *)
        Some []
      else match grid_columns res idx count cols with
           | Some l => match grid_rows res idx (count + length cols) cells' cols with Some g => Some ((s, r, l) :: g) | None => None end
           | None => None end
  end.
Definition foutGrid (tThenP : bool) (symbols : list string) (t : tps) (res : list (list V)) (idx : nat) : option (list grow) :=
  let rows := if tThenP then Ts t else Ps t in
  let cols := if tThenP then Ps t else Ts t in
  grid_rows res idx 0 (flat_map (fun s => map (fun r => (s, r)) rows) symbols) cols.
End Batch.
