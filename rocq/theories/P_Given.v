(** C84: batches handed ready results. *)
From Coq Require Import String List Bool Arith Reals.
From Verif Require Import BatchModel BatchSpec BatchGiven BatchGivenPf BatchGivenWit.
Import ListNotations.
Open Scope nat_scope.

(** As many records as rows: the c-th row is labelled with the c-th combination and has the values of the c-th record. *)
Theorem C84_rows : forall V ask toT toP fromP b ss names ps given, given <> [] -> length given = length ss * length ps -> Forall (fun r => forall n, In n names -> r n <> None) given ->
  exists rows, tableGiven V ask toT toP fromP b ss names ps given = Some rows /\ map (key V) rows = (if b then outer_first ss ps else pairs_outer ss ps) /\
  (forall c s T P vals r, nth_error rows c = Some (s, T, P, vals) -> nth_error given c = Some r -> map fst vals = names /\ Forall (fun nv => r (fst nv) = Some (snd nv)) vals).
Proof. exact given_rows. Qed.
Print Assumptions C84_rows.
(** Records listed in the order of the loops of the settings: each row has the values of its own symbol, temperature and pressure. *)
Theorem C84_order_partial : forall V ask toT toP fromP (g : string -> R -> R -> record V) b ss names ps, ss <> [] -> ps <> [] ->
  (forall s T P n, In s ss -> In (T, P) ps -> In n names -> g s T P n <> None) ->
  exists rows, tableGiven V ask toT toP fromP b ss names ps (map (fun k => g (fst (fst k)) (snd (fst k)) (snd k)) (if b then outer_first ss ps else pairs_outer ss ps)) = Some rows /\
  map (key V) rows = (if b then outer_first ss ps else pairs_outer ss ps) /\
  Forall (fun r : row V => let '(s, T, P, vals) := r in map fst vals = names /\ Forall (fun nv => g s T P (fst nv) = Some (snd nv)) vals) rows.
Proof. exact given_right. Qed.
Print Assumptions C84_order_partial.
Example C84_order_example : outer_first ["a"; "b"]%string [(300, 1); (400, 2)]%R = [("a", 300, 1); ("a", 400, 2); ("b", 300, 1); ("b", 400, 2)]%R%string /\
  exists rows, tableGiven R (fun _ _ P => (P, fun _ => None)) (fun x => x) (fun x => x) (fun x => x) true ["a"; "b"]%string ["entropy"%string] [(300, 1); (400, 2)]%R
    (map (fun v (_ : string) => Some v) [10; 20; 30; 40]%R) = Some rows /\ nth_error rows 2 = Some ("b"%string, 300%R, 1%R, [("entropy"%string, 30%R)]).
Proof. split; [reflexivity|]. eexists. split; reflexivity. Qed.
(** Fewer records than rows: the output reads past the end of the results. *)
Theorem C84_short_refuted : forall V ask toT toP fromP b ss names ps given, given <> [] -> length given < length ss * length ps -> tableGiven V ask toT toP fromP b ss names ps given = None.
Proof. exact given_short. Qed.
Print Assumptions C84_short_refuted.
(** More records than rows: the others leave no trace. *)
Theorem C84_extra_refuted : forall V ask toT toP fromP b ss names ps given more, given <> [] -> length given = length ss * length ps ->
  tableGiven V ask toT toP fromP b ss names ps (given ++ more) = tableGiven V ask toT toP fromP b ss names ps given.
Proof. exact given_extra. Qed.
Print Assumptions C84_extra_refuted.
(** The right records in the order of the other loop: the row of the first symbol at the second pair has the value of the second symbol at the first pair. *)
Theorem C84_crossed_refuted : forall V ask toT toP fromP (g : string -> R -> R -> record V) a b n T1 P1 T2 P2 v, g a T1 P1 n <> None -> g a T2 P2 n <> None -> g b T2 P2 n <> None -> g b T1 P1 n = Some v ->
  exists rows, tableGiven V ask toT toP fromP true [a; b] [n] [(T1, P1); (T2, P2)] (map (fun k => g (fst (fst k)) (snd (fst k)) (snd k)) (pairs_outer [a; b] [(T1, P1); (T2, P2)])) = Some rows /\
  nth_error rows 1 = Some (a, T2, P2, [(n, v)]).
Proof. exact given_crossed. Qed.
Print Assumptions C84_crossed_refuted.
Example C84_crossed_example : forall n : string, (fun (s : string) (T P : R) (_ : string) => Some T) "a"%string 1%R 2%R n <> None.
Proof. discriminate. Qed.
(** No record at all: the engine is asked as without records. *)
Theorem C84_none : forall V ask toT toP fromP b ss names ps, tableGiven V ask toT toP fromP b ss names ps [] =
  match calculate V ask toT toP fromP b ss names (addPairs ps) with Some (t', r, _) => foutResults V b ss names t' r | None => None end.
Proof. exact given_none. Qed.
Print Assumptions C84_none.
