(** Lemmas about batches handed ready results. *)
From Coq Require Import String List Bool Arith Reals Lia.
From Verif Require Import BatchModel BatchSpec BatchProofs BatchOut BatchGiven.
Import ListNotations.
Open Scope nat_scope.

Lemma flat_seq : forall A (f : nat -> A) n m, flat_map (fun i => map (fun j => f (n * i + j)) (seq 0 n)) (seq 0 m) = map f (seq 0 (n * m)).
Proof.
  intros A f n m. induction m as [|m IH]; [now rewrite Nat.mul_0_r|].
  rewrite seq_S, flat_map_app, IH. cbn [flat_map]. rewrite app_nil_r. replace (n * S m) with (n * m + n) by lia. rewrite seq_app, map_app. f_equal.
  cbn [Nat.add]. rewrite <- (map_map (fun j => n * m + j) f). f_equal. generalize (n * m); intro k.
  assert (K : forall a c, map (fun j => k + j) (seq c a) = seq (k + c) a) by (induction a as [|a IHa]; intro c; [reflexivity|]; cbn; f_equal; rewrite IHa; f_equal; lia).
  rewrite K. f_equal. lia.
Qed.
Lemma flat_ext : forall A (f g : nat -> nat -> A) n m, (forall i j, i < m -> j < n -> f i j = g i j) ->
  flat_map (fun i => map (f i) (seq 0 n)) (seq 0 m) = flat_map (fun i => map (g i) (seq 0 n)) (seq 0 m).
Proof. intros A f g n m H. apply flat_map_ext_in. intros i Hi. apply in_seq in Hi. apply map_ext_in. intros j Hj. apply in_seq in Hj. apply H; lia. Qed.
Lemma nth_flat : forall A B C (f : A -> B -> C) (l : list A) (m : list B) i j, j < length m ->
  nth_error (flat_map (fun x => map (f x) m) l) (length m * i + j) = match nth_error l i, nth_error m j with Some x, Some y => Some (f x y) | _, _ => None end.
Proof.
  intros A B C f l m. induction l as [|x l IH]; intros i j Hj.
  - cbn. destruct (length m * i + j), i; reflexivity.
  - cbn [flat_map]. destruct i as [|i].
    + rewrite Nat.mul_0_r. cbn [Nat.add]. rewrite nth_error_app1 by (rewrite map_length; exact Hj). cbn. rewrite nth_error_map. destruct (nth_error m j); reflexivity.
    + rewrite nth_error_app2 by (rewrite map_length; lia). rewrite map_length. replace (length m * S i + j - length m) with (length m * i + j) by lia. rewrite (IH i j Hj). reflexivity.
Qed.
Lemma traverse_none : forall A (l : list (option A)), In None l -> traverse l = None.
Proof. intros A l. induction l as [|[a|] l IH]; intro H; [destruct H| |reflexivity]. destruct H as [H|H]; [discriminate|]. cbn. now rewrite (IH H). Qed.

Lemma nth_error_ext' : forall A (l m : list A), length l = length m -> (forall c, c < length l -> nth_error l c = nth_error m c) -> l = m.
Proof.
  intros A l. induction l as [|x l IH]; intros [|y m] L H; [reflexivity|discriminate|discriminate|]. f_equal; [specialize (H 0 (Nat.lt_0_succ _)); cbn in H; congruence|].
  apply IH; [cbn in L; lia|]. intros c Hc. apply (H (S c)). cbn. lia.
Qed.
Section G.
Variable V : Type.
Variable ask : string -> R -> R -> R * (string -> option V).
Variables toT toP fromP : R -> R.
(** the combinations in the order of the rows *)
Definition combos (tpFirst : bool) (symbols : list string) (ps : list (R * R)) : list (string * R * R) :=
  if tpFirst then outer_first symbols ps else pairs_outer symbols ps.
Lemma combos_len : forall b ss ps, length (combos b ss ps) = length ss * length ps.
Proof.
  intros b ss ps. unfold combos, outer_first, pairs_outer. destruct b.
  - induction ss as [|s ss IH]; [reflexivity|]. cbn [flat_map]. rewrite app_length, map_length, IH. cbn. lia.
  - induction ps as [|p ps IH]; [cbn; lia|]. cbn [flat_map]. rewrite app_length, map_length, IH. cbn. lia.
Qed.
Definition pick (names : list string) (keys : list (string * R * R)) (res : list (list V)) (c : nat) : option (row V) :=
  match nth_error keys c, nth_error res c with
  | Some (s, T, P), Some vs => if Nat.leb (length vs) (length names) then Some (s, T, P, combine names vs) else None
  | _, _ => None
  end.
Lemma fout_pick : forall b ss names t res, foutResults V b ss names t res = traverse (map (pick names (combos b ss (pairs t)) res) (seq 0 (length ss * length (pairs t)))).
Proof.
  intros b ss names t res. unfold foutResults. cbv zeta. f_equal. set (ps := pairs t). destruct b.
  - rewrite (Nat.mul_comm (length ss)). rewrite <- flat_seq. apply flat_ext. intros i j Hi Hj. unfold pick, combos, outer_first.
    rewrite (nth_flat string (R * R) (string * R * R) (fun x p => (x, fst p, snd p)) ss ps i j Hj). destruct (nth_error ps j) as [[T P]|], (nth_error ss i); reflexivity.
  - rewrite <- flat_seq. apply flat_ext. intros i j Hi Hj. unfold pick, combos, pairs_outer.
    rewrite (nth_flat (R * R) string (string * R * R) (fun p x => (x, fst p, snd p)) ps ss i j Hj). destruct (nth_error ps i) as [[T P]|], (nth_error ss j); reflexivity.
Qed.
Lemma given_table : forall b ss names ps r given, tableGiven V ask toT toP fromP b ss names ps (r :: given) =
  traverse (map (pick names (combos b ss ps) (map (select V names) (r :: given))) (seq 0 (length ss * length ps))).
Proof. intros. unfold tableGiven, batchGiven, selectProvided. rewrite fout_pick, addPairs_pairs. reflexivity. Qed.
(** fewer records than rows: reads past the end *)
Lemma given_short : forall b ss names ps given, given <> [] -> length given < length ss * length ps -> tableGiven V ask toT toP fromP b ss names ps given = None.
Proof.
  intros b ss names ps [|r given] N L; [now destruct N|]. rewrite given_table. apply traverse_none. apply in_map_iff. exists (length (r :: given)). split; [|apply in_seq; lia].
  unfold pick. replace (nth_error (map (select V names) (r :: given)) (length (r :: given))) with (@None (list V)); [destruct (nth_error _ _) as [[[? ?] ?]|]; reflexivity|].
  symmetry. apply nth_error_None. rewrite map_length. apply Nat.le_refl.
Qed.
(** more records than rows: the others are not printed *)
Lemma given_extra : forall b ss names ps given more, given <> [] -> length given = length ss * length ps ->
  tableGiven V ask toT toP fromP b ss names ps (given ++ more) = tableGiven V ask toT toP fromP b ss names ps given.
Proof.
  intros b ss names ps [|r given] more N L; [now destruct N|]. cbn [app]. rewrite !given_table. f_equal. apply map_ext_in. intros c Hc. apply in_seq in Hc. unfold pick. destruct (nth_error (combos b ss ps) c) as [[[s T] P]|]; [|reflexivity].
  replace (map (select V names) (r :: (given ++ more))) with (map (select V names) (r :: given) ++ map (select V names) more) by (rewrite <- map_app; reflexivity).
  unfold record in *. rewrite nth_error_app1 by (rewrite map_length; lia). reflexivity.
Qed.
(** the c-th row has the c-th combination and the c-th record *)
Lemma given_rows : forall b ss names ps given, given <> [] -> length given = length ss * length ps -> Forall (fun r => forall n, In n names -> r n <> None) given ->
  exists rows, tableGiven V ask toT toP fromP b ss names ps given = Some rows /\ map (key V) rows = combos b ss ps /\
  (forall c s T P vals r, nth_error rows c = Some (s, T, P, vals) -> nth_error given c = Some r -> map fst vals = names /\ Forall (fun nv => r (fst nv) = Some (snd nv)) vals).
Proof.
  intros b ss names ps [|r0 g0] N L H; [now destruct N|]. unfold record in *. rewrite given_table. set (given := r0 :: g0) in *.
  assert (S : forall r, In r given -> length (select V names r) = length names /\ Forall (fun nv => r (fst nv) = Some (snd nv)) (combine names (select V names r))).
  { intros r Hr. rewrite Forall_forall in H. specialize (H r Hr). clear - H. induction names as [|n names IH]; [split; [reflexivity|constructor]|].
    destruct IH as [A B]; [intros m Hm; apply H; now right|]. unfold select. cbn [flat_map]. specialize (H n (or_introl eq_refl)). destruct (r n) as [v|] eqn:E; [|now destruct H].
    cbn [app length combine]. split; [f_equal; exact A|]. constructor; [exact E|exact B]. }
  assert (K : forall c, c < length (combos b ss ps) -> exists s T P r, nth_error (combos b ss ps) c = Some (s, T, P) /\ nth_error given c = Some r /\
     pick names (combos b ss ps) (map (select V names) given) c = Some (s, T, P, combine names (select V names r))).
  { intros c Hc. pose proof Hc as Hc'. rewrite combos_len, <- L in Hc'. destruct (nth_error (combos b ss ps) c) as [[[s T] P]|] eqn:E1; [|apply nth_error_None in E1; lia].
    destruct (nth_error given c) as [r|] eqn:E2; [|apply nth_error_None in E2; lia]. exists s, T, P, r. split; [reflexivity|]. split; [reflexivity|].
    unfold pick. rewrite E1, nth_error_map, E2. cbn [option_map]. destruct (S r (nth_error_In _ _ E2)) as [A _]. rewrite A, Nat.leb_refl. reflexivity. }
  rewrite <- combos_len with (b := b).
  assert (G : forall m, m <= length (combos b ss ps) -> exists rows, traverse (map (pick names (combos b ss ps) (map (select V names) given)) (seq 0 m)) = Some rows /\ length rows = m /\
     forall c, c < m -> nth_error rows c = pick names (combos b ss ps) (map (select V names) given) c).
  { induction m as [|m IH]; intro Hm; [exists []; split; [reflexivity|]; split; [reflexivity|]; intros; lia|]. destruct IH as [rows [A [B C]]]; [lia|]. destruct (K m) as [s [T [P [r [E1 [E2 E3]]]]]]; [lia|].
    exists (rows ++ [(s, T, P, combine names (select V names r))]). split.
    - rewrite seq_S, map_app. apply traverse_app; [exact A|]. cbn [map Nat.add]. rewrite E3. reflexivity.
    - split; [rewrite app_length; cbn; lia|]. intros c Hc. destruct (Nat.eq_dec c m) as [->|D]; [rewrite nth_error_app2 by lia; rewrite B, Nat.sub_diag, E3; reflexivity|rewrite nth_error_app1 by lia; apply C; lia]. }
  destruct (G _ (Nat.le_refl _)) as [rows [A [B C]]]. exists rows. split; [exact A|]. split.
  - apply nth_error_ext'. 
    + rewrite map_length; exact B.
    + intros c Hc. rewrite map_length, B in Hc. rewrite nth_error_map, (C c Hc). destruct (K c Hc) as [s [T [P [r [E1 [E2 E3]]]]]]. rewrite E3, E1. reflexivity.
  - intros c s T P vals r E1 E2. assert (Hc : c < length (combos b ss ps)) by (rewrite <- B; apply nth_error_Some; congruence).
    rewrite (C c Hc) in E1. destruct (K c Hc) as [s' [T' [P' [r' [F1 [F2 F3]]]]]]. rewrite F3 in E1. injection E1 as <- <- <- <-. assert (r' = r) by congruence; subst r'.
    destruct (S r (nth_error_In _ _ E2)) as [X Y]. split; [apply combine_fst; now symmetry|exact Y].
Qed.
End G.
