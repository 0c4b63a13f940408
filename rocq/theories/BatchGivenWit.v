From Coq Require Import String List Bool Arith Reals Lia.
From Verif Require Import BatchModel BatchSpec BatchProofs BatchOut BatchGiven BatchGivenPf.
Import ListNotations.
Open Scope nat_scope.
Section W.
Variable V : Type.
Variable ask : string -> R -> R -> R * (string -> option V).
Variables toT toP fromP : R -> R.
(** records of the combinations in the order of the rows: the table is right *)
Lemma given_right : forall (g : string -> R -> R -> record V) b ss names ps, ss <> [] -> ps <> [] ->
  (forall s T P n, In s ss -> In (T, P) ps -> In n names -> g s T P n <> None) ->
  exists rows, tableGiven V ask toT toP fromP b ss names ps (map (fun k => g (fst (fst k)) (snd (fst k)) (snd k)) (if b then outer_first ss ps else pairs_outer ss ps)) = Some rows /\
  map (key V) rows = (if b then outer_first ss ps else pairs_outer ss ps) /\
  Forall (fun r : row V => let '(s, T, P, vals) := r in map fst vals = names /\ Forall (fun nv => g s T P (fst nv) = Some (snd nv)) vals) rows.
Proof.
  intros g b ss names ps Ns Np H. change (if b then outer_first ss ps else pairs_outer ss ps) with (combos b ss ps). set (h := fun k : string * R * R => g (fst (fst k)) (snd (fst k)) (snd k)).
  assert (I : forall s T P, In (s, T, P) (combos b ss ps) -> In s ss /\ In (T, P) ps).
  { intros s T P. unfold combos, outer_first, pairs_outer. destruct b; intro K; apply in_flat_map in K; destruct K as [x [K1 K2]]; apply in_map_iff in K2; destruct K2 as [y [K2 K3]]; injection K2 as <- <- <-.
    - split; [exact K1|]. now destruct y.
    - split; [exact K3|]. now destruct x. }
  destruct (given_rows V ask toT toP fromP b ss names ps (map h (combos b ss ps))) as [rows [A [B C]]].
  - intro E. apply (f_equal (@length _)) in E. rewrite map_length, combos_len in E. destruct ss, ps; cbn in E; try discriminate; congruence.
  - rewrite map_length. apply combos_len.
  - apply Forall_map. apply Forall_forall. intros [[s T] P] K n Hn. destruct (I s T P K) as [K1 K2]. unfold h. cbn. now apply H.
  - exists rows. split; [exact A|]. split; [exact B|]. apply Forall_forall. intros [[[s T] P] vals] K. apply In_nth_error in K. destruct K as [c K].
    assert (E : nth_error (combos b ss ps) c = Some (s, T, P)) by (rewrite <- B, nth_error_map, K; reflexivity).
    apply (C c s T P vals (g s T P) K). rewrite nth_error_map, E. reflexivity.
Qed.
(** the same records in the order of the other loop: two symbols, two pairs; the second row has the record of the other symbol at the other pair *)
Lemma given_crossed : forall (g : string -> R -> R -> record V) a b n T1 P1 T2 P2 v, g a T1 P1 n <> None -> g a T2 P2 n <> None -> g b T2 P2 n <> None -> g b T1 P1 n = Some v ->
  exists rows, tableGiven V ask toT toP fromP true [a; b] [n] [(T1, P1); (T2, P2)] (map (fun k => g (fst (fst k)) (snd (fst k)) (snd k)) (pairs_outer [a; b] [(T1, P1); (T2, P2)])) = Some rows /\
  nth_error rows 1 = Some (a, T2, P2, [(n, v)]).
Proof.
  intros g a b n T1 P1 T2 P2 v H1 H2 H3 H4. unfold pairs_outer. cbn [flat_map map app fst snd]. rewrite given_table. unfold combos, outer_first. cbn [flat_map map app fst snd length Nat.mul Nat.add seq].
  unfold pick, select. cbn [nth_error flat_map map]. destruct (g a T1 P1 n) as [v1|]; [|now destruct H1]. rewrite H4. destruct (g a T2 P2 n) as [v2|]; [|now destruct H2]. destruct (g b T2 P2 n) as [v3|]; [|now destruct H3].
  cbn. eexists. split; reflexivity.
Qed.
(** no record at all: the engine is asked *)
Lemma given_none : forall b ss names ps, tableGiven V ask toT toP fromP b ss names ps [] =
  match calculate V ask toT toP fromP b ss names (addPairs ps) with Some (t', r, _) => foutResults V b ss names t' r | None => None end.
Proof. intros. unfold tableGiven, batchGiven. destruct (calculate V ask toT toP fromP b ss names (addPairs ps)) as [[[t' r] l]|]; reflexivity. Qed.
End W.
