(** Property theorems C06-C08: memoisation. *)
From Coq Require Import List Arith Bool Lia.
Import ListNotations.
From Verif Require Import MemoModel MemoProofs RefMemoModel RefMemoProofs.

(** C06: for any history the wrapped function's own results come back (throwing included). *)
Theorem C06_memoize_transparent : forall K V (Keq : forall a b : K, {a = b} + {a <> b}) (f : K -> option V) ks,
  map result (snd (run (memoize_step Keq f) [] ks)) = map f ks.
Proof. exact (fun K V => @memoize_transparent K V). Qed.
Print Assumptions C06_memoize_transparent.
Theorem C06_memoizeN_transparent : forall K V (Keq : forall a b : K, {a = b} + {a <> b}) (f : K -> option V) n ks,
  map result (snd (run (memoizeN_step Keq f n) (mkN [] []) ks)) = map f ks.
Proof. exact (fun K V => @memoizeN_transparent K V). Qed.
Print Assumptions C06_memoizeN_transparent.
(** memoize computes each successful key once *)
Theorem C06_memoize_once : forall K V (Keq : forall a b : K, {a = b} + {a <> b}) (f : K -> option V) ks1 k ks2 v,
  f k = Some v ->
  called (snd (memoize_step Keq f (fst (run (memoize_step Keq f) [] (ks1 ++ k :: ks2))) k)) = false.
Proof. exact (fun K V => @memoize_once K V). Qed.
Print Assumptions C06_memoize_once.
(** it is entered exactly for the keys not answered before: exceptions are not remembered *)
Theorem C06_memoize_calls : forall K V (Keq : forall a b : K, {a = b} + {a <> b}) (f : K -> option V) ks k,
  called (snd (memoize_step Keq f (fst (run (memoize_step Keq f) [] ks)) k)) = true <-> (~ In k ks \/ f k = None).
Proof. exact (fun K V => @memoize_called K V). Qed.
Print Assumptions C06_memoize_calls.
Theorem C06_memoizeLast_transparent : forall K V (Keq : forall a b : K, {a = b} + {a <> b}) (f : K -> option V) k0 v0 ks,
  f k0 = Some v0 -> (forall k, In k ks -> exists v, f k = Some v) ->
  map result (snd (run (memoizeLast_step Keq f) (memoizeLast_init k0 v0) ks)) = map f ks.
Proof. exact (fun K V => @memoizeLast_transparent K V). Qed.
Print Assumptions C06_memoizeLast_transparent.
(** memoizeLast is not transparent for the default key nor after an exception *)
Theorem C06_memoizeLast_refuted :
  (exists (f : nat -> option nat) k0 v0 ks, map result (snd (run (memoizeLast_step Nat.eq_dec f) (memoizeLast_init k0 v0) ks)) <> map f ks) /\
  (exists (f : nat -> option nat) v0 ks, f 0 = Some v0 /\
     map result (snd (run (memoizeLast_step Nat.eq_dec f) (memoizeLast_init 0 v0) ks)) <> map f ks).
Proof. exact memoizeLast_not_transparent. Qed.
Print Assumptions C06_memoizeLast_refuted.

Example C06_example : map result (snd (run (memoizeN_step Nat.eq_dec ex_h 2) (mkN [] []) [1; 3; 2; 1; 4; 1; 3]))
  = [Some 101; None; Some 102; Some 101; Some 104; Some 101; None].
Proof. reflexivity. Qed.

(** C07: bound, distinct queue entries, queue = cached keys, for any history. *)
Theorem C07_memoizeN_bounded : forall K V (Keq : forall a b : K, {a = b} + {a <> b}) (f : K -> option V) n ks,
  1 <= n ->
  let s := fst (run (memoizeN_step Keq f n) (mkN [] []) ks) in
  length (cacheN s) <= n /\ NoDup (usage s) /\ map fst (cacheN s) = usage s.
Proof. exact (fun K V => @memoizeN_bounded K V). Qed.
Print Assumptions C07_memoizeN_bounded.
(** a cached key is served without a call while the cache is not full *)
Theorem C07_hit_partial : forall K V (Keq : forall a b : K, {a = b} + {a <> b}) (f : K -> option V) n s k v,
  length (cacheN s) < n -> find Keq k (cacheN s) = Some v ->
  memoizeN_step Keq f n s k = (s, mkOut (Some v) false).
Proof. exact (fun K V => @memoizeN_hit K V). Qed.
Print Assumptions C07_hit_partial.
(** ... but once the cache is full even a cached key may be dropped and recomputed *)
Theorem C07_hit_recomputed_refuted :
  exists (f : nat -> option nat) n ks k v,
    let s := fst (run (memoizeN_step Nat.eq_dec f n) (mkN [] []) ks) in
    1 <= n /\ find Nat.eq_dec k (cacheN s) = Some v /\
    called (snd (memoizeN_step Nat.eq_dec f n s k)) = true.
Proof.
  exact (ex_intro _ ex_f (ex_intro _ 1 (ex_intro _ [5] (ex_intro _ 5 (ex_intro _ 105
     (conj (le_n 1) hit_recomputed)))))).
Qed.
Print Assumptions C07_hit_recomputed_refuted.
(** eviction is first-in-first-out, not least-recently-used *)
Theorem C07_evicts_oldest_insertion : forall K V (Keq : forall a b : K, {a = b} + {a <> b}) (f : K -> option V) n s k l x v,
  usage s = l ++ [x] -> invN Keq f s -> length (cacheN s) = n ->
  k <> x -> ~ In k l -> f k = Some v ->
  usage (fst (memoizeN_step Keq f n s k)) = k :: l.
Proof. exact (fun K V => @memoizeN_evicts_oldest K V). Qed.
Print Assumptions C07_evicts_oldest_insertion.
Theorem C07_not_lru_refuted :
  let s := fst (run (memoizeN_step Nat.eq_dec ex_f 3) (mkN [] []) [1; 2; 1; 3; 4]) in
  find Nat.eq_dec 1 (cacheN s) = None /\ find Nat.eq_dec 2 (cacheN s) = Some 102.
Proof. exact not_lru. Qed.
Print Assumptions C07_not_lru_refuted.
(** copies of one closure share the cache but not the queue: the bound fails *)
Theorem C07_copies_exceed_bound_refuted :
  exists ops, length (cacheC (fold_left (stepC Nat.eq_dec ex_f 1) ops (mkC [] (fun _ => [])))) > 1.
Proof. exact (ex_intro _ [CopyC 0 1; CallC 0 5; CallC 1 6] (le_n 2)). Qed.
Print Assumptions C07_copies_exceed_bound_refuted.

Example C07_example : let s := fst (run (memoizeN_step Nat.eq_dec ex_f 2) (mkN [] []) [1; 2; 3; 2; 4]) in
  usage s = [4; 2] /\ length (cacheN s) = 2.
Proof. split; reflexivity. Qed.

(** C08: with live variables every call returns the result for the pressure it was given ... *)
Theorem C08_reference_keys_values : forall D Sy V Deq Seq (g : D -> D -> Sy -> V) wb s os,
  good g s -> Forall no_free os -> alive (smem s) os ->
  exists s' vs, memo_run D Sy V Deq Seq g wb s os = Ok (s', vs) /\ expected Deq Seq g wb s os = Some vs.
Proof. exact (fun D Sy V => @memo_values D Sy V). Qed.
Print Assumptions C08_reference_keys_values.
(** ... and when no pressure is zero the whole run is the unmemoised one *)
Theorem C08_reference_keys_equiv_partial : forall D Sy V Deq Seq (g : D -> D -> Sy -> V) wb zero,
  (forall t p, p <> zero -> wb t p = p) ->
  forall os s m, good g s -> same_mem (smem s) m -> Forall no_free os ->
  nonzero_calls g wb zero m os ->
  exists s' m' vs, memo_run D Sy V Deq Seq g wb s os = Ok (s', vs) /\
                   plain_run D Sy V g wb m os = Ok (m', vs) /\ same_mem (smem s') m'.
Proof. exact (fun D Sy V => @memo_equiv D Sy V). Qed.
Print Assumptions C08_reference_keys_equiv_partial.
(** a cached answer does not write the saturation pressure back *)
Theorem C08_writeback_lost_refuted :
  (exists s, memo_run nat nat nat Nat.eq_dec Nat.eq_dec ex_g ex_wb ex_st ex_hist = Ok s /\ smem (fst s) 0 = Some 0) /\
  (exists m, plain_run nat nat nat ex_g ex_wb ex_mem ex_hist = Ok m /\ fst m 0 = Some 7).
Proof. exact writeback_lost. Qed.
Print Assumptions C08_writeback_lost_refuted.
(** asking again for the same T and P after the first caller's variable is gone is undefined *)
Theorem C08_dangling_key_refuted : forall D Sy V (Deq : forall a b : D, {a = b} + {a <> b})
  (Seq : forall a b : Sy, {a = b} + {a <> b}) (g : D -> D -> Sy -> V) wb T p sy sy' l l', l <> l' ->
  memo_run D Sy V Deq Seq g wb (mkSt (fun _ => None) [])
    [Write l p; Call T l sy; Free l; Write l' p; Call T l' sy'] = UB.
Proof. exact (fun D Sy V => @dangling_always D Sy V). Qed.
Print Assumptions C08_dangling_key_refuted.

Example C08_example : good ex_g ex_st /\ Forall (@no_free nat nat) [Write 0 5; Call 7 0 1; Call 7 0 1] /\
  nonzero_calls ex_g ex_wb 0 ex_mem [Write 0 5; Call 7 0 1; Call 7 0 1].
Proof.
  split; [intros k v []|]. split; [repeat constructor|].
  cbn. split; auto. split; [exists 5; split; [reflexivity|discriminate]|].
  split; auto. exists 5. split; [reflexivity|discriminate].
Qed.
