(** Model of ThermoFun/OptimizationUtils.h (memoize, memoizeN, memoizeLast).

    [std::map] with key comparison is modelled by an association list searched with a
    decidable equality (the comparison of std::tuple is a total order on values, so lookup
    by order and lookup by equality coincide).  A wrapped function may throw: it returns
    [None].  With C++20 (CMakeLists.txt:7) the right operand of the
    assignment [cache[t] = f(args...)] is evaluated first, so a throwing call leaves no entry. *)
From Coq Require Import List Arith Bool.
Import ListNotations.

Section Memo.
Variables K V : Type.
Variable Keq : forall a b : K, {a = b} + {a <> b}.

(** std::map::find / operator[] on an existing key *)
Fixpoint find (k : K) (c : list (K * V)) : option V :=
  match c with
  | [] => None
  | (k', v) :: c' => if Keq k k' then Some v else find k c'
  end.

(** std::map::erase(key) *)
Fixpoint erase (k : K) (c : list (K * V)) : list (K * V) :=
  match c with
  | [] => []
  | (k', v) :: c' => if Keq k k' then erase k c' else (k', v) :: erase k c'
  end.

(** std::map::operator[](k) = v for a key that is not present *)
Definition insert (k : K) (v : V) (c : list (K * V)) : list (K * V) := (k, v) :: c.

(** A call either throws ([None]) or returns; the flag tells whether the wrapped function
    was entered. *)
Record outcome : Type := mkOut { result : option V; called : bool }.

(** OptimizationUtils.h:11-22  memoize *)
Definition memoize_step (f : K -> option V) (cache : list (K * V)) (k : K)
  : list (K * V) * outcome :=
  match find k cache with
  | Some v => (cache, mkOut (Some v) false)
  | None => match f k with
            | None => (cache, mkOut None true)
            | Some v => let cache' := insert k v cache in
                        (cache', mkOut (find k cache') true)
            end
  end.

(** State of one memoizeN closure: the shared cache and its own usage list
    (front = head, back = last). *)
Record stateN : Type := mkN { cacheN : list (K * V); usage : list K }.

(** std::list::back / pop_back *)
Definition back (l : list K) : option K := last (map Some l) None.

(** OptimizationUtils.h:63-70  eviction before the lookup *)
Definition evict (n : nat) (s : stateN) : stateN :=
  if n <=? length (cacheN s)
  then match back (usage s) with
       | Some b => mkN (erase b (cacheN s)) (removelast (usage s))
       | None => s
       end
  else s.

(** OptimizationUtils.h:53-81  memoizeN *)
Definition memoizeN_step (f : K -> option V) (n : nat) (s0 : stateN) (k : K)
  : stateN * outcome :=
  let s := evict n s0 in
  match find k (cacheN s) with
  | Some v => (s, mkOut (Some v) false)
  | None => match f k with
            | None => (s, mkOut None true)
            | Some v => let c' := insert k v (cacheN s) in
                        (mkN c' (k :: usage s), mkOut (find k c') true)
            end
  end.

(** OptimizationUtils.h:24-37  memoizeLast: [k0] is the default-constructed argument
    tuple, [v0] the default-constructed result *)
Record stateL : Type := mkL { lastKey : K; lastResult : V }.
Definition memoizeLast_init (k0 : K) (v0 : V) : stateL := mkL k0 v0.
Definition memoizeLast_step (f : K -> option V) (s : stateL) (k : K) : stateL * outcome :=
  if Keq k (lastKey s) then (s, mkOut (Some (lastResult s)) false)
  else match f k with
       | None => (mkL k (lastResult s), mkOut None true)   (* cache is assigned first *)
       | Some v => (mkL k v, mkOut (Some v) true)
       end.

(** A history of calls: final state and the list of outcomes. *)
Fixpoint run {S : Type} (step : S -> K -> S * outcome) (s : S) (ks : list K)
  : S * list outcome :=
  match ks with
  | [] => (s, [])
  | k :: ks' => let (s1, o) := step s k in
                let (s2, os) := run step s1 ks' in (s2, o :: os)
  end.

(** Several std::function copies of one memoizeN closure: the cache is a shared_ptr, the
    usage list is captured by value and copied with the closure (lines 55-59). *)
Record stateC : Type := mkC { cacheC : list (K * V); usages : nat -> list K }.
Inductive opC := CallC (i : nat) (k : K) | CopyC (i j : nat) (* closure j := copy of i *).
Definition stepC (f : K -> option V) (n : nat) (s : stateC) (o : opC) : stateC :=
  match o with
  | CallC i k =>
      let r := fst (memoizeN_step f n (mkN (cacheC s) (usages s i)) k) in
      mkC (cacheN r) (fun j => if Nat.eqb j i then usage r else usages s j)
  | CopyC i j => mkC (cacheC s) (fun m => if Nat.eqb m j then usages s i else usages s m)
  end.
End Memo.

Arguments find {K V}. Arguments erase {K V}. Arguments insert {K V}.
Arguments mkOut {V}. Arguments result {V}. Arguments called {V}.
Arguments memoize_step {K V}. Arguments memoizeN_step {K V}. Arguments evict {K V}.
Arguments mkN {K V}. Arguments cacheN {K V}. Arguments usage {K V}. Arguments back {K}.
Arguments memoizeLast_init {K V}. Arguments memoizeLast_step {K V}. Arguments mkL {K V}.
Arguments lastKey {K V}. Arguments lastResult {K V}.
Arguments run {K V S}. Arguments mkC {K V}. Arguments cacheC {K V}. Arguments usages {K V}.
Arguments stepC {K V}. Arguments CallC {K}. Arguments CopyC {K}.
