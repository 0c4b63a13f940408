From Coq Require Import List Arith Bool Lia.
Import ListNotations.
From Verif Require Import MemoModel.

Section MemoP.
Context {K V : Type}.
Variable Keq : forall a b : K, {a = b} + {a <> b}.
Variable f : K -> option V.

Definition sound (c : list (K * V)) : Prop := forall k v, find Keq k c = Some v -> f k = Some v.

Lemma find_insert_eq k (v : V) c : find Keq k (insert k v c) = Some v.
Proof. cbn. destruct (Keq k k); congruence. Qed.
Lemma find_erase k k' (c : list (K * V)) :
  find Keq k (erase Keq k' c) = if Keq k k' then None else find Keq k c.
Proof.
  induction c as [|[a b] c IH]; cbn.
  - destruct (Keq k k'); auto.
  - destruct (Keq k' a) as [E|E]; cbn; rewrite ?IH; destruct (Keq k k') as [E1|E1], (Keq k a) as [E2|E2]; congruence.
Qed.

Lemma sound_nil : sound [].
Proof. intros k v H. discriminate. Qed.
Lemma sound_insert k v c : sound c -> f k = Some v -> sound (insert k v c).
Proof. intros Hc Hf k' v'. cbn. destruct (Keq k' k); [congruence|apply Hc]. Qed.
Lemma sound_erase k c : sound c -> sound (erase Keq k c).
Proof. intros Hc k' v'. rewrite find_erase. destruct (Keq k' k); [discriminate|apply Hc]. Qed.

(** *** memoize *)
Lemma memoize_step_ok c k : sound c ->
  sound (fst (memoize_step Keq f c k)) /\ result (snd (memoize_step Keq f c k)) = f k.
Proof.
  intros Hc. unfold memoize_step. destruct (find Keq k c) eqn:E.
  - cbn. split; auto. symmetry. apply Hc; auto.
  - destruct (f k) eqn:Ef; cbn [fst snd result].
    + split; [apply sound_insert; auto|apply find_insert_eq].
    + auto.
Qed.

Lemma run_ok {S} (step : S -> K -> S * outcome V) (I : S -> Prop) s ks :
  I s -> (forall s k, I s -> I (fst (step s k)) /\ result (snd (step s k)) = f k) ->
  I (fst (run step s ks)) /\ map result (snd (run step s ks)) = map f ks.
Proof.
  intros Hs Hstep. revert s Hs. induction ks as [|k ks IH]; intros s Hs; cbn; auto.
  destruct (step s k) as [s1 o] eqn:E. specialize (Hstep s k Hs). rewrite E in Hstep. cbn in Hstep.
  destruct (run step s1 ks) as [s2 os] eqn:E2. specialize (IH s1 (proj1 Hstep)). rewrite E2 in IH.
  cbn in *. split; [tauto|]. f_equal; tauto.
Qed.

Lemma memoize_transparent ks :
  map result (snd (run (memoize_step Keq f) [] ks)) = map f ks.
Proof. apply (run_ok _ sound); [apply sound_nil|apply memoize_step_ok]. Qed.

(** a key that has been returned once stays cached *)
Lemma memoize_keeps c k k' v : find Keq k c = Some v -> find Keq k (fst (memoize_step Keq f c k')) = Some v.
Proof.
  intros H. unfold memoize_step. destruct (find Keq k' c) eqn:E; auto.
  destruct (f k'); auto. cbn. destruct (Keq k k'); [subst; congruence|auto].
Qed.
Lemma memoize_keeps_run c k ks v : find Keq k c = Some v -> find Keq k (fst (run (memoize_step Keq f) c ks)) = Some v.
Proof.
  revert c. induction ks as [|a ks IH]; intros c H; cbn; auto.
  destruct (memoize_step Keq f c a) as [c1 o] eqn:E.
  destruct (run (memoize_step Keq f) c1 ks) as [c2 os] eqn:E2. cbn.
  pose proof (memoize_keeps c k a v H) as H1. rewrite E in H1. cbn in H1.
  specialize (IH c1 H1). rewrite E2 in IH. exact IH.
Qed.
Lemma memoize_caches c k v : f k = Some v -> exists v', find Keq k (fst (memoize_step Keq f c k)) = Some v'.
Proof.
  intros H. unfold memoize_step. destruct (find Keq k c) eqn:E.
  - eauto.
  - rewrite H. exists v. apply find_insert_eq.
Qed.

Lemma run_app {S} (step : S -> K -> S * outcome V) s ks1 ks2 :
  fst (run step s (ks1 ++ ks2)) = fst (run step (fst (run step s ks1)) ks2).
Proof.
  revert s. induction ks1 as [|k ks1 IH]; intros s; cbn; auto.
  destruct (step s k) as [s1 o]. specialize (IH s1).
  destruct (run step s1 (ks1 ++ ks2)) eqn:E1, (run step s1 ks1) eqn:E2. cbn in *. auto.
Qed.

Lemma memoize_once ks1 k ks2 v : f k = Some v ->
  let s := fst (run (memoize_step Keq f) [] (ks1 ++ k :: ks2)) in
  called (snd (memoize_step Keq f s k)) = false.
Proof.
  intros Hf s. unfold s. rewrite run_app. cbn.
  set (c := fst (run (memoize_step Keq f) [] ks1)).
  destruct (memoize_caches c k v Hf) as [v' Hv].
  destruct (memoize_step Keq f c k) as [c1 o] eqn:E. cbn in Hv.
  pose proof (memoize_keeps_run c1 k ks2 v' Hv) as H2.
  destruct (run (memoize_step Keq f) c1 ks2) as [c2 os]. cbn in *.
  unfold memoize_step. rewrite H2. reflexivity.
Qed.
(** the wrapped function is entered exactly for keys not answered before; a throw is not remembered *)
Lemma memoize_find_run c ks k v : find Keq k (fst (run (memoize_step Keq f) c ks)) = Some v ->
  In k ks \/ find Keq k c = Some v.
Proof.
  revert c. induction ks as [|a ks IH]; intros c H; cbn in *; auto.
  destruct (memoize_step Keq f c a) as [c1 o] eqn:E. destruct (run (memoize_step Keq f) c1 ks) as [c2 os] eqn:E2. cbn in H.
  specialize (IH c1). rewrite E2 in IH. cbn in IH. destruct (IH H) as [I|I]; [tauto|].
  unfold memoize_step in E. destruct (find Keq a c) eqn:Ea; [inversion E; subst; tauto|].
  destruct (f a); inversion E; subst; [|tauto]. cbn in I. destruct (Keq k a); [left; left; congruence|tauto].
Qed.
Lemma memoize_called ks k :
  called (snd (memoize_step Keq f (fst (run (memoize_step Keq f) [] ks)) k)) = true <-> (~ In k ks \/ f k = None).
Proof.
  set (c := fst (run (memoize_step Keq f) [] ks)).
  assert (So : sound c) by (apply (run_ok _ sound); [apply sound_nil|apply memoize_step_ok]).
  unfold memoize_step. destruct (find Keq k c) eqn:E.
  - cbn. split; [discriminate|]. intros [H|H].
    + exfalso. destruct (memoize_find_run [] ks k v E) as [I|I]; [tauto|discriminate].
    + rewrite (So k v E) in H. discriminate.
  - assert (N : ~ In k ks \/ f k = None).
    { destruct (f k) eqn:Ef; [left|tauto]. intros I. apply in_split in I as (l1 & l2 & ->).
      unfold c in E. rewrite run_app in E. cbn in E. set (c0 := fst (run (memoize_step Keq f) [] l1)) in *.
      destruct (memoize_caches c0 k v Ef) as [v' Hv]. destruct (memoize_step Keq f c0 k) as [c1 o]. cbn in Hv.
      pose proof (memoize_keeps_run c1 k l2 v' Hv) as H2. destruct (run (memoize_step Keq f) c1 l2). cbn in *. congruence. }
    destruct (f k); cbn; tauto.
Qed.

(** *** memoizeN *)
Definition invN (s : stateN K V) : Prop :=
  sound (cacheN s) /\ map fst (cacheN s) = usage s /\ NoDup (usage s).

Lemma back_app (l : list K) x : back (l ++ [x]) = Some x.
Proof. unfold back. rewrite map_app. cbn. apply last_last. Qed.
Lemma back_None (l : list K) : back l = None -> l = [].
Proof.
  destruct l as [|a l] using rev_ind; auto. rewrite back_app. discriminate.
Qed.
Lemma map_fst_erase k (c : list (K * V)) : map fst (erase Keq k c) = remove Keq k (map fst c).
Proof. induction c as [|[a b] c IH]; cbn; auto. destruct (Keq k a); cbn; congruence. Qed.
Lemma remove_last (l : list K) x : NoDup (l ++ [x]) -> remove Keq x (l ++ [x]) = l.
Proof.
  intros H. rewrite remove_app. cbn. destruct (Keq x x); [|congruence]. rewrite app_nil_r.
  apply notin_remove. apply NoDup_remove_2 in H. rewrite app_nil_r in H. auto.
Qed.
Lemma NoDup_removelast (l : list K) : NoDup l -> NoDup (removelast l).
Proof.
  destruct l as [|a l] using rev_ind; intros H; cbn; auto.
  rewrite removelast_last. apply NoDup_remove_1 in H. rewrite app_nil_r in H. auto.
Qed.

Lemma evict_inv n s : invN s -> invN (evict Keq n s).
Proof.
  intros [Hs [Hk Hn]]. unfold evict. destruct (n <=? length (cacheN s)); [|split; auto].
  destruct (usage s) as [|a l] eqn:E using rev_ind; [unfold back; cbn; repeat split; auto; rewrite E; auto|].
  rewrite back_app. unfold invN. cbn. split; [apply sound_erase; auto|].
  rewrite map_fst_erase, Hk, removelast_last, remove_last by auto. split; auto.
  apply NoDup_remove_1 in Hn. rewrite app_nil_r in Hn. auto.
Qed.

Lemma evict_len n s : invN s -> 1 <= n -> length (cacheN s) <= n -> length (cacheN (evict Keq n s)) < n.
Proof.
  intros [Hs [Hk Hn]] Hp Hl. unfold evict. destruct (Nat.leb_spec n (length (cacheN s))) as [H|H]; auto.
  assert (Hlen : length (usage s) = n) by (rewrite <- Hk, map_length; lia).
  destruct (usage s) as [|a l] eqn:E using rev_ind; [cbn in Hlen; lia|].
  rewrite back_app. cbn. rewrite app_length in Hlen. cbn in Hlen.
  rewrite <- (map_length fst), map_fst_erase, Hk, remove_last by auto. lia.
Qed.

Lemma find_None_notin k (c : list (K * V)) : find Keq k c = None -> ~ In k (map fst c).
Proof.
  induction c as [|[a b] c IH]; cbn; auto. destruct (Keq k a); [discriminate|].
  intros H [E|E]; [congruence|]. apply IH; auto.
Qed.

Lemma memoizeN_step_ok n s k : invN s ->
  invN (fst (memoizeN_step Keq f n s k)) /\ result (snd (memoizeN_step Keq f n s k)) = f k.
Proof.
  intros H. unfold memoizeN_step. pose proof (evict_inv n s H) as H'. clear H.
  set (s' := evict Keq n s) in *. clearbody s'. destruct H' as [Hs [Hk Hn]].
  destruct (find Keq k (cacheN s')) eqn:E.
  - split; [split; auto|]. symmetry. apply Hs; auto.
  - destruct (f k) eqn:Ef; cbn [fst snd result].
    + split; [|apply find_insert_eq]. unfold invN. cbn. split; [apply sound_insert; auto|].
      split; [congruence|]. constructor; auto. rewrite <- Hk. apply find_None_notin; auto.
    + split; auto. split; auto.
Qed.

Lemma memoizeN_transparent n ks :
  map result (snd (run (memoizeN_step Keq f n) (mkN [] []) ks)) = map f ks.
Proof.
  apply (run_ok _ invN); [|apply memoizeN_step_ok].
  split; [apply sound_nil|]. split; [reflexivity|constructor].
Qed.

Lemma memoizeN_step_len n s k : invN s -> 1 <= n -> length (cacheN s) <= n ->
  length (cacheN (fst (memoizeN_step Keq f n s k))) <= n.
Proof.
  intros H Hp Hl. unfold memoizeN_step. pose proof (evict_len n s H Hp Hl).
  destruct (find Keq k (cacheN (evict Keq n s))); [cbn; lia|].
  destruct (f k); cbn; lia.
Qed.

Lemma memoizeN_bounded n ks : 1 <= n ->
  let s := fst (run (memoizeN_step Keq f n) (mkN [] []) ks) in
  length (cacheN s) <= n /\ NoDup (usage s) /\ map fst (cacheN s) = usage s.
Proof.
  intros Hp s.
  assert (invN s /\ length (cacheN s) <= n) as [[_ [H1 H2]] H3]; [|auto].
  unfold s. refine (proj1 (run_ok _ (fun s => invN s /\ length (cacheN s) <= n) _ _ _ _)).
  - split; [|cbn; lia]. split; [apply sound_nil|]. split; [reflexivity|constructor].
  - intros s0 k [Hi Hl]. destruct (memoizeN_step_ok n s0 k Hi). split; [split|]; auto.
    apply memoizeN_step_len; auto.
Qed.

Lemma memoizeN_hit n s k v : length (cacheN s) < n -> find Keq k (cacheN s) = Some v ->
  memoizeN_step Keq f n s k = (s, mkOut (Some v) false).
Proof.
  intros Hl Hf. unfold memoizeN_step, evict. destruct (Nat.leb_spec n (length (cacheN s))); [lia|].
  rewrite Hf. reflexivity.
Qed.

(** the queue is first-in first-out: a full cache drops the oldest insertion *)
Lemma memoizeN_evicts_oldest n s k l x v : usage s = l ++ [x] -> invN s -> length (cacheN s) = n ->
  k <> x -> ~ In k l -> f k = Some v ->
  usage (fst (memoizeN_step Keq f n s k)) = k :: l.
Proof.
  intros Hu [Hs [Hk Hn]] Hl Hx Hin Hf. unfold memoizeN_step, evict. rewrite Hl, Nat.leb_refl, Hu, back_app.
  cbn [cacheN usage]. rewrite find_erase. destruct (Keq k x); [contradiction|].
  destruct (find Keq k (cacheN s)) eqn:E.
  - exfalso. assert (Hi : In k (map fst (cacheN s))).
    { clear - E. induction (cacheN s) as [|[a b] c IH]; cbn in *; [discriminate|].
      destruct (Keq k a); auto. }
    rewrite Hk, Hu in Hi. apply in_app_iff in Hi. cbn in Hi. intuition congruence.
  - rewrite Hf. cbn. rewrite removelast_last. reflexivity.
Qed.

(** *** memoizeLast *)
Lemma memoizeLast_step_ok s k : f (lastKey s) = Some (lastResult s) -> (exists v, f k = Some v) ->
  let r := memoizeLast_step Keq f s k in
  f (lastKey (fst r)) = Some (lastResult (fst r)) /\ result (snd r) = f k.
Proof.
  intros Hs [v Hv]. unfold memoizeLast_step. destruct (Keq k (lastKey s)) as [->|E]; cbn; auto.
  rewrite Hv. cbn. auto.
Qed.
Lemma memoizeLast_transparent k0 v0 ks : f k0 = Some v0 -> (forall k, In k ks -> exists v, f k = Some v) ->
  map result (snd (run (memoizeLast_step Keq f) (memoizeLast_init k0 v0) ks)) = map f ks.
Proof.
  intros H0. unfold memoizeLast_init.
  assert (Hs : f (lastKey (mkL k0 v0)) = Some (lastResult (mkL k0 v0))) by auto.
  revert Hs. generalize (mkL k0 v0) as s. induction ks as [|k ks IH]; intros s Hs Ht; cbn; auto.
  destruct (memoizeLast_step Keq f s k) as [s1 o] eqn:E.
  pose proof (memoizeLast_step_ok s k Hs (Ht k (or_introl eq_refl))) as [H1 H2]. rewrite E in *. cbn in *.
  specialize (IH s1 H1 (fun k' Hk' => Ht k' (or_intror Hk'))).
  destruct (run (memoizeLast_step Keq f) s1 ks) as [s2 os]. cbn in *. congruence.
Qed.
End MemoP.

(** ** witnesses *)
Definition ex_f (k : nat) : option nat := Some (k + 100).

(** n = 1: the second request for the cached key evicts it and recomputes *)
Lemma hit_recomputed :
  let s := fst (run (memoizeN_step Nat.eq_dec ex_f 1) (mkN [] []) [5]) in
  find Nat.eq_dec 5 (cacheN s) = Some 105 /\ called (snd (memoizeN_step Nat.eq_dec ex_f 1 s 5)) = true.
Proof. split; reflexivity. Qed.

(** n = 3: 1 is used after 2, yet 1 is the entry that goes *)
Lemma not_lru :
  let s := fst (run (memoizeN_step Nat.eq_dec ex_f 3) (mkN [] []) [1; 2; 1; 3; 4]) in
  find Nat.eq_dec 1 (cacheN s) = None /\ find Nat.eq_dec 2 (cacheN s) = Some 102.
Proof. split; reflexivity. Qed.

(** two copies of one closure with n = 1 hold two entries *)
Lemma copies_exceed_bound :
  length (cacheC (fold_left (stepC Nat.eq_dec ex_f 1) [CopyC 0 1; CallC 0 5; CallC 1 6] (mkC [] (fun _ => [])))) = 2.
Proof. reflexivity. Qed.

(** memoizeLast: the default-constructed key returns the default-constructed result, and a
    key whose computation threw returns the previous key's result *)
Definition ex_h (k : nat) : option nat := if Nat.eqb k 3 then None else Some (k + 100).
Lemma memoizeLast_default :
  map result (snd (run (memoizeLast_step Nat.eq_dec ex_h) (memoizeLast_init 0 0) [0])) = [Some 0] /\ ex_h 0 = Some 100.
Proof. split; reflexivity. Qed.
Lemma memoizeLast_throw :
  map result (snd (run (memoizeLast_step Nat.eq_dec ex_h) (memoizeLast_init 0 0) [2; 3; 3])) = [Some 102; None; Some 102] /\ ex_h 3 = None.
Proof. split; reflexivity. Qed.
Lemma memoizeLast_not_transparent :
  (exists (f : nat -> option nat) k0 v0 ks, map result (snd (run (memoizeLast_step Nat.eq_dec f) (memoizeLast_init k0 v0) ks)) <> map f ks) /\
  (exists (f : nat -> option nat) v0 ks, f 0 = Some v0 /\
     map result (snd (run (memoizeLast_step Nat.eq_dec f) (memoizeLast_init 0 v0) ks)) <> map f ks).
Proof.
  split.
  - exists ex_h, 0, 0, [0]. vm_compute. discriminate.
  - exists ex_h, 100, [2; 3; 3]. split; [reflexivity|]. vm_compute. discriminate.
Qed.
