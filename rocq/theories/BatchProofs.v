(** Lemmas about the batch loops. *)
From Coq Require Import String List Bool Arith Reals Lia Lra Permutation.
From Verif Require Import BatchModel.
Import ListNotations.
Open Scope nat_scope.

(** *** lists *)
Lemma upd_some : forall A n (x : A) l, n < length l -> exists l', upd n x l = Some l' /\ length l' = length l /\
  forall k, nth_error l' k = if Nat.eqb k n then Some x else nth_error l k.
Proof.
  intros A n x l. revert n. induction l as [|y l IH]; intros n Hn; [cbn in Hn; lia|]. destruct n as [|n].
  - exists (x :: l). repeat split. intros [|k]; reflexivity.
  - cbn in Hn. destruct (IH n) as (l' & E & L & N); [lia|]. exists (y :: l'). cbn [upd]. rewrite E. split; [reflexivity|]. split; [cbn; lia|].
    intros [|k]; [reflexivity|]. cbn. apply N.
Qed.
Lemma traverse_map : forall A B (f : A -> option B) (g : A -> B) l, (forall x, In x l -> f x = Some (g x)) -> traverse (map f l) = Some (map g l).
Proof.
  intros A B f g l. induction l as [|x l IH]; intros H; [reflexivity|]. cbn. rewrite (H x (or_introl eq_refl)).
  rewrite IH by (intros y Hy; apply H; now right). reflexivity.
Qed.
Lemma traverse_app : forall A (a b : list (option A)) x y, traverse a = Some x -> traverse b = Some y -> traverse (a ++ b)%list = Some (x ++ y)%list.
Proof.
  intros A a. induction a as [|[u|] a IH]; intros b x y Ha Hb; cbn in *; [inversion Ha; exact Hb| |discriminate].
  destruct (traverse a) as [r|]; [|discriminate]. inversion Ha. rewrite (IH b r y eq_refl Hb). reflexivity.
Qed.
Lemma traverse_flat : forall A B C (f : A -> B -> option C) (g : A -> B -> C) l m, (forall x y, In x l -> In y m -> f x y = Some (g x y)) ->
  traverse (flat_map (fun x => map (fun y => f x y) m) l) = Some (flat_map (fun x => map (fun y => g x y) m) l).
Proof.
  intros A B C f g l m. induction l as [|x l IH]; intros H; [reflexivity|]. cbn [flat_map]. apply traverse_app.
  - apply traverse_map. intros y Hy. apply H; [now left|exact Hy].
  - apply IH. intros x' y Hx Hy. apply H; [now right|exact Hy].
Qed.
Lemma map_seq_nth : forall A B (f : A -> B) (d : A) l, map (fun i => f (nth i l d)) (seq 0 (length l)) = map f l.
Proof.
  intros A B f d l. induction l as [|x l IH]; [reflexivity|]. cbn [length seq map nth]. f_equal.
  rewrite <- seq_shift, map_map. exact IH.
Qed.
Lemma flat_map_seq_nth : forall A B (f : A -> list B) (d : A) l, flat_map (fun i => f (nth i l d)) (seq 0 (length l)) = flat_map f l.
Proof. intros. rewrite !flat_map_concat_map. f_equal. apply map_seq_nth. Qed.
Lemma nth_error_nth' : forall A (l : list A) n d, n < length l -> nth_error l n = Some (nth n l d).
Proof. intros A l n d H. now apply nth_error_nth'. Qed.

Section Batch.
Variable V : Type.
Variable ask : string -> R -> R -> R * (string -> option V).
Variables toT toP fromP : R -> R.
Notation calc := (calculate V ask toT toP fromP).
Notation cellF := (cell V ask toT toP fromP).

(** pressure held for a pair after the symbols [ss] were calculated *)
Definition Pafter (T P : R) (ss : list string) : R := fold_left (fun p s => fromP (fst (ask s (toT T) (toP p)))) ss P.
(** what is stored for the k-th symbol at the pair (T,P) *)
Definition stored (symbols names : list string) (T P : R) (k : nat) : list V :=
  select V names (snd (ask (nth k symbols ""%string) (toT T) (toP (Pafter T P (firstn k symbols))))).

Lemma firstn_S : forall A k (l : list A) d, k < length l -> firstn (S k) l = (firstn k l ++ [nth k l d])%list.
Proof. induction k as [|k IH]; intros [|x l] d H; cbn in *; try lia; [reflexivity|]. f_equal. now rewrite (IH l d) by lia. Qed.
Lemma Pafter_S : forall T P k symbols, k < length symbols ->
  Pafter T P (firstn (S k) symbols) = fromP (fst (ask (nth k symbols ""%string) (toT T) (toP (Pafter T P (firstn k symbols))))).
Proof. intros T P k symbols H. rewrite (firstn_S _ k symbols ""%string H). unfold Pafter. rewrite fold_left_app. reflexivity. Qed.

Section Run.
Variables (tpFirst : bool) (symbols names : list string) (ps0 : list (R * R)).
Let np := length ps0.
Let ns := length symbols.
Let jn := if tpFirst then np else ns.
Let im := if tpFirst then ns else np.
(** pair and symbol index of a cell *)
Definition pk (c : nat * nat) : nat * nat := if tpFirst then (fst c, snd c) else (snd c, fst c).
Definition idx (c : nat * nat) : nat := jn * snd c + fst c.
Definition ok (c : nat * nat) : Prop := fst c < jn /\ snd c < im.
(** the symbols come in order for each pair *)
Fixpoint inorder (cnt : nat -> nat) (L : list (nat * nat)) : Prop :=
  match L with
  | [] => True
  | c :: L' => snd (pk c) = cnt (fst (pk c)) /\ inorder (fun p => if Nat.eqb p (fst (pk c)) then S (cnt p) else cnt p) L'
  end.
Fixpoint times (p : nat) (L : list (nat * nat)) : nat :=
  match L with [] => 0 | c :: L' => (if Nat.eqb p (fst (pk c)) then 1 else 0) + times p L' end.
Lemma ok_pk : forall c, ok c -> fst (pk c) < np /\ snd (pk c) < ns.
Proof. intros c [H1 H2]. unfold pk, jn, im in *. destruct tpFirst; cbn; auto. Qed.
Lemma idx_lt : forall c, ok c -> idx c < jn * im.
Proof. intros c [H1 H2]. unfold idx. nia. Qed.
Lemma idx_inj : forall c c', ok c -> ok c' -> idx c = idx c' -> c = c'.
Proof.
  intros [j i] [j' i'] [H1 H2] [H3 H4] E. unfold idx in E. cbn [fst snd] in *.
  assert (i = i') by nia. subst. f_equal. lia.
Qed.
Definition val (c : nat * nat) : list V :=
  let '(T, P) := nth (fst (pk c)) ps0 (0, 0)%R in stored symbols names T P (snd (pk c)).
Definition callOf (c : nat * nat) : string * R * R :=
  let '(T, P) := nth (fst (pk c)) ps0 (0, 0)%R in (nth (snd (pk c)) symbols ""%string, toT T, toP (Pafter T P (firstn (snd (pk c)) symbols))).
Definition pairAt (p n : nat) : R * R := let '(T, P) := nth p ps0 (0, 0)%R in (T, Pafter T P (firstn n symbols)).
Lemma run_cells : forall L cnt st, inorder cnt L -> (forall c, In c L -> ok c) ->
  length (bp V st) = np -> length (br V st) = jn * im -> (forall p, p < np -> nth_error (bp V st) p = Some (pairAt p (cnt p))) ->
  exists st', fold_left (fun a c => match a with Some st => cellF tpFirst symbols names jn (fst c) (snd c) st | None => None end) L (Some st) = Some st' /\
    length (bp V st') = np /\ length (br V st') = jn * im /\
    (forall p, p < np -> nth_error (bp V st') p = Some (pairAt p (cnt p + times p L))) /\
    (forall c, In c L -> nth_error (br V st') (idx c) = Some (val c)) /\
    (forall c, ok c -> ~ In c L -> nth_error (br V st') (idx c) = nth_error (br V st) (idx c)) /\
    bl V st' = (bl V st ++ map callOf L)%list.
Proof.
  induction L as [|c L IH]; intros cnt st Hin Hok Hl1 Hl2 Hp.
  - exists st. cbn. split; [reflexivity|]. repeat split; try assumption; [intros p Hpn; rewrite Nat.add_0_r; now apply Hp|intros c []|now rewrite app_nil_r].
  - cbn [inorder] in Hin. destruct Hin as [Hk Hin]. pose proof (Hok c (or_introl eq_refl)) as Hc. destruct (ok_pk c Hc) as [Pp Pk].
    assert (E : exists st1, cellF tpFirst symbols names jn (fst c) (snd c) st = Some st1 /\ length (bp V st1) = np /\ length (br V st1) = jn * im /\
      (forall p, nth_error (bp V st1) p = if Nat.eqb p (fst (pk c)) then Some (pairAt p (S (cnt p))) else nth_error (bp V st) p) /\
      (forall x, nth_error (br V st1) x = if Nat.eqb x (idx c) then Some (val c) else nth_error (br V st) x) /\
      bl V st1 = (bl V st ++ [callOf c])%list).
    { unfold cell. replace (if tpFirst then (fst c, snd c) else (snd c, fst c)) with (pk c) by reflexivity.
      destruct (pk c) as [p k] eqn:Ec. cbn [fst snd] in *. rewrite (Hp p Pp). unfold pairAt.
      destruct (nth p ps0 (0, 0)%R) as [T P] eqn:En.
      subst k. rewrite (nth_error_nth' _ symbols (cnt p) ""%string Pk).
      destruct (ask (nth (cnt p) symbols ""%string) (toT T) (toP (Pafter T P (firstn (cnt p) symbols)))) as [P' f] eqn:Ea.
      destruct (upd_some _ (jn * snd c + fst c) (select V names f) (br V st)) as (r & Er & Lr & Nr); [rewrite Hl2; now apply idx_lt|].
      destruct (upd_some _ p (T, fromP P') (bp V st)) as (q & Eq & Lq & Nq); [lia|].
      rewrite Er, Eq. eexists. split; [reflexivity|]. cbn [bp br bl]. split; [lia|]. split; [lia|]. split; [|split].
      - intros p'. rewrite Nq. destruct (Nat.eqb_spec p' p) as [->|_]; [|reflexivity]. unfold pairAt. rewrite En. do 2 f_equal.
        rewrite Pafter_S by exact Pk. rewrite Ea. reflexivity.
      - intros x. rewrite Nr. fold (idx c). destruct (Nat.eqb x (idx c)); [|reflexivity]. f_equal. unfold val. rewrite Ec. cbn [fst snd]. rewrite En.
        unfold stored. rewrite Ea. reflexivity.
      - f_equal. f_equal. unfold callOf. rewrite Ec. cbn [fst snd]. rewrite En. reflexivity. }
    destruct E as (st1 & E1 & L1 & L2 & N1 & N2 & N3).
    destruct (IH _ st1 Hin (fun c' Hc' => Hok c' (or_intror Hc')) L1 L2) as (st' & E' & L1' & L2' & A & B & C & D).
    { intros p Hpn. rewrite N1. destruct (Nat.eqb_spec p (fst (pk c))) as [->|_]; [reflexivity|]. now apply Hp. }
    exists st'. cbn [fold_left]. rewrite E1. split; [exact E'|]. split; [exact L1'|]. split; [exact L2'|]. split; [|split; [|split]].
    + intros p Hpn. rewrite A by exact Hpn. f_equal. f_equal. cbn [times]. destruct (Nat.eqb p (fst (pk c))); lia.
    + intros c' [<-|Hc'].
      * assert (DD : forall a b : nat * nat, {a = b} + {a <> b}) by (decide equality; apply Nat.eq_dec). destruct (in_dec DD c L) as [Hi|Hi]; [now apply B|].
        rewrite C by assumption. rewrite N2. now rewrite Nat.eqb_refl.
      * now apply B.
    + intros c' Hok' Hn. rewrite C; [|exact Hok'|intros Hi; apply Hn; now right]. rewrite N2. destruct (Nat.eqb_spec (idx c') (idx c)) as [Ei|_]; [|reflexivity].
      exfalso. apply Hn. left. symmetry. now apply idx_inj.
    + rewrite D, N3, <- app_assoc. reflexivity.
Qed.
(** both loop orders visit the symbols in order *)
Lemma inorder_app : forall L L' cnt, inorder cnt L -> inorder (fun p => cnt p + times p L) L' -> inorder cnt (L ++ L')%list.
Proof using tpFirst.
  clear jn im ns np ps0 symbols names.
  induction L as [|c L IH]; intros L' cnt H H'.
  - cbn in *. assert (E : forall L cnt cnt', (forall p, cnt p = cnt' p) -> inorder cnt L -> inorder cnt' L).
    { clear. induction L as [|c L IH]; intros cnt cnt' E H; [exact I|]. cbn in *. destruct H as [H1 H2]. split; [now rewrite <- E|].
      eapply IH; [|exact H2]. intros p. cbn. now rewrite E. }
    eapply E; [|exact H']. intros p. cbn. lia.
  - cbn [app inorder] in *. destruct H as [H1 H2]. split; [exact H1|]. apply IH; [exact H2|].
    assert (E : forall L cnt cnt', (forall p, cnt p = cnt' p) -> inorder cnt L -> inorder cnt' L).
    { clear. induction L as [|c L IH]; intros cnt cnt' E H; [exact I|]. cbn in *. destruct H as [H1 H2]. split; [now rewrite <- E|].
      eapply IH; [|exact H2]. intros p. cbn. now rewrite E. }
    eapply E; [|exact H']. intros p. cbn [times]. destruct (Nat.eqb p (fst (pk c))); lia.
Qed.
Lemma inorder_ext : forall L cnt cnt', (forall p, cnt p = cnt' p) -> inorder cnt L -> inorder cnt' L.
Proof using tpFirst.
  clear jn im ns np ps0 symbols names.
  induction L as [|c L IH]; intros cnt cnt' E H; [exact I|]. cbn in *. destruct H as [H1 H2]. split; [now rewrite <- E|].
  eapply IH; [|exact H2]. intros p. cbn. now rewrite E.
Qed.
Lemma times_app : forall p L L', times p (L ++ L')%list = times p L + times p L'.
Proof using tpFirst.
  clear jn im ns np ps0 symbols names. intros p L L'. induction L as [|c L IH]; cbn; [reflexivity|]. rewrite IH. lia. Qed.
End Run.

Lemma inorder_tp : forall n m, inorder true (fun _ => 0) (cells n m) /\ forall p, times true p (cells n m) = if Nat.ltb p n then m else 0.
Proof.
  intros n m. assert (row : forall j k, inorder true (fun p => if Nat.eqb p j then k else 0) (map (fun i => (j, i)) (seq k m)) ->  True) by auto. clear row.
  assert (R : forall m k j cnt, cnt j = k -> inorder true cnt (map (fun i => (j, i)) (seq k m)) /\ forall p, times true p (map (fun i => (j, i)) (seq k m)) = if Nat.eqb p j then m else 0).
  { clear. induction m as [|m IH]; intros k j cnt E; cbn [seq map inorder times pk fst snd].
    - split; [exact I|]. intros p. destruct (Nat.eqb p j); reflexivity.
    - destruct (IH (S k) j (fun p => if Nat.eqb p j then S (cnt p) else cnt p)) as [A B]; [rewrite Nat.eqb_refl; congruence|].
      split; [split; [congruence|exact A]|]. intros p. rewrite B. destruct (Nat.eqb p j); lia. }
  unfold cells. assert (G : forall n a cnt, (forall p, a <= p -> cnt p = 0) ->
     inorder true cnt (flat_map (fun j => map (fun i => (j, i)) (seq 0 m)) (seq a n)) /\
     forall p, times true p (flat_map (fun j => map (fun i => (j, i)) (seq 0 m)) (seq a n)) = if (Nat.leb a p && Nat.ltb p (a + n))%bool then m else 0).
  { clear n. induction n as [|n IH]; intros a cnt Hc; cbn [seq flat_map].
    - split; [exact I|]. intros p. cbn [times]. destruct (Nat.leb_spec a p), (Nat.ltb_spec p (a + 0)); cbn [andb]; lia || reflexivity.
    - destruct (R m 0 a cnt (Hc a (le_n a))) as [A B]. destruct (IH (S a) (fun p => cnt p + times true p (map (fun i => (a, i)) (seq 0 m)))) as [C D].
      { intros p Hp. rewrite B, Hc by lia. destruct (Nat.eqb_spec p a); lia. }
      split; [exact (inorder_app _ _ _ _ A C)|]. intros p. rewrite times_app, B, D.
      destruct (Nat.eqb_spec p a), (Nat.leb_spec (S a) p), (Nat.ltb_spec p (S a + n)), (Nat.leb_spec a p), (Nat.ltb_spec p (a + S n)); cbn; lia. }
  destruct (G n 0 (fun _ => 0)) as [A B]; [reflexivity|]. split; [exact A|]. intros p. rewrite B. reflexivity.
Qed.
Lemma inorder_sym : forall n m, inorder false (fun _ => 0) (cells n m) /\ forall p, times false p (cells n m) = if Nat.ltb p m then n else 0.
Proof.
  intros n m.
  assert (R : forall m k j cnt, (forall p, k <= p < k + m -> cnt p = j) -> inorder false cnt (map (fun i => (j, i)) (seq k m)) /\
     forall p, times false p (map (fun i => (j, i)) (seq k m)) = if (Nat.leb k p && Nat.ltb p (k + m))%bool then 1 else 0).
  { clear. induction m as [|m IH]; intros k j cnt E; cbn [seq map inorder times pk fst snd].
    - split; [exact I|]. intros p. destruct (Nat.leb_spec k p), (Nat.ltb_spec p (k + 0)); cbn; lia || reflexivity.
    - destruct (IH (S k) j (fun p => if Nat.eqb p k then S (cnt p) else cnt p)) as [A B].
      { intros p Hp. destruct (Nat.eqb_spec p k); [lia|]. apply E. lia. }
      split; [split; [symmetry; apply E; lia|exact A]|]. intros p. rewrite B.
      destruct (Nat.eqb_spec p k), (Nat.leb_spec (S k) p), (Nat.ltb_spec p (S k + m)), (Nat.leb_spec k p), (Nat.ltb_spec p (k + S m)); cbn; lia. }
  unfold cells. assert (G : forall n a cnt, (forall p, p < m -> cnt p = a) ->
     inorder false cnt (flat_map (fun j => map (fun i => (j, i)) (seq 0 m)) (seq a n)) /\
     forall p, times false p (flat_map (fun j => map (fun i => (j, i)) (seq 0 m)) (seq a n)) = if Nat.ltb p m then n else 0).
  { clear n. induction n as [|n IH]; intros a cnt Hc; cbn [seq flat_map].
    - split; [exact I|]. intros p. cbn [times]. destruct (Nat.ltb p m); reflexivity.
    - destruct (R m 0 a cnt) as [A B]. { intros p Hp. apply Hc. lia. }
      destruct (IH (S a) (fun p => cnt p + times false p (map (fun i => (a, i)) (seq 0 m)))) as [C D].
      { intros p Hp. rewrite B, Hc by lia. destruct (Nat.leb_spec 0 p), (Nat.ltb_spec p (0 + m)); cbn; lia. }
      split; [exact (inorder_app _ _ _ _ A C)|]. intros p. rewrite times_app, B, D.
      destruct (Nat.leb_spec 0 p), (Nat.ltb_spec p (0 + m)), (Nat.ltb_spec p m); cbn; lia. }
  apply (G n 0 (fun _ => 0)). reflexivity.
Qed.
Lemma in_cells : forall n m c, In c (cells n m) <-> fst c < n /\ snd c < m.
Proof.
  intros n m [j i]. unfold cells. rewrite in_flat_map. cbn [fst snd]. split.
  - intros (x & Hx & Hi). apply in_map_iff in Hi. destruct Hi as (y & E & Hy). inversion E; subst. apply in_seq in Hx. apply in_seq in Hy. lia.
  - intros [H1 H2]. exists j. split; [apply in_seq; lia|]. apply in_map. apply in_seq. lia.
Qed.
(** rows of pairs are kept by addPairs *)
Lemma addPairs_pairs : forall l, pairs (addPairs l) = l.
Proof.
  intros l. unfold addPairs. assert (G : forall l t, pairs (fold_left addTPpair l t) = (pairs t ++ l)%list).
  { clear. induction l as [|p l IH]; intros t; cbn; [now rewrite app_nil_r|]. rewrite IH. cbn. now rewrite <- app_assoc. }
  apply G.
Qed.

(** *** what calculate leaves behind *)
Lemma calculate_all : forall tpFirst symbols names t, exists t' res log, calc tpFirst symbols names t = Some (t', res, log) /\
  length (pairs t') = length (pairs t) /\ length res = length symbols * length (pairs t) /\
  t' = addPairs (pairs t') /\
  (forall p T P, nth_error (pairs t) p = Some (T, P) -> nth_error (pairs t') p = Some (T, Pafter T P symbols)) /\
  (forall p k T P, nth_error (pairs t) p = Some (T, P) -> k < length symbols ->
     nth_error res (if tpFirst then length (pairs t) * k + p else length symbols * p + k) = Some (stored symbols names T P k)) /\
  log = map (callOf tpFirst symbols (pairs t)) (cells (if tpFirst then length (pairs t) else length symbols) (if tpFirst then length symbols else length (pairs t))).
Proof.
  intros tpFirst symbols names t. unfold calculate.
  set (jn := if tpFirst then length (pairs t) else length symbols). set (im := if tpFirst then length symbols else length (pairs t)).
  assert (IO : inorder tpFirst (fun _ => 0) (cells jn im) /\ forall p, p < length (pairs t) -> times tpFirst p (cells jn im) = length symbols).
  { unfold jn, im. destruct tpFirst.
    - destruct (inorder_tp (length (pairs t)) (length symbols)) as [A B]. split; [exact A|]. intros p Hp. rewrite B. now apply Nat.ltb_lt in Hp as ->.
    - destruct (inorder_sym (length symbols) (length (pairs t))) as [A B]. split; [exact A|]. intros p Hp. rewrite B. now apply Nat.ltb_lt in Hp as ->. }
  destruct IO as [IO TM].
  destruct (run_cells tpFirst symbols names (pairs t) (cells jn im) (fun _ => 0) (mkB V (pairs t) (repeat [] (jn * im)) []) IO) as ([ps r lg] & E & L1 & L2 & A & B & _ & D).
  - intros c Hc. apply in_cells in Hc. exact Hc.
  - reflexivity.
  - cbn [br]. now rewrite repeat_length.
  - intros p Hp. cbn [bp]. rewrite (nth_error_nth' _ _ _ (0, 0)%R Hp). unfold pairAt. destruct (nth p (pairs t) (0, 0)%R); reflexivity.
  - fold jn in E. rewrite E. cbn [bp br bl] in *. exists (addPairs ps), r, lg. split; [reflexivity|]. rewrite addPairs_pairs. split; [exact L1|].
    split; [rewrite L2; unfold jn, im; destruct tpFirst; lia|]. split; [reflexivity|]. split; [|split].
    + intros p T P Hp. assert (Hl : p < length (pairs t)) by (apply nth_error_Some; congruence). rewrite A by exact Hl. rewrite TM by exact Hl.
      unfold pairAt. rewrite (nth_error_nth' _ _ _ (0, 0)%R Hl) in Hp. inversion Hp as [Hn]. rewrite Hn. cbn [Nat.add]. now rewrite firstn_all.
    + intros p k T P Hp Hk. assert (Hl : p < length (pairs t)) by (apply nth_error_Some; congruence).
      rewrite (nth_error_nth' _ _ _ (0, 0)%R Hl) in Hp. inversion Hp as [Hn].
      specialize (B (if tpFirst then (p, k) else (k, p))). unfold idx, val, pk in B.
      destruct tpFirst; cbn [fst snd] in B; rewrite Hn in B; apply B; apply in_cells; unfold jn, im; cbn; lia.
    + exact D.
Qed.
End Batch.
