(** Copies of substances and databases are independent: the memory model refines the model of plain values. *)
From Coq Require Import List Bool Arith String Lia.
From Verif Require Import AliasModel.
Import ListNotations.

Lemma upd_eq : forall (A : Type) (f : nat -> A) x v, upd f x v x = v.
Proof. intros. unfold upd. now rewrite Nat.eqb_refl. Qed.
Lemma upd_ne : forall (A : Type) (f : nat -> A) x v y, y <> x -> upd f x v y = f y.
Proof. intros A f x v y H. unfold upd. destruct (Nat.eqb_spec y x); [contradiction|reflexivity]. Qed.

Section Handles.
Context {S : Type}.
Implicit Types (m : mem S) (l : entries).
Definition view (h : nat -> S) l : list (string * S) := map (fun p => (fst p, h (snd p))) l.

Inductive owner := OS (x : nat) | OD (d i : nat).
Definition own m (o : owner) (a : nat) : Prop :=
  match o with OS x => sv m x = Some a | OD d i => exists b, dv m d = Some b /\ nth_error (map snd (dh m b)) i = Some a end.
Record inv m : Prop := mkInv {
  iv_b : forall o a, own m o a -> a < sn m;
  iv_u : forall o o' a, own m o a -> own m o' a -> o = o';
  iv_db : forall d b, dv m d = Some b -> b < dn m;
  iv_du : forall d e b, dv m d = Some b -> dv m e = Some b -> d = e }.
Definition rel m (v : vals S) : Prop := (forall x, see_s m x = vs v x) /\ (forall d, see_d m d = vd v d).

Lemma view_ext : forall (h h' : nat -> S) l, (forall a, In a (map snd l) -> h' a = h a) -> view h' l = view h l.
Proof. intros h h' l H. unfold view. apply map_ext_in. intros [k a] I. cbn. f_equal. apply H. apply in_map_iff. exists (k, a). now split. Qed.
Lemma find_view : forall (h : nat -> S) k l, vfind k (view h l) = option_map h (find k l).
Proof. intros h k l. induction l as [|[k' a] r IH]; [reflexivity|]. cbn. destruct (String.eqb k' k); [reflexivity|exact IH]. Qed.
Lemma find_in : forall k l a, find k l = Some a -> In a (map snd l).
Proof. intros k l a. induction l as [|[k' b] r IH]; cbn; [discriminate|]. destruct (String.eqb k' k); [intros E; injection E; auto|intro E; right; now apply IH]. Qed.
Lemma repl_view : forall (h : nat -> S) k c w l, h c = w -> view h (repl k c l) = vrepl k w (view h l).
Proof. intros h k c w l Hc. induction l as [|[k' b] r IH]; [reflexivity|]. cbn. destruct (String.eqb k' k); cbn; [now rewrite Hc|]. f_equal. exact IH. Qed.
Lemma repl_nth : forall k c l i a, nth_error (map snd (repl k c l)) i = Some a -> nth_error (map snd l) i = Some a \/ a = c.
Proof.
  intros k c l. induction l as [|[k' b] r IH]; [now left|]. cbn. destruct (String.eqb k' k); intros [|i] a; cbn; intro E; auto.
  - injection E as ->. now right.
Qed.
Lemma repl_nth_c : forall k c l, ~ In c (map snd l) -> forall i j, nth_error (map snd (repl k c l)) i = Some c -> nth_error (map snd (repl k c l)) j = Some c -> i = j.
Proof.
  intros k c l. induction l as [|[k' b] r IH]; cbn; intros N i j Hi Hj.
  - destruct i; discriminate.
  - destruct (String.eqb k' k); destruct i as [|i], j as [|j]; cbn in Hi, Hj; try reflexivity.
    + exfalso. apply N. right. now apply nth_error_In with j.
    + exfalso. apply N. right. now apply nth_error_In with i.
    + exfalso. apply N. right. now apply nth_error_In with i.
    + injection Hi as ->. exfalso. apply N. now left.
    + injection Hj as ->. exfalso. apply N. now left.
    + f_equal. apply IH; auto.
Qed.
Lemma upd_view_other : forall (h : nat -> S) b w l, ~ In b (map snd l) -> view (upd h b w) l = view h l.
Proof. intros h b w l N. apply view_ext. intros a I. apply upd_ne. intros ->. contradiction. Qed.
Lemma upd_view : forall (h : nat -> S) k b w l, find k l = Some b -> NoDup (map snd l) -> view (upd h b w) l = vrepl k w (view h l).
Proof.
  intros h k b w l. induction l as [|[k' a] r IH]; cbn; [discriminate|]. intros F N. inversion N as [|? ? N1 N2]; subst. destruct (String.eqb k' k).
  - injection F as ->. rewrite upd_eq. f_equal. now apply upd_view_other.
  - rewrite upd_ne; [|intros ->; apply N1; now apply find_in with k]. f_equal. now apply IH.
Qed.

Lemma copy_entries_spec : forall l m m' l', copy_entries m l = (m', l') ->
  sn m' = sn m + List.length l /\ dh m' = dh m /\ dn m' = dn m /\ sv m' = sv m /\ dv m' = dv m /\
  (forall a, a < sn m -> sh m' a = sh m a) /\ map snd l' = seq (sn m) (List.length l) /\
  ((forall a, In a (map snd l) -> a < sn m) -> view (sh m') l' = view (sh m) l).
Proof.
  induction l as [|[k a] r IH]; intros m m' l' E.
  - cbn in E. injection E as <- <-. cbn. rewrite Nat.add_0_r. repeat split; auto.
  - cbn [copy_entries] in E. unfold scopy, salloc in E. cbv beta iota in E.
    set (m1 := mkMem (upd (sh m) (sn m) (sh m a)) (Datatypes.S (sn m)) (dh m) (dn m) (sv m) (dv m)) in *.
    destruct (copy_entries m1 r) as [m2 r'] eqn:E2. injection E as <- <-. apply IH in E2. destruct E2 as [A [B [C [D [F [G [H I]]]]]]].
    cbn [sn dh dn sv dv sh] in *. cbn [List.length map snd seq]. split; [rewrite A; cbn; lia|]. repeat (split; [assumption|]). split; [|split].
    + intros b Hb. rewrite G by (cbn; lia). cbn. apply upd_ne. lia.
    + f_equal. exact H.
    + intros Hl. cbn. rewrite G by (cbn; lia). cbn. rewrite upd_eq. f_equal.
      unfold view in I |- *. rewrite I; [|intros b Hb; specialize (Hl b (or_intror Hb)); cbn; lia].
      apply view_ext. intros b Hb. specialize (Hl b (or_intror Hb)). cbn. apply upd_ne. lia.
Qed.

(** giving a fresh cell, or a list of fresh cells, to one owner *)
Lemma own_lt_in : forall m d b a, inv m -> dv m d = Some b -> In a (map snd (dh m b)) -> a < sn m.
Proof. intros m d b a I E H. apply In_nth_error in H. destruct H as [i Hi]. apply (iv_b m I (OD d i)). exists b. now split. Qed.
Lemma own_nodup : forall m d b, inv m -> dv m d = Some b -> NoDup (map snd (dh m b)).
Proof.
  intros m d b I E. apply NoDup_nth_error. intros i j Hi H.
  assert (Q : exists a, nth_error (map snd (dh m b)) i = Some a) by (apply nth_error_Some in Hi; destruct (nth_error (map snd (dh m b)) i); [eauto|congruence]). destruct Q as [a Ha].
  assert (O := iv_u m I (OD d i) (OD d j) a (ex_intro _ b (conj E Ha)) (ex_intro _ b (conj E (eq_trans (eq_sym H) Ha)))). now injection O.
Qed.

Lemma rel_s : forall m v x, rel m v -> vs v x = option_map (sh m) (sv m x). Proof. intros m v x [A _]. now rewrite <- A. Qed.
Lemma rel_d : forall m v d, rel m v -> vd v d = option_map (fun b => view (sh m) (dh m b)) (dv m d). Proof. intros m v d [_ B]. now rewrite <- B. Qed.

(** a variable gets a new cell holding w *)
Lemma fresh_s : forall m v x w, inv m -> rel m v ->
  let m' := set_sv (fst (salloc m w)) x (Some (snd (salloc m w))) in inv m' /\ rel m' (mkVals (upd (vs v) x (Some w)) (vd v)).
Proof.
  intros m v x w I [R1 R2] m'. assert (OO : forall o a, own m' o a -> (o = OS x /\ a = sn m) \/ own m o a).
  { intros [y|d i] a H; cbn in H; [|now right]. unfold upd in H. destruct (Nat.eqb_spec y x); [injection H as <-; subst; now left|now right]. }
  split; [split|split].
  - intros o a H. cbn. apply OO in H. destruct H as [[_ ->]|H]; [lia|apply (iv_b m I) in H; lia].
  - intros o o' a H H'. apply OO in H. apply OO in H'. destruct H as [[-> ->]|H], H' as [[-> E]|H']; try reflexivity.
    + apply (iv_b m I) in H'. lia.
    + subst a. apply (iv_b m I) in H. lia.
    + now apply (iv_u m I) with a.
  - exact (iv_db m I).
  - exact (iv_du m I).
  - intro y. unfold see_s, m', set_sv. cbn. unfold upd at 2 3. destruct (Nat.eqb_spec y x); [cbn; now rewrite upd_eq|].
    rewrite <- R1. unfold see_s. destruct (sv m y) as [a|] eqn:E; [|reflexivity]. cbn. f_equal. apply upd_ne. assert (Q := iv_b m I (OS y) a E). lia.
  - intro d. unfold see_d, m', set_sv. cbn. rewrite <- R2. unfold see_d. destruct (dv m d) as [b|] eqn:E; [|reflexivity]. cbn. f_equal.
    apply (view_ext (sh m)). intros a Ha. apply upd_ne. apply (own_lt_in m d b a I E) in Ha. lia.
Qed.
(** the copy of a database *)
Lemma fresh_d : forall m v d e b, inv m -> rel m v -> dv m e = Some b ->
  let m' := set_dv (fst (dcopy m b)) d (Some (snd (dcopy m b))) in inv m' /\ rel m' (mkVals (vs v) (upd (vd v) d (vd v e))).
Proof.
  intros m v d e b I R Hb m'. assert (Hd := rel_d m v e R). rewrite Hb in Hd. cbn in Hd. destruct R as [R1 R2].
  unfold m', dcopy. destruct (copy_entries m (dh m b)) as [m1 l] eqn:E. cbn [fst snd]. clear m'.
  apply copy_entries_spec in E. destruct E as [A [B [C [D [F [G [H J]]]]]]].
  set (m' := set_dv _ _ _).
  assert (OO : forall o a, own m' o a -> (exists i, o = OD d i /\ nth_error (seq (sn m) (List.length (dh m b))) i = Some a) \/ (own m o a /\ forall i, o <> OD d i)).
  { intros [y|f i] a K; cbn in K.
    - right. rewrite D in K. split; [exact K|discriminate].
    - destruct K as [c [K1 K2]]. unfold upd in K1 at 1. rewrite F in K1. destruct (Nat.eqb_spec f d) as [->|Nf].
      + injection K1 as <-. rewrite upd_eq, H in K2. left. exists i. now split.
      + right. split; [|intros j Q; injection Q; congruence]. exists c. split; [exact K1|]. rewrite upd_ne, B in K2; [exact K2|].
        rewrite C. apply (iv_db m I) in K1. lia. }
  assert (SQ : forall n k i a, nth_error (seq n k) i = Some a -> a = n + i /\ i < k).
  { intros n k i a K. assert (Li : i < k) by (rewrite <- (seq_length k n); apply nth_error_Some; congruence). split; [|exact Li].
    rewrite (nth_error_nth' (seq n k) 0) in K by (now rewrite seq_length). rewrite seq_nth in K by exact Li. now injection K. }
  split; [split|split].
  - intros o a K. cbn. rewrite A. apply OO in K. destruct K as [[i [_ K]]|[K _]]; [apply SQ in K; lia|apply (iv_b m I) in K; lia].
  - intros o o' a K K'. apply OO in K. apply OO in K'. destruct K as [[i [-> K]]|[K N]], K' as [[j [-> K']]|[K' N']].
    + apply SQ in K. apply SQ in K'. f_equal. lia.
    + apply SQ in K. apply (iv_b m I) in K'. lia.
    + apply SQ in K'. apply (iv_b m I) in K. lia.
    + now apply (iv_u m I) with a.
  - intros f c K. cbn in K |- *. rewrite C. unfold upd in K. rewrite F in K. destruct (Nat.eqb f d); [injection K as <-; rewrite C; lia|apply (iv_db m I) in K; lia].
  - intros f g c K K'. cbn in K, K'. unfold upd in K, K'. rewrite F, C in *. destruct (Nat.eqb_spec f d), (Nat.eqb_spec g d); subst; try reflexivity.
    + injection K as <-. apply (iv_db m I) in K'. lia.
    + injection K' as <-. apply (iv_db m I) in K. lia.
    + now apply (iv_du m I) with c.
  - intro y. unfold see_s, m'. cbn. rewrite D. rewrite <- R1. unfold see_s. destruct (sv m y) as [a|] eqn:E; [|reflexivity]. cbn. f_equal.
    apply G. exact (iv_b m I (OS y) a E).
  - intro f. unfold see_d, m'. cbn. unfold upd at 2 3. destruct (Nat.eqb_spec f d).
    + cbn. rewrite upd_eq. rewrite Hd. f_equal. apply J. intros a Ha. now apply (own_lt_in m e b).
    + rewrite F, <- R2. unfold see_d. destruct (dv m f) as [c|] eqn:E; [|reflexivity]. cbn. f_equal.
      rewrite upd_ne by (rewrite C; apply (iv_db m I) in E; lia). rewrite B. apply (view_ext (sh m)). intros a Ha. apply G. now apply (own_lt_in m f c).
Qed.
(** one cell changes: only its owner sees it *)
Lemma mut_inv : forall m a w, inv m -> inv (set_sh m a w).
Proof. intros m a w [A B C D]. split; assumption. Qed.
Lemma mut_s : forall m v x a w, inv m -> rel m v -> sv m x = Some a -> rel (set_sh m a w) (mkVals (upd (vs v) x (Some w)) (vd v)).
Proof.
  intros m v x a w I [R1 R2] E. split.
  - intro y. unfold see_s. cbn. unfold upd at 2. destruct (Nat.eqb_spec y x) as [->|N]; [rewrite E; cbn; now rewrite upd_eq|].
    rewrite <- R1. unfold see_s. destruct (sv m y) as [b|] eqn:F; [|reflexivity]. cbn. f_equal. apply upd_ne. intros ->.
    assert (Q := iv_u m I (OS y) (OS x) a F E). injection Q. exact N.
  - intro d. unfold see_d. cbn. rewrite <- R2. unfold see_d. destruct (dv m d) as [b|] eqn:F; [|reflexivity]. cbn. f_equal.
    apply upd_view_other. intro J. apply In_nth_error in J. destruct J as [i J]. assert (Q := iv_u m I (OD d i) (OS x) a (ex_intro _ b (conj F J)) E). discriminate.
Qed.
Lemma mut_d : forall m v d b k a w, inv m -> rel m v -> dv m d = Some b -> find k (dh m b) = Some a ->
  rel (set_sh m a w) (mkVals (vs v) (upd (vd v) d (Some (vrepl k w (view (sh m) (dh m b)))))).
Proof.
  intros m v d b k a w I [R1 R2] E F. assert (J := find_in _ _ _ F). apply In_nth_error in J. destruct J as [i J].
  assert (O : own m (OD d i) a) by (exists b; now split). split.
  - intro y. unfold see_s. cbn. rewrite <- R1. unfold see_s. destruct (sv m y) as [c|] eqn:G; [|reflexivity]. cbn. f_equal. apply upd_ne. intros ->.
    assert (Q := iv_u m I (OS y) (OD d i) a G O). discriminate.
  - intro f. unfold see_d. cbn. unfold upd at 2. destruct (Nat.eqb_spec f d) as [->|N].
    + rewrite E. cbn. f_equal. apply (upd_view (sh m) k a w); [exact F|now apply own_nodup with d].
    + rewrite <- R2. unfold see_d. destruct (dv m f) as [c|] eqn:G; [|reflexivity]. cbn. f_equal. apply upd_view_other. intro K. apply In_nth_error in K. destruct K as [j K].
      assert (Q := iv_u m I (OD f j) (OD d i) a (ex_intro _ c (conj G K)) O). injection Q. intros _ Q1. exact (N Q1).
Qed.
(** a record is put into a database *)
Lemma put_inv : forall m d b c w l', inv m -> dv m d = Some b -> c = sn m ->
  (forall i a, nth_error (map snd l') i = Some a -> a = c \/ exists j, nth_error (map snd (dh m b)) j = Some a) ->
  NoDup (map snd l') -> inv (set_dh (fst (salloc m w)) b l').
Proof.
  intros m d b c w l' I E -> H U. set (m' := set_dh _ _ _).
  assert (OO : forall o a, own m' o a -> (exists i, o = OD d i /\ nth_error (map snd l') i = Some a) \/ (own m o a /\ forall i, o <> OD d i)).
  { intros [y|f i] a K; cbn in K; [right; split; [exact K|discriminate]|]. destruct K as [x [K1 K2]]. destruct (Nat.eq_dec f d) as [->|N].
    - left. exists i. split; [reflexivity|]. rewrite E in K1. injection K1 as <-. now rewrite upd_eq in K2.
    - right. split; [|intros j Q; injection Q; congruence]. exists x. split; [exact K1|]. rewrite upd_ne in K2; [exact K2|]. intros ->. apply N. now apply (iv_du m I) with b. }
  assert (X : forall o i a, (forall i, o <> OD d i) -> own m o a -> nth_error (map snd l') i = Some a -> False).
  { intros o i a N K L. apply H in L. destruct L as [->|[j L]]; [apply (iv_b m I) in K; lia|]. apply (N j). apply (iv_u m I) with a; [exact K|]. exists b. now split. }
  split.
  - intros o a K. cbn. apply OO in K. destruct K as [[i [-> K]]|[K _]].
    + apply H in K. destruct K as [->|[j K]]; [lia|]. assert (Q := iv_b m I (OD d j) a (ex_intro _ b (conj E K))). lia.
    + apply (iv_b m I) in K. lia.
  - intros o o' a K K'. apply OO in K. apply OO in K'. destruct K as [[i [-> K]]|[K N]], K' as [[j [-> K']]|[K' N']].
    + f_equal. apply (proj1 (NoDup_nth_error (map snd l')) U); [apply nth_error_Some; congruence|congruence].
    + exfalso. now apply (X o' i a).
    + exfalso. now apply (X o j a).
    + now apply (iv_u m I) with a.
  - exact (iv_db m I).
  - exact (iv_du m I).
Qed.
Lemma put_rel : forall m v d b w l' L, inv m -> rel m v -> dv m d = Some b -> view (upd (sh m) (sn m) w) l' = L ->
  rel (set_dh (fst (salloc m w)) b l') (mkVals (vs v) (upd (vd v) d (Some L))).
Proof.
  intros m v d b w l' L I [R1 R2] E V. split.
  - intro y. unfold see_s. cbn. rewrite <- R1. unfold see_s. destruct (sv m y) as [c|] eqn:G; [|reflexivity]. cbn. f_equal. apply upd_ne.
    assert (Q := iv_b m I (OS y) c G). lia.
  - intro f. unfold see_d. cbn. unfold upd at 3. destruct (Nat.eqb_spec f d) as [->|N].
    + rewrite E. cbn. rewrite upd_eq. f_equal. exact V.
    + rewrite <- R2. unfold see_d. destruct (dv m f) as [c|] eqn:G; [|reflexivity]. cbn. f_equal.
      rewrite upd_ne by (intros ->; apply N; now apply (iv_du m I) with b). apply (view_ext (sh m)). intros a Ha. apply upd_ne. apply (own_lt_in m f c a I G) in Ha. lia.
Qed.
Lemma repl_nodup : forall k c l, ~ In c (map snd l) -> NoDup (map snd l) -> NoDup (map snd (repl k c l)).
Proof.
  intros k c l. induction l as [|[k' b] r IH]; cbn; intros N U; [exact U|]. inversion U as [|? ? U1 U2]; subst. destruct (String.eqb k' k); cbn.
  - constructor; [intro Q; apply N; now right|exact U2].
  - constructor; [|apply IH; [intro Q; apply N; now right|exact U2]]. intro Q. apply In_nth_error in Q. destruct Q as [i Q]. apply repl_nth in Q. destruct Q as [Q|Q].
    + apply U1. now apply nth_error_In with i.
    + apply N. left. now subst.
Qed.

Lemma step_sim : forall (o : dop S) m m' v, inv m -> rel m v -> dstep o m = Some m' -> exists v', vstep o v = Some v' /\ inv m' /\ rel m' v'.
Proof.
  intros o m m' v I R E. assert (RS := fun x => rel_s m v x R). assert (RD := fun d => rel_d m v d R).
  destruct o as [x w|x y|x y|x f|d|d e|d e|d k x|d k x|d k f|x d k]; cbn [dstep] in E; cbn [vstep].
  - unfold salloc in E. injection E as <-. eexists. split; [reflexivity|]. exact (fresh_s m v x w I R).
  - rewrite RS. destruct (sv m y) as [b|]; [|discriminate]. unfold scopy, salloc in E. injection E as <-. cbn. eexists. split; [reflexivity|]. exact (fresh_s m v x (sh m b) I R).
  - rewrite (RS x), (RS y). destruct (sv m x) as [c|]; [|discriminate]. destruct (sv m y) as [b|]; [|discriminate]. unfold scopy, salloc in E. injection E as <-. cbn.
    eexists. split; [reflexivity|]. exact (fresh_s m v x (sh m b) I R).
  - rewrite RS. destruct (sv m x) as [a|] eqn:F; [|discriminate]. injection E as <-. cbn. eexists. split; [reflexivity|]. split; [now apply mut_inv|now apply mut_s].
  - injection E as <-. eexists. split; [reflexivity|]. destruct R as [R1 R2]. split; [split|split].
    + intros [y|f i] a K; cbn in K |- *; [exact (iv_b m I (OS y) a K)|]. destruct K as [b [K1 K2]]. unfold upd in K1 at 1. destruct (Nat.eqb_spec f d) as [->|N].
      * injection K1 as <-. rewrite upd_eq in K2. destruct i; discriminate.
      * rewrite upd_ne in K2; [|apply (iv_db m I) in K1; lia]. apply (iv_b m I (OD f i)). exists b. now split.
    + assert (Z : forall o a, own (set_dv (mkMem (sh m) (sn m) (upd (dh m) (dn m) []) (Datatypes.S (dn m)) (sv m) (dv m)) d (Some (dn m))) o a -> own m o a).
      { intros [y|f i] a K; cbn in K |- *; [exact K|]. destruct K as [b [K1 K2]]. unfold upd in K1 at 1. destruct (Nat.eqb_spec f d) as [->|N].
        - injection K1 as <-. rewrite upd_eq in K2. destruct i; discriminate.
        - rewrite upd_ne in K2; [|apply (iv_db m I) in K1; lia]. exists b. now split. }
      intros o o' a K K'. apply (iv_u m I) with a; now apply Z.
    + intros f b K. cbn in K |- *. unfold upd in K. destruct (Nat.eqb f d); [injection K as <-; lia|apply (iv_db m I) in K; lia].
    + intros f g b K K'. cbn in K, K'. unfold upd in K, K'. destruct (Nat.eqb_spec f d), (Nat.eqb_spec g d); subst; try reflexivity.
      * injection K as <-. apply (iv_db m I) in K'. lia.
      * injection K' as <-. apply (iv_db m I) in K. lia.
      * now apply (iv_du m I) with b.
    + intro y. exact (R1 y).
    + intro f. unfold see_d. cbn. unfold upd at 2 3. destruct (Nat.eqb_spec f d); [cbn; now rewrite upd_eq|]. rewrite <- R2. unfold see_d.
      destruct (dv m f) as [b|] eqn:G; [|reflexivity]. cbn. rewrite upd_ne; [reflexivity|]. apply (iv_db m I) in G. lia.
  - assert (Q := RD e). destruct (dv m e) as [b|] eqn:F; [|discriminate]. cbn in Q. assert (Z := fresh_d m v d e b I R F). cbv zeta in Z. rewrite Q in Z |- *.
    destruct (dcopy m b) as [m1 a]. injection E as <-. eexists. split; [reflexivity|exact Z].
  - assert (Q := RD e). assert (Q' := RD d). destruct (dv m d) as [c|]; [|discriminate]. destruct (dv m e) as [b|] eqn:F; [|discriminate]. cbn in Q, Q'. assert (Z := fresh_d m v d e b I R F). cbv zeta in Z. rewrite Q in Z |- *. rewrite Q'.
    destruct (dcopy m b) as [m1 a]. injection E as <-. eexists. split; [reflexivity|exact Z].
  - rewrite RD, RS. destruct (dv m d) as [a|] eqn:F; [|discriminate]. destruct (sv m x) as [b|]; [|discriminate]. cbn. rewrite find_view.
    destruct (find k (dh m a)) as [c|] eqn:G; cbn.
    + injection E as <-. eexists. split; [reflexivity|now split].
    + unfold scopy, salloc in E. injection E as <-. eexists. split; [reflexivity|]. split.
      * apply (put_inv m d a (sn m) (sh m b)); auto.
        -- intros [|i] z; cbn; [intro Q; injection Q; auto|intro Q; right; now exists i].
        -- cbn. constructor; [|now apply own_nodup with d]. intro Q. apply (own_lt_in m d a _ I F) in Q. lia.
      * apply (put_rel m v d a (sh m b)); auto. cbn. rewrite upd_eq. f_equal. apply (view_ext (sh m)). intros z Hz. apply upd_ne. apply (own_lt_in m d a _ I F) in Hz. lia.
  - rewrite RD, RS. destruct (dv m d) as [a|] eqn:F; [|discriminate]. destruct (sv m x) as [b|]; [|discriminate]. cbn. rewrite find_view. unfold scopy, salloc in E.
    assert (NI : ~ In (sn m) (map snd (dh m a))) by (intro Q; apply (own_lt_in m d a _ I F) in Q; lia).
    assert (VV : view (upd (sh m) (sn m) (sh m b)) (dh m a) = view (sh m) (dh m a)) by (now apply upd_view_other).
    destruct (find k (dh m a)) as [c|] eqn:G; cbn; injection E as <-; eexists; (split; [reflexivity|]); split.
    + apply (put_inv m d a (sn m) (sh m b)); auto; cbn.
      * intros i z Q. apply repl_nth in Q. destruct Q as [Q|Q]; [right; now exists i|now left].
      * apply repl_nodup; [exact NI|now apply own_nodup with d].
    + apply (put_rel m v d a (sh m b)); auto. cbn. rewrite (repl_view _ k (sn m) (sh m b)); [now rewrite VV|apply upd_eq].
    + apply (put_inv m d a (sn m) (sh m b)); auto.
      * intros [|i] z; cbn; [intro Q; injection Q; auto|intro Q; right; now exists i].
      * cbn. constructor; [exact NI|now apply own_nodup with d].
    + apply (put_rel m v d a (sh m b)); auto. cbn. rewrite upd_eq. f_equal. exact VV.
  - rewrite RD. destruct (dv m d) as [a|] eqn:F; [|discriminate]. cbn. rewrite find_view. destruct (find k (dh m a)) as [b|] eqn:G; [|discriminate]. injection E as <-. cbn.
    eexists. split; [reflexivity|]. split; [now apply mut_inv|now apply mut_d].
  - rewrite RD. destruct (dv m d) as [a|] eqn:F; [|discriminate]. cbn. rewrite find_view. destruct (find k (dh m a)) as [b|] eqn:G; [|discriminate]. unfold scopy, salloc in E. injection E as <-. cbn.
    eexists. split; [reflexivity|]. exact (fresh_s m v x (sh m b) I R).
Qed.
(** and the other way round: a program the values accept is accepted in memory *)
Lemma step_none : forall (o : dop S) m v, rel m v -> dstep o m = None -> vstep o v = None.
Proof.
  intros o m v R E. assert (RS := fun x => rel_s m v x R). assert (RD := fun d => rel_d m v d R).
  destruct o as [x w|x y|x y|x f|d|d e|d e|d k x|d k x|d k f|x d k]; cbn [dstep] in E; cbn [vstep]; unfold scopy, salloc in E; try discriminate.
  - rewrite RS. now destruct (sv m y).
  - rewrite (RS x), (RS y). destruct (sv m x); [|reflexivity]. now destruct (sv m y).
  - rewrite RS. now destruct (sv m x).
  - rewrite RD. destruct (dv m e) as [b|]; [|reflexivity]. destruct (dcopy m b). discriminate.
  - rewrite (RD d), (RD e). destruct (dv m d); [|reflexivity]. destruct (dv m e) as [b|]; [|reflexivity]. destruct (dcopy m b). discriminate.
  - rewrite RD, RS. destruct (dv m d) as [a|]; [|reflexivity]. destruct (sv m x); [|reflexivity]. cbn in *. destruct (find k (dh m a)); discriminate.
  - rewrite RD, RS. destruct (dv m d) as [a|]; [|reflexivity]. destruct (sv m x); [|reflexivity]. cbn in *. destruct (find k (dh m a)); discriminate.
  - rewrite RD. destruct (dv m d) as [a|]; [|reflexivity]. cbn. rewrite find_view. destruct (find k (dh m a)); [discriminate|reflexivity].
  - rewrite RD. destruct (dv m d) as [a|]; [|reflexivity]. cbn. rewrite find_view. destruct (find k (dh m a)); [discriminate|reflexivity].
Qed.
Lemma inv0 : forall v : S, inv (mem0 v).
Proof.
  intro v. assert (Z : forall o a, ~ own (mem0 v) o a) by (intros [x|d i] a Q; cbn in Q; [discriminate|destruct Q as [b [Q _]]; discriminate]).
  split; [intros o a Q|intros o o' a Q|intros d b Q|intros d e b Q]; try (now apply Z in Q); discriminate.
Qed.
Lemma rel0 : forall v : S, rel (mem0 v) vals0. Proof. intro v. split; reflexivity. Qed.
Lemma run_sim : forall (h : list (dop S)) m v, inv m -> rel m v ->
  match drun h m, vrun h v with Some m', Some v' => inv m' /\ rel m' v' | None, None => True | _, _ => False end.
Proof.
  induction h as [|o r IH]; intros m v I R; [now split|]. cbn. destruct (dstep o m) as [m1|] eqn:E.
  - destruct (step_sim o m m1 v I R E) as [v1 [V [I1 R1]]]. rewrite V. now apply IH.
  - now rewrite (step_none o m v R E).
Qed.
Lemma copies_are_values : forall (v0 : S) (h : list (dop S)),
  match drun h (mem0 v0), vrun h vals0 with
  | Some m, Some v => (forall x, see_s m x = vs v x) /\ (forall d, see_d m d = vd v d)
  | None, None => True
  | _, _ => False
  end.
Proof.
  intros v0 h. assert (Q := run_sim h (mem0 v0) vals0 (inv0 v0) (rel0 v0)). destruct (drun h (mem0 v0)), (vrun h vals0); auto. now destruct Q.
Qed.

(** which variable an operation is on *)
Definition target_s (o : dop S) : option nat := match o with SNew x _ | SCopy x _ | SAssign x _ | SMut x _ | DGet x _ _ => Some x | _ => None end.
Definition target_d (o : dop S) : option nat := match o with DNew d | DCopy d _ | DAssign d _ | DAdd d _ _ | DSet d _ _ | DMut d _ _ => Some d | _ => None end.
Lemma vstep_frame : forall (o : dop S) v v', vstep o v = Some v' ->
  (forall x, target_s o <> Some x -> vs v' x = vs v x) /\ (forall d, target_d o <> Some d -> vd v' d = vd v d).
Proof.
  intros o v v' E. destruct o as [x w|x y|x y|x f|d|d e|d e|d k x|d k x|d k f|x d k]; cbn in E;
    repeat match goal with H : match ?c with _ => _ end = Some _ |- _ => destruct c; try discriminate H end; injection E as <-; cbn;
    (split; [intros z N|intros z N]); try reflexivity; try (apply upd_ne; congruence).
Qed.
Lemma copies_frame : forall (v0 : S) h1 h2 m1 m2,
  drun h1 (mem0 v0) = Some m1 -> drun h2 m1 = Some m2 ->
  (forall x, (forall o, In o h2 -> target_s o <> Some x) -> see_s m2 x = see_s m1 x) /\
  (forall d, (forall o, In o h2 -> target_d o <> Some d) -> see_d m2 d = see_d m1 d).
Proof.
  intros v0 h1 h2 m1 m2 E1 E2. assert (Q := run_sim h1 (mem0 v0) vals0 (inv0 v0) (rel0 v0)). rewrite E1 in Q. destruct (vrun h1 vals0) as [v1|]; [|contradiction]. destruct Q as [I R]. clear E1 h1.
  revert m1 v1 I R E2. induction h2 as [|o r IH]; intros m1 v1 I R E2.
  - injection E2 as ->. now split.
  - cbn in E2. destruct (dstep o m1) as [m'|] eqn:E; [|discriminate]. destruct (step_sim o m1 m' v1 I R E) as [v' [V [I' R']]]. destruct (vstep_frame o v1 v' V) as [F1 F2].
    destruct (IH m' v' I' R' E2) as [G1 G2]. destruct R as [R1 R2], R' as [R1' R2']. split.
    + intros x N. rewrite G1 by (intros p Hp; apply N; now right). rewrite R1', R1. apply F1. apply N. now left.
    + intros d N. rewrite G2 by (intros p Hp; apply N; now right). rewrite R2', R2. apply F2. apply N. now left.
Qed.
End Handles.
