(** Proofs about the printed tables. *)
From Coq Require Import String List Bool Arith Reals Lia Lra.
From Verif Require Import BatchModel BatchSpec BatchProofs.
Import ListNotations.
Open Scope nat_scope.

Lemma combine_fst : forall A B (a : list A) (b : list B), length a = length b -> map fst (combine a b) = a.
Proof. intros A B a. induction a as [|x a IH]; intros [|y b] H; cbn in *; try lia; [reflexivity|]. f_equal. apply IH. lia. Qed.
Lemma flat_map_ext_in : forall A B (f g : A -> list B) l, (forall x, In x l -> f x = g x) -> flat_map f l = flat_map g l.
Proof. intros A B f g l. induction l as [|x l IH]; intros H; [reflexivity|]. cbn. rewrite (H x (or_introl eq_refl)), IH; [reflexivity|]. intros y Hy. apply H. now right. Qed.
Lemma map_flat_map : forall A B C (g : B -> C) (f : A -> list B) l, map g (flat_map f l) = flat_map (fun x => map g (f x)) l.
Proof. intros. induction l as [|x l IH]; [reflexivity|]. cbn. rewrite map_app, IH. reflexivity. Qed.
Lemma flat_map_map : forall A B C (f : B -> list C) (g : A -> B) l, flat_map f (map g l) = flat_map (fun x => f (g x)) l.
Proof. intros. induction l as [|x l IH]; [reflexivity|]. cbn. now rewrite IH. Qed.

Lemma traverse_rel : forall A B C (f : A -> option B) (K : A -> C) (key : B -> C) (Q : B -> Prop) l,
  (forall x, In x l -> exists y, f x = Some y /\ key y = K x /\ Q y) ->
  exists r, traverse (map f l) = Some r /\ map key r = map K l /\ Forall Q r.
Proof.
  intros A B C f K key Q l. induction l as [|x l IH]; intros H; [exists []; repeat split; constructor|].
  destruct (H x (or_introl eq_refl)) as (y & E & Ek & Hq). destruct IH as (r & Er & Em & Hr); [intros z Hz; apply H; now right|].
  exists (y :: r). cbn. rewrite E, Er. split; [reflexivity|]. split; [now rewrite Ek, Em|]. now constructor.
Qed.
Lemma traverse_rel2 : forall A A' B C (f : A -> A' -> option B) (K : A -> A' -> C) (key : B -> C) (Q : B -> Prop) l m,
  (forall x x', In x l -> In x' m -> exists y, f x x' = Some y /\ key y = K x x' /\ Q y) ->
  exists r, traverse (flat_map (fun x => map (fun x' => f x x') m) l) = Some r /\ map key r = flat_map (fun x => map (fun x' => K x x') m) l /\ Forall Q r.
Proof.
  intros A A' B C f K key Q l m. induction l as [|x l IH]; intros H; [exists []; repeat split; constructor|].
  destruct IH as (r & Er & Em & Hr); [intros z z' Hz Hz'; apply H; [now right|exact Hz']|].
  destruct (traverse_rel _ _ _ (f x) (K x) key Q m) as (r0 & Er0 & Em0 & Hr0); [intros x' Hx'; apply H; [now left|exact Hx']|].
  exists (r0 ++ r)%list. cbn [flat_map]. split; [now apply traverse_app|]. split; [now rewrite map_app, Em0, Em|]. now apply Forall_app.
Qed.
Lemma traverse_map_ok : forall A B (f : A -> option B) l, (forall x, In x l -> exists y, f x = Some y) ->
  exists r, traverse (map f l) = Some r /\ length r = length l /\ forall i x, nth_error l i = Some x -> nth_error r i = f x.
Proof.
  intros A B f l. induction l as [|x l IH]; intros H; [exists []; repeat split; intros [|i] x E; discriminate|].
  destruct (H x (or_introl eq_refl)) as (y & E). destruct IH as (r & Er & L & N); [intros z Hz; apply H; now right|].
  exists (y :: r). cbn [map traverse]. rewrite E, Er. split; [reflexivity|]. split; [cbn; lia|]. intros [|i] z Hz; cbn in *; [congruence|now apply N].
Qed.

Section Out.
Variable V : Type.
Variable ask : string -> R -> R -> R * (string -> option V).
Variables toT toP fromP : R -> R.
Notation calc := (calculate V ask toT toP fromP).
Notation value := (is_value V ask toT toP).

Lemma select_known : forall names f, (forall n, In n names -> exists v, f n = Some v) ->
  length (select V names f) = length names /\ Forall (fun nv => f (fst nv) = Some (snd nv)) (combine names (select V names f)).
Proof.
  intros names f. induction names as [|n names IH]; intros H; [split; [reflexivity|constructor]|].
  destruct (H n (or_introl eq_refl)) as [v Ev]. destruct IH as [A B]; [intros m Hm; apply H; now right|].
  unfold select in *. cbn [flat_map]. rewrite Ev. cbn [app length combine]. split; [congruence|]. constructor; [exact Ev|exact B].
Qed.
Lemma select_nth : forall names f i n, (forall n, In n names -> exists v, f n = Some v) -> nth_error names i = Some n ->
  nth_error (select V names f) i = f n.
Proof.
  intros names f. induction names as [|m names IH]; intros i n H E; [destruct i; discriminate|].
  destruct (H m (or_introl eq_refl)) as [v Ev]. unfold select in *. cbn [flat_map]. rewrite Ev. cbn [app].
  destruct i as [|i]; cbn in *; [congruence|]. apply IH; [intros k Hk; apply H; now right|exact E].
Qed.

Section W.
Variables (w : R -> R -> R) (symbols names : list string) (t : tps).
Hypothesis settle : settles V ask toT toP fromP w symbols names (pairs t).
Hypothesis kn : known V ask toT toP symbols names (pairs t).

Lemma Pafter_w : forall ss T P, In (T, P) (pairs t) -> (forall s, In s ss -> In s symbols) ->
  Pafter V ask toT toP fromP T P ss = match ss with [] => P | _ => w T P end.
Proof.
  intros ss T P Hp Hs. destruct ss as [|s ss]; [reflexivity|]. unfold Pafter. cbn [fold_left].
  destruct (settle s T P (Hs s (or_introl eq_refl)) Hp) as [E _]. rewrite E.
  assert (G : forall ss, (forall s, In s ss -> In s symbols) -> fold_left (fun p s => fromP (fst (ask s (toT T) (toP p)))) ss (w T P) = w T P).
  { clear ss Hs E s. induction ss as [|s ss IH]; intros Hs; [reflexivity|]. cbn [fold_left].
    destruct (settle s T P (Hs s (or_introl eq_refl)) Hp) as (_ & E & _). rewrite E. apply IH. intros x Hx. apply Hs. now right. }
  apply G. intros x Hx. apply Hs. now right.
Qed.
Lemma in_firstn : forall A k (l : list A) x, In x (firstn k l) -> In x l.
Proof. intros A k. induction k as [|k IH]; intros [|y l] x H; cbn in *; try tauto. destruct H as [->|H]; [now left|right; now apply IH]. Qed.
Lemma stored_w : forall T P k n, In (T, P) (pairs t) -> k < length symbols -> In n names ->
  exists v, value (nth k symbols ""%string) T (w T P) n v /\
    snd (ask (nth k symbols ""%string) (toT T) (toP (Pafter V ask toT toP fromP T P (firstn k symbols)))) n = Some v.
Proof.
  intros T P k n Hp Hk Hn. assert (Hs : In (nth k symbols ""%string) symbols) by now apply nth_In.
  destruct (kn _ T P n Hs Hp Hn) as [v Ev]. exists v. destruct (settle _ T P Hs Hp) as (_ & _ & E). unfold is_value in *. rewrite E by exact Hn.
  split; [exact Ev|]. rewrite Pafter_w; [|exact Hp|intros s; apply in_firstn]. destruct (firstn k symbols); [exact Ev|]. rewrite E by exact Hn. exact Ev.
Qed.

Definition settled : list (R * R) := map (fun p => (fst p, w (fst p) (snd p))) (pairs t).

Lemma calc_w : forall tpFirst, symbols <> [] -> exists t' res log, calc tpFirst symbols names t = Some (t', res, log) /\ t' = addPairs settled /\
  length res = length symbols * length (pairs t) /\
  (forall p k, p < length (pairs t) -> k < length symbols -> exists vs,
     nth_error res (if tpFirst then length (pairs t) * k + p else length symbols * p + k) = Some vs /\ length vs = length names /\
     forall i n, nth_error names i = Some n -> exists v, nth_error vs i = Some v /\
       value (nth k symbols ""%string) (fst (nth p settled (0, 0)%R)) (snd (nth p settled (0, 0)%R)) n v).
Proof.
  intros tpFirst Hne. destruct (calculate_all V ask toT toP fromP tpFirst symbols names t) as (t' & res & log & E & L1 & L2 & Et & A & B & _).
  exists t', res, log. split; [exact E|].
  assert (Ep : pairs t' = settled).
  { apply nth_ext with (d := (0, 0)%R) (d' := (0, 0)%R); [unfold settled; now rewrite map_length|]. intros p Hp. rewrite L1 in Hp.
    pose proof (nth_error_nth' _ (pairs t) p (0, 0)%R Hp) as En. destruct (nth p (pairs t) (0, 0)%R) as [T P] eqn:Enp.
    pose proof (A p T P En) as En'. rewrite (nth_error_nth' _ (pairs t') p (0, 0)%R) in En' by lia. inversion En' as [H]. rewrite H.
    rewrite (Pafter_w symbols) by (try (apply nth_error_In with p; exact En); auto). destruct symbols as [|s0 l]; [congruence|].
    unfold settled. rewrite (nth_indep _ _ ((fun p => (fst p, w (fst p) (snd p))) (0, 0)%R)) by now rewrite map_length.
    rewrite (map_nth (fun p => (fst p, w (fst p) (snd p)))), Enp. reflexivity. }
  split; [now rewrite <- Ep|]. split; [exact L2|]. intros p k Hp Hk.
  pose proof (nth_error_nth' _ (pairs t) p (0, 0)%R Hp) as En. destruct (nth p (pairs t) (0, 0)%R) as [T P] eqn:Enp.
  assert (HI : In (T, P) (pairs t)) by (apply nth_error_In with p; exact En).
  exists (stored V ask toT toP fromP symbols names T P k). split; [apply B; assumption|].
  assert (K : forall n, In n names -> exists v, snd (ask (nth k symbols ""%string) (toT T) (toP (Pafter V ask toT toP fromP T P (firstn k symbols)))) n = Some v).
  { intros n Hn. destruct (stored_w T P k n HI Hk Hn) as (v & _ & H). now exists v. }
  split; [apply select_known; exact K|]. intros i n Hi. destruct (stored_w T P k n HI Hk (nth_error_In _ _ Hi)) as (v & Hv & Hv').
  exists v. split; [unfold stored; rewrite (select_nth _ _ i n K Hi); exact Hv'|].
  unfold settled. rewrite (nth_indep _ _ ((fun p => (fst p, w (fst p) (snd p))) (0, 0)%R)) by now rewrite map_length.
  rewrite (map_nth (fun p => (fst p, w (fst p) (snd p)))), Enp. exact Hv.
Qed.

Lemma settled_len : length settled = length (pairs t).
Proof. unfold settled. now rewrite map_length. Qed.

Lemma csv_w : forall tpFirst, exists t' res log rows, calc tpFirst symbols names t = Some (t', res, log) /\
  foutResults V tpFirst symbols names t' res = Some rows /\
  map (key V) rows = (if tpFirst then outer_first symbols settled else pairs_outer symbols settled) /\
  Forall (row_right V ask toT toP names) rows.
Proof.
  intros tpFirst. destruct (list_eq_dec string_dec symbols []) as [Es|Hne].
  { destruct (calculate_all V ask toT toP fromP tpFirst symbols names t) as (t' & res & log & E & L1 & _). exists t', res, log, []. split; [exact E|].
    unfold foutResults, outer_first, pairs_outer. rewrite Es. cbn [length].
    assert (Z : forall A B (l : list A), flat_map (fun _ : A => @nil B) l = []) by (intros A B l; induction l; auto).
    destruct tpFirst; cbn [seq flat_map map traverse]; [repeat split; auto|]. rewrite Z. cbn. rewrite Z. repeat split; auto. }
  destruct (calc_w tpFirst Hne) as (t' & res & log & E & Et & L & H). exists t', res, log.
  assert (Ep : pairs t' = settled) by (subst t'; apply addPairs_pairs).
  unfold foutResults. rewrite Ep, settled_len.
  set (jn := if tpFirst then length (pairs t) else length symbols). set (im := if tpFirst then length symbols else length (pairs t)).
  destruct (traverse_rel2 _ _ _ _ (fun i j => let '(p, k) := if tpFirst then (j, i) else (i, j) in
     match nth_error settled p, nth_error symbols k, nth_error res (jn * i + j) with
     | Some (T, P), Some s, Some vs => if Nat.leb (length vs) (length names) then Some (s, T, P, combine names vs) else None
     | _, _, _ => None end)
    (fun i j => let '(p, k) := if tpFirst then (j, i) else (i, j) in (nth k symbols ""%string, fst (nth p settled (0, 0)%R), snd (nth p settled (0, 0)%R)))
    (key V) (row_right V ask toT toP names) (seq 0 im) (seq 0 jn)) as (rows & Er & Ek & Hr).
  { intros i j Hi Hj. apply in_seq in Hi. apply in_seq in Hj. destruct (if tpFirst then (j, i) else (i, j)) as [p k] eqn:Epk.
    assert (Hp : p < length (pairs t)) by (unfold jn, im in *; destruct tpFirst; inversion Epk; lia).
    assert (Hk : k < length symbols) by (unfold jn, im in *; destruct tpFirst; inversion Epk; lia).
    assert (Ei : jn * i + j = if tpFirst then length (pairs t) * k + p else length symbols * p + k) by (unfold jn; destruct tpFirst; inversion Epk; lia).
    destruct (H p k Hp Hk) as (vs & Ev & Lv & Hv). rewrite Ei, Ev. rewrite (nth_error_nth' _ settled p (0, 0)%R) by (rewrite settled_len; exact Hp).
    rewrite (nth_error_nth' _ symbols k ""%string Hk). destruct (nth p settled (0, 0)%R) as [T P].
    rewrite Lv, Nat.leb_refl. eexists. split; [reflexivity|]. split; [reflexivity|].
    cbn [row_right]. split; [apply combine_fst; lia|]. apply Forall_forall. intros [n v] Hin. destruct (In_nth _ _ (n, v) Hin) as (q & Hq & Eq).
    rewrite combine_length in Hq. rewrite combine_nth in Eq by lia. assert (En : nth q names n = n) by congruence. assert (Evq : nth q vs v = v) by congruence.
    assert (Hn : nth_error names q = Some n) by (rewrite (nth_error_nth' _ names q n) by lia; congruence).
    destruct (Hv q n Hn) as (v' & Hv1 & Hv2). rewrite (nth_error_nth' _ vs q v) in Hv1 by lia. cbn [fst snd] in *. congruence. }
  exists rows. split; [exact E|]. split; [exact Er|]. split; [|exact Hr].
  refine (eq_trans Ek _). unfold outer_first, pairs_outer, jn, im. destruct tpFirst; rewrite <- settled_len.
  - rewrite <- (flat_map_seq_nth _ _ (fun x => map (fun p => (x, fst p, snd p)) settled) ""%string symbols). apply flat_map_ext_in. intros i Hi.
    apply (map_seq_nth _ _ (fun p => (nth i symbols ""%string, fst p, snd p)) (0, 0)%R settled).
  - rewrite <- (flat_map_seq_nth _ _ (fun p => map (fun x => (x, fst p, snd p)) symbols) (0, 0)%R settled). apply flat_map_ext_in. intros i Hi.
    apply (map_seq_nth _ _ (fun x => (x, fst (nth i settled (0, 0)%R), snd (nth i settled (0, 0)%R))) ""%string symbols).
Qed.

(** transposed table *)
Lemma transposed_w : forall tpFirst, symbols <> [] -> exists t' res log rows, calc tpFirst symbols names t = Some (t', res, log) /\
  foutTransposed V tpFirst symbols names t' res = Some rows /\
  map (key V) rows = (if tpFirst then outer_first names settled else pairs_outer names settled) /\
  Forall (trow_right V ask toT toP symbols) rows.
Proof.
  intros tpFirst Hne. destruct (calc_w tpFirst Hne) as (t' & res & log & E & Et & L & H). exists t', res, log.
  assert (Ep : pairs t' = settled) by (subst t'; apply addPairs_pairs).
  unfold foutTransposed. rewrite Ep, settled_len.
  set (jn := if tpFirst then length (pairs t) else length names). set (im := if tpFirst then length names else length (pairs t)).
  destruct (traverse_rel2 _ _ _ _ (fun i j => let '(p, n) := if tpFirst then (j, i) else (i, j) in
     match nth_error settled p, nth_error names n,
          traverse (map (fun k => match nth_error res (if tpFirst then length (pairs t) * k + j else length symbols * i + k) with
                                  | Some vs => nth_error vs (if tpFirst then i else j) | None => None end) (seq 0 (length symbols))) with
     | Some (T, P), Some name, Some vs => Some (name, T, P, combine symbols vs)
     | _, _, _ => None end)
    (fun i j => let '(p, n) := if tpFirst then (j, i) else (i, j) in (nth n names ""%string, fst (nth p settled (0, 0)%R), snd (nth p settled (0, 0)%R)))
    (key V) (trow_right V ask toT toP symbols) (seq 0 im) (seq 0 jn)) as (rows & Er & Ek & Hr).
  { intros i j Hi Hj. apply in_seq in Hi. apply in_seq in Hj. destruct (if tpFirst then (j, i) else (i, j)) as [p q] eqn:Epk.
    assert (Hp : p < length (pairs t)) by (unfold jn, im in *; destruct tpFirst; inversion Epk; lia).
    assert (Hq : q < length names) by (unfold jn, im in *; destruct tpFirst; inversion Epk; lia).
    assert (Ex : forall k, (match nth_error res (if tpFirst then length (pairs t) * k + j else length symbols * i + k) with
                  | Some vs => nth_error vs (if tpFirst then i else j) | None => None end) =
                 (match nth_error res (if tpFirst then length (pairs t) * k + p else length symbols * p + k) with
                  | Some vs => nth_error vs q | None => None end)) by (intros k; destruct tpFirst; inversion Epk; reflexivity).
    rewrite (map_ext _ _ Ex). clear Ex.
    pose proof (nth_error_nth' _ names q ""%string Hq) as Hn.
    destruct (traverse_map_ok _ _ (fun k => match nth_error res (if tpFirst then length (pairs t) * k + p else length symbols * p + k) with
                  | Some vs => nth_error vs q | None => None end) (seq 0 (length symbols))) as (r & Er & Lr & Nr).
    { intros k Hk. apply in_seq in Hk. destruct (H p k Hp) as (vs & Ev & Lv & Hv); [lia|]. rewrite Ev. destruct (Hv q _ Hn) as (v & Hv1 & _). now exists v. }
    rewrite seq_length in Lr. rewrite Er, Hn. rewrite (nth_error_nth' _ settled p (0, 0)%R) by (rewrite settled_len; exact Hp).
    destruct (nth p settled (0, 0)%R) as [T P] eqn:Enp. eexists. split; [reflexivity|]. split; [reflexivity|].
    cbn [trow_right]. split; [apply combine_fst; lia|]. apply Forall_forall. intros [s v] Hin. destruct (In_nth _ _ (s, v) Hin) as (k & Hk & Eq).
    rewrite combine_length in Hk. rewrite combine_nth in Eq by lia. assert (Es : nth k symbols s = s) by congruence. assert (Ev : nth k r v = v) by congruence.
    assert (Ek : nth_error (seq 0 (length symbols)) k = Some k).
    { rewrite (nth_error_nth' _ _ k 0) by (rewrite seq_length; lia). rewrite seq_nth by lia. reflexivity. }
    specialize (Nr k k Ek). rewrite (nth_error_nth' _ r k v) in Nr by lia. destruct (H p k Hp) as (vs & Evs & _ & Hv); [lia|]. rewrite Evs in Nr.
    destruct (Hv q _ Hn) as (v' & Hv1 & Hv2). rewrite Enp in Hv2. cbn [fst snd] in *. rewrite Hv1 in Nr.
    rewrite (nth_indep symbols ""%string s) in Hv2 by lia. congruence. }
  exists rows. split; [exact E|]. split; [exact Er|]. split; [|exact Hr].
  refine (eq_trans Ek _). unfold outer_first, pairs_outer, jn, im. destruct tpFirst; rewrite <- settled_len.
  - rewrite <- (flat_map_seq_nth _ _ (fun x => map (fun p => (x, fst p, snd p)) settled) ""%string names). apply flat_map_ext_in. intros i Hi.
    apply (map_seq_nth _ _ (fun p => (nth i names ""%string, fst p, snd p)) (0, 0)%R settled).
  - rewrite <- (flat_map_seq_nth _ _ (fun p => map (fun x => (x, fst p, snd p)) names) (0, 0)%R settled). apply flat_map_ext_in. intros i Hi.
    apply (map_seq_nth _ _ (fun x => (x, fst (nth i settled (0, 0)%R), snd (nth i settled (0, 0)%R))) ""%string names).
Qed.
End W.

(** *** the engine calls *)
Lemma calls_quiet : forall tpFirst symbols names t, quiet V ask toT toP fromP symbols (pairs t) ->
  exists t' res log, calc tpFirst symbols names t = Some (t', res, log) /\ pairs t' = pairs t /\
  log = if tpFirst then flat_map (fun p => map (fun s => (s, toT (fst p), toP (snd p))) symbols) (pairs t)
        else flat_map (fun s => map (fun p => (s, toT (fst p), toP (snd p))) (pairs t)) symbols.
Proof.
  intros tpFirst symbols names t Hq. destruct (calculate_all V ask toT toP fromP tpFirst symbols names t) as (t' & res & log & E & L1 & L2 & Et & A & B & D).
  exists t', res, log. split; [exact E|].
  assert (PA : forall T P, In (T, P) (pairs t) -> forall ss, (forall s, In s ss -> In s symbols) -> Pafter V ask toT toP fromP T P ss = P).
  { intros T P Hp. unfold Pafter. induction ss as [|s ss IH]; intros Hs; [reflexivity|]. cbn [fold_left]. rewrite (Hq s T P (Hs s (or_introl eq_refl)) Hp).
    apply IH. intros x Hx. apply Hs. now right. }
  split.
  - apply nth_ext with (d := (0, 0)%R) (d' := (0, 0)%R); [exact L1|]. intros p Hp. rewrite L1 in Hp.
    pose proof (nth_error_nth' _ (pairs t) p (0, 0)%R Hp) as En. destruct (nth p (pairs t) (0, 0)%R) as [T P] eqn:Enp.
    pose proof (A p T P En) as En'. rewrite PA in En' by (auto; apply nth_error_In with p; exact En). rewrite (nth_error_nth' _ (pairs t') p (0, 0)%R) in En' by lia. congruence.
  - rewrite D. unfold cells. rewrite map_flat_map. destruct tpFirst.
    + rewrite <- (flat_map_seq_nth _ _ _ (0, 0)%R (pairs t)). apply flat_map_ext_in. intros p Hp. apply in_seq in Hp. rewrite map_map.
      rewrite <- (map_seq_nth _ _ _ ""%string symbols). apply map_ext. intros k. unfold callOf, pk. cbn [fst snd].
      destruct (nth p (pairs t) (0, 0)%R) as [T P] eqn:Enp. cbn [fst snd]. rewrite PA; [reflexivity| |intros s; apply in_firstn].
      rewrite <- Enp. apply nth_In. lia.
    + rewrite <- (flat_map_seq_nth _ _ _ ""%string symbols). apply flat_map_ext_in. intros k Hk. rewrite map_map.
      rewrite <- (map_seq_nth _ _ _ (0, 0)%R (pairs t)). apply map_ext_in. intros p Hp. apply in_seq in Hp. unfold callOf, pk. cbn [fst snd].
      destruct (nth p (pairs t) (0, 0)%R) as [T P] eqn:Enp. cbn [fst snd]. rewrite PA; [reflexivity| |intros s; apply in_firstn].
      rewrite <- Enp. apply nth_In. lia.
Qed.
Lemma quiet_settles : forall symbols names ps, quiet V ask toT toP fromP symbols ps -> settles V ask toT toP fromP (fun _ P => P) symbols names ps.
Proof. intros symbols names ps H s T P Hs Hp. specialize (H s T P Hs Hp). auto. Qed.
End Out.
