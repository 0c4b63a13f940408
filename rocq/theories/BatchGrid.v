(** Proofs about the generated T-P lists and the property grid. *)
From Coq Require Import String List Bool Arith Reals Lia Lra.
From Verif Require Import BatchModel BatchSpec BatchProofs BatchOut.
Import ListNotations.
Open Scope list_scope.
Open Scope R_scope.

(** *** increments *)
Lemma rounds_S : forall n x step max, rounds (S n) x step max =
  if Rlt_dec (x + step) max then match rounds n (x + step) step max with Some l => Some ((x + step) :: l) | None => None end else Some [x + step].
Proof. reflexivity. Qed.
Lemma rounds_shape : forall n x step max l, rounds n x step max = Some l ->
  l <> [] /\ (forall i, (i < length l)%nat -> nth i l 0 = x + INR (S i) * step) /\
  (forall i, (S i < length l)%nat -> nth i l 0 < max) /\ max <= last l 0.
Proof.
  induction n as [|n IH]; intros x step max l H; [discriminate|]. rewrite rounds_S in H. destruct (Rlt_dec (x + step) max) as [Hl|Hl].
  - destruct (rounds n (x + step) step max) as [r|] eqn:E; [|discriminate]. inversion H; subst. destruct (IH _ _ _ _ E) as (A & B & C & D).
    split; [discriminate|]. split; [|split].
    + intros [|i] Hi; [cbn; lra|]. cbn [nth]. rewrite B by (cbn in Hi; lia). rewrite (S_INR (S i)). ring.
    + intros [|i] Hi; [exact Hl|]. cbn [nth]. apply C. cbn in Hi. lia.
    + destruct r as [|y r]; [congruence|]. exact D.
  - inversion H; subst. split; [discriminate|]. split; [|split].
    + intros [|i] Hi; [cbn; lra|cbn in Hi; lia].
    + intros i Hi. cbn in Hi. lia.
    + cbn. lra.
Qed.
Lemma rounds_ends : forall step max, 0 < step -> forall k x, max - x <= INR k * step -> exists l, rounds (S k) x step max = Some l.
Proof.
  intros step max Hs. induction k as [|k IH]; intros x Hk.
  - rewrite rounds_S. destruct (Rlt_dec (x + step) max); [cbn in Hk; lra|eauto].
  - rewrite rounds_S. destruct (Rlt_dec (x + step) max); [|eauto]. destruct (IH (x + step)) as [l El]; [rewrite S_INR in Hk; lra|]. rewrite El. eauto.
Qed.
Lemma increments_ends : forall min max step, 0 < step -> exists n l, increments n min max step = Some l.
Proof.
  intros min max step Hs. destruct (Rle_dec max (min - step)) as [H|H].
  - exists 1%nat. unfold increments. apply (rounds_ends step max Hs 0). cbn. lra.
  - set (z := (max - (min - step)) / step). assert (AR : exists k, z < INR k).
    { exists (Z.to_nat (up z)). destruct (archimed z) as [A _]. rewrite INR_IZR_INZ. apply Rlt_le_trans with (IZR (up z)); [lra|]. apply IZR_le. lia. }
    destruct AR as [k Hk].
    exists (S k). unfold increments. apply (rounds_ends step max Hs k). unfold z in Hk. apply Rmult_lt_compat_r with (r := step) in Hk; [|exact Hs].
    unfold Rdiv in Hk. rewrite Rmult_assoc, Rinv_l in Hk by lra. lra.
Qed.
(** more fuel changes nothing *)
Lemma rounds_more : forall n m x step max l, (n <= m)%nat -> rounds n x step max = Some l -> rounds m x step max = Some l.
Proof.
  induction n as [|n IH]; intros m x step max l Hm H; [discriminate|]. destruct m as [|m]; [lia|]. rewrite rounds_S in *.
  destruct (Rlt_dec (x + step) max); [|exact H]. destruct (rounds n (x + step) step max) as [q|] eqn:E; [|discriminate].
  rewrite (IH m _ _ _ q) by (auto; lia). exact H.
Qed.
Lemma increments_list : forall n min max step l, 0 < step -> min <= max -> increments n min max step = Some l ->
  hd_error l = Some min /\ (forall i, (i < length l)%nat -> nth i l 0 = min + INR i * step) /\ NoDup l /\
  (forall x, In x l -> min <= x < max + step) /\ (forall k, min + INR k * step <= max -> In (min + INR k * step) l).
Proof.
  intros n min max step l Hs Hm H. unfold increments in H. destruct (rounds_shape _ _ _ _ _ H) as (A & B & C & D).
  assert (B' : forall i, (i < length l)%nat -> nth i l 0 = min + INR i * step) by (intros i Hi; rewrite B by exact Hi; rewrite S_INR; ring).
  assert (Len : (0 < length l)%nat) by (destruct l; [congruence|cbn; lia]).
  split; [|split; [exact B'|split; [|split]]].
  - destruct l as [|y l]; [congruence|]. pose proof (B' 0%nat Len) as E. cbn in *. f_equal. lra.
  - apply NoDup_nth with (d := 0). intros i j Hi Hj E. rewrite !B' in E by assumption. apply INR_eq. nra.
  - intros x Hx. destruct (In_nth _ _ 0 Hx) as (i & Hi & <-). split.
    + rewrite B' by exact Hi. pose proof (pos_INR i). nra.
    + destruct i as [|i]; [rewrite B' by exact Hi; cbn; lra|].
      specialize (C i Hi). rewrite B' in C by lia. rewrite B' by exact Hi. rewrite S_INR. lra.
  - intros k Hk. destruct (Nat.lt_ge_cases k (length l)) as [Hl|Hl]; [rewrite <- B' by exact Hl; now apply nth_In|].
    exfalso. assert (El : last l 0 = nth (pred (length l)) l 0).
    { clear - A. induction l as [|y l IH]; [congruence|]. destruct l as [|z l]; [reflexivity|]. cbn [last]. cbn [last] in IH. rewrite IH by discriminate. reflexivity. }
    rewrite El, B' in D by lia. assert (Hlt : INR (pred (length l)) < INR k) by (apply lt_INR; lia). nra.
Qed.
Lemma increments_hang : forall min max step, step <= 0 -> min < max -> forall n, increments n min max step = None.
Proof.
  intros min max step Hs Hm n. unfold increments. assert (G : forall n x, x + step < max -> rounds n x step max = None).
  { clear n. induction n as [|n IH]; intros x Hx; [reflexivity|]. rewrite rounds_S. destruct (Rlt_dec (x + step) max); [|contradiction]. now rewrite IH by lra. }
  apply G. lra.
Qed.

(** *** the distinct temperatures and pressures *)
Lemma Reqb_true : forall x y, Reqb x y = true <-> x = y.
Proof. intros x y. unfold Reqb. destruct (Req_EM_T x y); split; congruence. Qed.
Definition adds (l : list R) (acc : list R) : list R := fold_left (fun a x => add_new x a) l acc.
Lemma add_in : forall x acc, In x acc -> add_new x acc = acc.
Proof.
  intros x acc H. unfold add_new. replace (existsb (Reqb x) acc) with true; [reflexivity|]. symmetry. apply existsb_exists. exists x. split; [exact H|]. now apply Reqb_true.
Qed.
Lemma add_out : forall x acc, ~ In x acc -> add_new x acc = acc ++ [x].
Proof.
  intros x acc H. unfold add_new. destruct (existsb (Reqb x) acc) eqn:E; [|reflexivity]. apply existsb_exists in E. destruct E as (y & Hy & E). apply Reqb_true in E. subst. contradiction.
Qed.
Lemma adds_in : forall l acc, (forall x, In x l -> In x acc) -> adds l acc = acc.
Proof. induction l as [|x l IH]; intros acc H; [reflexivity|]. cbn. rewrite add_in by (apply H; now left). apply IH. intros y Hy. apply H. now right. Qed.
Lemma adds_new : forall l acc, NoDup l -> (forall x, In x l -> ~ In x acc) -> adds l acc = acc ++ l.
Proof.
  induction l as [|x l IH]; intros acc ND H; [cbn; now rewrite app_nil_r|]. cbn. rewrite add_out by (apply H; now left).
  inversion ND; subst. fold (adds l (acc ++ [x])). rewrite IH; [now rewrite <- app_assoc|assumption|]. intros y Hy Hi. apply in_app_or in Hi. destruct Hi as [Hi|[<-|[]]]; [|contradiction].
  exact (H y (or_intror Hy) Hi).
Qed.
Lemma adds_app : forall a b acc, adds (a ++ b) acc = adds b (adds a acc).
Proof. intros. unfold adds. apply fold_left_app. Qed.
Lemma addPairs_Ts : forall l, Ts (addPairs l) = adds (map fst l) [] /\ Ps (addPairs l) = adds (map snd l) [].
Proof.
  intros l. unfold addPairs. assert (G : forall t, Ts (fold_left addTPpair l t) = adds (map fst l) (Ts t) /\ Ps (fold_left addTPpair l t) = adds (map snd l) (Ps t)).
  { induction l as [|p l IH]; intros t; [split; reflexivity|]. cbn [fold_left map]. destruct (IH (addTPpair t p)) as [A B]. rewrite A, B. split; reflexivity. }
  exact (G noTP).
Qed.
Lemma outer_list : forall (rows cols : list R), NoDup rows -> cols <> [] -> forall acc, (forall x, In x rows -> ~ In x acc) ->
  adds (flat_map (fun r => map (fun _ => r) cols) rows) acc = acc ++ rows.
Proof.
  intros rows cols ND Hc. induction rows as [|r rows IH]; intros acc H; [cbn; now rewrite app_nil_r|]. cbn [flat_map]. rewrite adds_app. inversion ND; subst.
  destruct cols as [|c cols]; [congruence|]. cbn [map].
  assert (E : adds (r :: map (fun _ => r) cols) acc = acc ++ [r]).
  { cbn. rewrite add_out by (apply H; now left). apply adds_in. intros x Hx. apply in_map_iff in Hx. destruct Hx as (_ & <- & _). apply in_or_app. right. now left. }
  rewrite E. specialize (IH ltac:(assumption) (acc ++ [r])). cbn [map] in IH. rewrite IH; [now rewrite <- app_assoc|].
  intros x Hx Hi. apply in_app_or in Hi. destruct Hi as [Hi|[<-|[]]]; [exact (H x (or_intror Hx) Hi)|contradiction].
Qed.
Lemma inner_list : forall (rows cols : list R), NoDup cols -> rows <> [] -> adds (flat_map (fun _ : R => map (fun c : R => c) cols) rows) [] = cols.
Proof.
  intros rows cols ND Hr. rewrite map_id. destruct rows as [|r rows]; [congruence|]. cbn [flat_map]. rewrite adds_app. rewrite (adds_new cols []) by (try assumption; intros x _ []). cbn [app].
  apply adds_in. intros x Hx. apply in_flat_map in Hx. destruct Hx as (_ & _ & Hx). exact Hx.
Qed.
Lemma addGrid_Ts : forall b ts ps, NoDup ts -> NoDup ps -> ts <> [] -> ps <> [] ->
  pairs (addGrid b ts ps) = gridPairs b ts ps /\ Ts (addGrid b ts ps) = ts /\ Ps (addGrid b ts ps) = ps.
Proof.
  intros b ts ps Nt Np Et Ep. unfold addGrid. rewrite addPairs_pairs. split; [reflexivity|]. destruct (addPairs_Ts (gridPairs b ts ps)) as [A B]. rewrite A, B.
  unfold gridPairs. destruct b.
  - rewrite !map_flat_map. split.
    + rewrite (flat_map_ext_in _ _ _ (fun r => map (fun _ => r) ps)) by (intros; apply map_map). rewrite outer_list; auto.
    + rewrite (flat_map_ext_in _ _ _ (fun r => map (fun c => c) ps)) by (intros; apply map_map). now apply inner_list.
  - rewrite !map_flat_map. split.
    + rewrite (flat_map_ext_in _ _ _ (fun r => map (fun c => c) ts)) by (intros; apply map_map). now apply inner_list.
    + rewrite (flat_map_ext_in _ _ _ (fun r => map (fun _ => r) ts)) by (intros; apply map_map). rewrite outer_list; auto.
Qed.

(** *** property grid *)
Section Grid.
Variable V : Type.
Variable ask : string -> R -> R -> R * (string -> option V).
Variables toT toP fromP : R -> R.
Notation calc := (calculate V ask toT toP fromP).
Notation value := (is_value V ask toT toP).

Lemma grid_columns_ok : forall res idx cols count (Q : R -> V -> Prop),
  (forall c, (c < length cols)%nat -> exists vs v, nth_error res (count + c) = Some vs /\ nth_error vs idx = Some v /\ Q (nth c cols 0) v) ->
  exists l, grid_columns V res idx count cols = Some l /\ map fst l = cols /\ Forall (fun cv => Q (fst cv) (snd cv)) l.
Proof.
  intros res idx cols. induction cols as [|c cols IH]; intros count Q H; [exists []; repeat split; constructor|].
  destruct (H 0%nat) as (vs & v & E1 & E2 & Hq); [cbn; lia|]. rewrite Nat.add_0_r in E1.
  destruct (IH (S count) Q) as (l & El & Em & Hl).
  { intros d Hd. destruct (H (S d)) as (vs' & v' & A & B & C); [cbn; lia|]. exists vs', v'. split; [rewrite <- A; f_equal; lia|auto]. }
  exists ((c, v) :: l). cbn [grid_columns]. rewrite E1, E2, El. split; [reflexivity|]. split; [cbn; now rewrite Em|]. constructor; [exact Hq|exact Hl].
Qed.
Lemma grid_rows_ok : forall res idx cols cells count (Q : string -> R -> R -> V -> Prop), cols <> [] -> length res = (count + length cells * length cols)%nat ->
  (forall q c, (q < length cells)%nat -> (c < length cols)%nat -> exists vs v, nth_error res (count + length cols * q + c) = Some vs /\ nth_error vs idx = Some v /\
     Q (fst (nth q cells (""%string, 0))) (snd (nth q cells (""%string, 0))) (nth c cols 0) v) ->
  exists g, grid_rows V res idx count cells cols = Some g /\ map (gkey V) g = cells /\
    Forall (fun r => let '(s, x, l) := r in map fst l = cols /\ Forall (fun cv => Q s x (fst cv) (snd cv)) l) g.
Proof.
  intros res idx cols cells. induction cells as [|[s x] cells IH]; intros count Q Hc L H; [exists []; repeat split; constructor|].
  assert (Hpos : (0 < length cols)%nat) by (destruct cols; [congruence|cbn; lia]).
  cbn [grid_rows]. destruct (Nat.eqb_spec count (length res)) as [E|_]; [cbn [length] in L; nia|].
  destruct (grid_columns_ok res idx cols count (Q s x)) as (l & El & Em & Hl).
  { intros c Hcl. destruct (H 0%nat c) as (vs & v & A & B & C); [cbn; lia|exact Hcl|]. exists vs, v. split; [rewrite <- A; f_equal; lia|]. auto. }
  rewrite El. destruct (IH (count + length cols)%nat Q Hc) as (g & Eg & Ek & Hg).
  { cbn [length] in L. lia. }
  { intros q c Hq Hcl. destruct (H (S q) c) as (vs & v & A & B & C); [cbn; lia|exact Hcl|]. exists vs, v. split; [rewrite <- A; f_equal; lia|]. auto. }
  rewrite Eg. exists ((s, x, l) :: g). split; [reflexivity|]. split; [cbn; now rewrite Ek|]. constructor; auto.
Qed.
Lemma flat_len : forall A B (l : list A) (m : list B) (C : Type) (f : A -> B -> C), length (flat_map (fun x => map (f x) m) l) = (length l * length m)%nat.
Proof. intros. induction l as [|x l IH]; [reflexivity|]. cbn. rewrite app_length, map_length, IH. reflexivity. Qed.
Lemma flat_nth : forall A B C (f : A -> B -> C) (l : list A) (m : list B) k r da db dc, (k < length l)%nat -> (r < length m)%nat ->
  nth (length m * k + r) (flat_map (fun x => map (f x) m) l) dc = f (nth k l da) (nth r m db).
Proof.
  intros A B C f l m. induction l as [|x l IH]; intros k r da db dc Hk Hr; [cbn in Hk; lia|]. cbn [flat_map]. destruct k as [|k].
  - rewrite Nat.mul_0_r, Nat.add_0_l, app_nth1 by now rewrite map_length. cbn [nth]. rewrite (nth_indep _ _ (f x db)) by now rewrite map_length. apply map_nth.
  - rewrite app_nth2 by (rewrite map_length; nia). rewrite map_length. replace (length m * S k + r - length m)%nat with (length m * k + r)%nat by nia.
    cbn [nth]. apply IH; [cbn in Hk; lia|exact Hr].
Qed.
Lemma grid_quiet : forall b symbols names ts ps idx n, NoDup ts -> NoDup ps -> ts <> [] -> ps <> [] -> symbols <> [] ->
  quiet V ask toT toP fromP symbols (gridPairs b ts ps) -> known V ask toT toP symbols names (gridPairs b ts ps) -> nth_error names idx = Some n ->
  let rows := if b then ts else ps in let cols := if b then ps else ts in
  exists t' res log g, calc true symbols names (addGrid b ts ps) = Some (t', res, log) /\ foutGrid V b symbols t' res idx = Some g /\
    map (gkey V) g = flat_map (fun s => map (fun r => (s, r)) rows) symbols /\ Forall (grow_right V ask toT toP b cols n) g.
Proof.
  intros b symbols names ts ps idx n Nt Np Et Ep Es Hq Hk Hn rows cols.
  destruct (addGrid_Ts b ts ps Nt Np Et Ep) as (EP & ET & EPs).
  assert (Hs : settles V ask toT toP fromP (fun _ P => P) symbols names (pairs (addGrid b ts ps))) by (rewrite EP; now apply quiet_settles).
  assert (Hk' : known V ask toT toP symbols names (pairs (addGrid b ts ps))) by (rewrite EP; exact Hk).
  destruct (calc_w V ask toT toP fromP (fun _ P => P) symbols names (addGrid b ts ps) Hs Hk' true Es) as (t' & res & log & E & Et' & L & H).
  assert (Eset : settled (fun _ P : R => P) (addGrid b ts ps) = gridPairs b ts ps).
  { unfold settled. rewrite EP. rewrite <- (map_id (gridPairs b ts ps)) at 2. apply map_ext. now intros [? ?]. }
  rewrite Eset in *. rewrite EP in *. assert (Et2 : t' = addGrid b ts ps) by exact Et'.
  exists t', res, log. unfold foutGrid. rewrite Et2, ET, EPs. fold rows cols.
  assert (Nr : gridPairs b ts ps = flat_map (fun r => map (fun c => (if b then r else c, if b then c else r)) cols) rows).
  { unfold gridPairs, rows, cols. destruct b; reflexivity. }
  assert (Lp : length (gridPairs b ts ps) = (length rows * length cols)%nat) by (rewrite Nr; apply flat_len).
  assert (Ncols : cols <> []) by (unfold cols; destruct b; assumption).
  destruct (grid_rows_ok res idx cols (flat_map (fun s => map (fun r => (s, r)) rows) symbols) 0
     (fun s r c v => value s (if b then r else c) (if b then c else r) n v) Ncols) as (g & Eg & Ek & Hg).
  - cbn. rewrite L, Lp, flat_len. lia.
  - intros q c Hql Hc. rewrite flat_len in Hql. cbn [Nat.add].
    assert (Hr0 : (0 < length rows)%nat) by nia.
    set (k := (q / length rows)%nat). set (r := (q mod length rows)%nat).
    assert (Eq : q = (length rows * k + r)%nat) by (apply Nat.div_mod; lia).
    assert (Hr : (r < length rows)%nat) by (apply Nat.mod_upper_bound; lia).
    assert (Hkk : (k < length symbols)%nat) by (apply Nat.div_lt_upper_bound; lia).
    destruct (H (length cols * r + c)%nat k) as (vs & Ev & Lv & Hv); [rewrite Lp; nia|exact Hkk|].
    destruct (Hv idx n Hn) as (v & Hv1 & Hv2). exists vs, v. split; [rewrite <- Ev; f_equal; rewrite Lp; nia|]. split; [exact Hv1|].
    rewrite Nr in Hv2. rewrite (flat_nth _ _ _ (fun r c => (if b then r else c, if b then c else r)) rows cols r c 0 0 (0, 0) Hr Hc) in Hv2. cbn [fst snd] in Hv2.
    rewrite Eq. rewrite (flat_nth _ _ _ (fun s r => (s, r)) symbols rows k r ""%string 0 (""%string, 0) Hkk Hr). exact Hv2.
  - exists g. rewrite Et2 in E. split; [exact E|]. split; [exact Eg|]. split; [exact Ek|]. exact Hg.
Qed.
End Grid.
