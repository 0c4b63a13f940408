(** Proofs about the density search, the fugacity coefficient and the residual functions of CgModel. *)
From Coq Require Import List Bool ZArith Reals Ranalysis5 Lra Lia.
From Coquelicot Require Import Coquelicot.
From Verif Require Import CgModel RDeriv.
Import ListNotations.
Open Scope R_scope.

Lemma odiv_some : forall a b, b <> 0 -> odiv a b = Some (a / b).
Proof. intros a b H. unfold odiv. destruct (Req_EM_T b 0); [contradiction|reflexivity]. Qed.
Lemma odiv_zero : forall a b, b = 0 -> odiv a b = None.
Proof. intros a b H. unfold odiv. destruct (Req_EM_T b 0); [reflexivity|contradiction]. Qed.
Lemma ltb_yes : forall a b, ltb a b = true -> a < b.
Proof. intros a b. unfold ltb. destruct (Rlt_dec a b); [easy|discriminate]. Qed.
Lemma ltb_no : forall a b, ltb a b = false -> b <= a.
Proof. intros a b. unfold ltb. destruct (Rlt_dec a b); [discriminate|intros _; lra]. Qed.
Lemma ltb_t : forall a b, a < b -> ltb a b = true.
Proof. intros a b H. unfold ltb. destruct (Rlt_dec a b); [reflexivity|contradiction]. Qed.
Lemma ltb_f : forall a b, b <= a -> ltb a b = false.
Proof. intros a b H. unfold ltb. destruct (Rlt_dec a b); [lra|reflexivity]. Qed.

(** *** choose *)
Definition below (l : list (option R)) (P : R) (x : nat) (q : R) : Prop := exists p, nth x l None = Some p /\ p < P /\ q <= p.
Definition above (l : list (option R)) (P : R) (x : nat) (q : R) : Prop := exists p, nth x l None = Some p /\ P <= p /\ p <= q.

Lemma choose_inv : forall (all l : list (option R)) (P : R) (i : nat) (dp dm : R) (x1 x2 : nat),
  (forall k, nth k l None = nth (i + k) all None) ->
  0 < dp <= 10000000 -> - 10000000 <= dm <= 0 ->
  (dp < 10000000 -> nth x1 all None = Some (P - dp)) -> (- 10000000 < dm -> nth x2 all None = Some (P - dm)) ->
  let c := choose_at l P i dp dm x1 x2 in
  exists dp' dm', 0 < dp' <= dp /\ dm <= dm' <= 0
   /\ (dp' < 10000000 -> nth (fst c) all None = Some (P - dp')) /\ (- 10000000 < dm' -> nth (snd c) all None = Some (P - dm'))
   /\ (forall p, In (Some p) l -> p < P -> dp' <= P - p) /\ (forall p, In (Some p) l -> P <= p -> P - p <= dm').
Proof.
  intros all l P. induction l as [|o l IH]; intros i dp dm x1 x2 Hl Hp Hm H1 H2 c.
  - exists dp, dm. cbn. repeat split; try lra; try assumption; intros p [].
  - assert (Hl' : forall k, nth k l None = nth (S i + k) all None) by (intros k; replace (S i + k)%nat with (i + S k)%nat by lia; exact (Hl (S k))).
    assert (H0 := Hl 0%nat). cbn in H0. rewrite Nat.add_0_r in H0. unfold c. clear c. destruct o as [p|]; cbn [choose_at].
    + destruct (Rlt_dec 0 (P - p)) as [Hs|Hs].
      * destruct (Rlt_dec (P - p) dp) as [Hd|Hd].
        -- destruct (IH (S i) (P - p) dm i x2 Hl') as [a [b [A [B [C1 [D1 [E1 F1]]]]]]]; try assumption; try lra.
           { intros _. rewrite <- H0. f_equal. lra. }
           exists a, b. repeat split; try lra; try assumption.
           ++ intros q [E|E] Hq; [injection E as <-; lra|now apply E1].
           ++ intros q [E|E] Hq; [injection E as <-; lra|now apply F1].
        -- destruct (IH (S i) dp dm x1 x2 Hl') as [a [b [A [B [C1 [D1 [E1 F1]]]]]]]; try assumption.
           exists a, b. repeat split; try lra; try assumption.
           ++ intros q [E|E] Hq; [injection E as <-; lra|now apply E1].
           ++ intros q [E|E] Hq; [injection E as <-; lra|now apply F1].
      * destruct (Rlt_dec dm (P - p)) as [Hd|Hd].
        -- destruct (IH (S i) dp (P - p) x1 i Hl') as [a [b [A [B [C1 [D1 [E1 F1]]]]]]]; try assumption; try lra.
           { intros _. rewrite <- H0. f_equal. lra. }
           exists a, b. repeat split; try lra; try assumption.
           ++ intros q [E|E] Hq; [injection E as <-; lra|now apply E1].
           ++ intros q [E|E] Hq; [injection E as <-; lra|now apply F1].
        -- destruct (IH (S i) dp dm x1 x2 Hl') as [a [b [A [B [C1 [D1 [E1 F1]]]]]]]; try assumption.
           exists a, b. repeat split; try lra; try assumption.
           ++ intros q [E|E] Hq; [injection E as <-; lra|now apply E1].
           ++ intros q [E|E] Hq; [injection E as <-; lra|now apply F1].
    + destruct (IH (S i) dp dm x1 x2 Hl') as [a [b [A [B [C1 [D1 [E1 F1]]]]]]]; try assumption.
      exists a, b. repeat split; try lra; try assumption.
      * intros q [E|E] Hq; [discriminate E|now apply E1].
      * intros q [E|E] Hq; [discriminate E|now apply F1].
Qed.
Lemma choose_ok : forall (l : list (option R)) (P : R) (x1 x2 : nat) (q0 q1 : R),
  In (Some q0) l -> In (Some q1) l -> q0 < P -> P <= q1 -> P - q0 < 10000000 -> q1 - P < 10000000 ->
  below l P (fst (choose l P x1 x2)) q0 /\ above l P (snd (choose l P x1 x2)) q1.
Proof.
  intros l P x1 x2 q0 q1 I0 I1 L0 L1 W0 W1. unfold choose.
  destruct (choose_inv l l P 0 10000000 (- 10000000) x1 x2) as [a [b [A [B [C1 [D1 [E1 F1]]]]]]]; try lra; [reflexivity|].
  assert (E := E1 q0 I0 L0). assert (G := F1 q1 I1 L1). split.
  - exists (P - a). repeat split; [apply C1|..]; lra.
  - exists (P - b). repeat split; [apply D1|..]; lra.
Qed.

(** *** the search *)
(** what an answer says: a density whose pressure is P, or one on the chord between two densities with pressures on both sides of P *)
Definition chord (pr : R -> option R) (P lo hi r : R) (a b : R) : Prop :=
  exists pa pb, pr a = Some pa /\ pr b = Some pb /\ lo <= pa /\ pa < P /\ P <= pb /\ pb <= hi /\ (r - a) * (pb - pa) = (P - pa) * (b - a).
Lemma line_ok : forall pr P a b pa pb, pr a = Some pa -> pr b = Some pb -> pa < P -> P <= pb ->
  exists r, line P a b (Some pa) (Some pb) = Line r /\ chord pr P pa pb r a b.
Proof.
  intros pr P a b pa pb Ha Hb L1 L2. assert (N : b - a <> 0). { intros E. assert (b = a) by lra. subst b. rewrite Ha in Hb. injection Hb as E2. lra. }
  unfold line, oquot, oop, obind. rewrite (odiv_some _ _ N). assert (M : (pb - pa) / (b - a) <> 0). { unfold Rdiv. apply Rmult_integral_contrapositive_currified; [lra|now apply Rinv_neq_0_compat]. }
  rewrite (odiv_some _ _ M). eexists. split; [reflexivity|]. exists pa, pb. repeat split; try assumption; try lra. field. split; [exact N|lra].
Qed.
Lemma near_ok : forall p P tol, near p P tol = true -> exists q, p = Some q /\ Rabs (q - P) < tol.
Proof. intros [q|] P tol H; [|discriminate H]. exists q. split; [reflexivity|now apply ltb_yes]. Qed.
Lemma near_no : forall P tol, 0 < tol -> near (Some P) P tol = true.
Proof. intros P tol H. cbn. apply ltb_t. replace (P - P) with 0 by ring. now rewrite Rabs_R0. Qed.

Definition answer (pr : R -> option R) (P lo hi : R) (f : found) : Prop :=
  match f with
  | At r => exists p, pr r = Some p /\ Rabs (p - P) < 1 / 100000
  | Line r => exists a b, chord pr P lo hi r a b
  | _ => False
  end.
Lemma chord_wider : forall pr P lo hi lo' hi' r a b, lo' <= lo -> hi <= hi' -> chord pr P lo hi r a b -> chord pr P lo' hi' r a b.
Proof. intros pr P lo hi lo' hi' r a b L H [pa [pb [A [B [C [D [E [F0 G]]]]]]]]. exists pa, pb. repeat split; try assumption; lra. Qed.
Lemma answer_wider : forall pr P lo hi lo' hi' f, lo' <= lo -> hi <= hi' -> answer pr P lo hi f -> answer pr P lo' hi' f.
Proof. intros pr P lo hi lo' hi' [|r|r| |] L H A; cbn in *; try easy. destruct A as [a [b C]]. exists a, b. eapply chord_wider; eassumption. Qed.

Lemma search_ok : forall pr P n a b pa pb x1 x2,
  pr a = Some pa -> pr b = Some pb -> (pa < P \/ (pa = P /\ n <> 0%nat)) -> P < pb -> P - pa < 10000000 -> pb - P < 10000000 ->
  answer pr P pa pb (search pr P n a b (Some pa) (Some pb) x1 x2).
Proof.
  intros pr P n. induction n as [|n IH]; intros a b pa pb x1 x2 Ha Hb L1 L2 W1 W2.
  - cbn [search]. destruct (line_ok pr P a b pa pb Ha Hb) as [r [-> C]]; try lra. { destruct L1 as [L1|[_ L1]]; [exact L1|now destruct L1]. } cbn. now exists a, b.
  - cbn [search].
    assert (E0 : oquot (Some (b - a)) (oop Rminus (Some pb) (Some pa)) = Some ((b - a) / (pb - pa))) by (cbn; apply odiv_some; lra).
    rewrite E0. set (d2 := a + (b - a) / (pb - pa) * (P - pa)).
    change (oop Rplus (Some a) (oop Rmult (Some ((b - a) / (pb - pa))) (oop Rminus (Some P) (Some pa)))) with (Some d2). change (opr pr (Some d2)) with (pr d2).
    destruct (near (pr d2) P (1 / 100000)) eqn:N2.
    { destruct (near_ok _ _ _ N2) as [q [Hq Ht]]. cbn. now exists q. }
    destruct L1 as [L1|[L1 _]].
    2:{ exfalso. assert (E : d2 = a) by (unfold d2; rewrite L1; field; lra). rewrite E, Ha, L1 in N2. rewrite (near_no P (1 / 100000)) in N2; [discriminate N2|lra]. }
    match goal with |- context [opr pr (oop Rplus (Some d2) ?x)] => set (d3 := oop Rplus (Some d2) x) end.
    destruct (near (opr pr d3) P (1 / 1000000)) eqn:N3.
    { destruct (near_ok _ _ _ N3) as [q [Hq Ht]]. destruct d3 as [d|]; [|discriminate Hq]. cbn. exists q. split; [exact Hq|lra]. }
    match goal with |- context [opr pr (oop Rplus d3 ?x)] => set (d4 := oop Rplus d3 x) end.
    destruct (near (opr pr d4) P (1 / 1000000)) eqn:N4.
    { destruct (near_ok _ _ _ N4) as [q [Hq Ht]]. destruct d4 as [d|]; [|discriminate Hq]. cbn. exists q. split; [exact Hq|lra]. }
    assert (C := choose_ok [Some pa; Some pb; pr d2; opr pr d3; opr pr d4] P x1 x2 pa pb).
    destruct (choose [Some pa; Some pb; pr d2; opr pr d3; opr pr d4] P x1 x2) as [y1 y2]. cbn [fst snd] in C.
    destruct C as [[p0 [B1 [B2 B3]]] [p1 [A1 [A2 A3]]]]; try lra; [now left|right; now left|].
    assert (NP : forall o tol, 0 < tol -> near o P tol = false -> o <> Some P). { intros o tol T0 N E. rewrite E, (near_no P tol T0) in N. discriminate N. }
    assert (D : forall y p, nth y [Some pa; Some pb; pr d2; opr pr d3; opr pr d4] None = Some p ->
              exists r, nth y [Some a; Some b; Some d2; d3; d4] None = Some r /\ pr r = Some p).
    { clearbody d4. clearbody d3. intros y p Hy. destruct y as [|[|[|[|[|[|y]]]]]]; cbn [nth] in Hy |- *.
      - exists a. split; [reflexivity|congruence].
      - exists b. split; [reflexivity|congruence].
      - now exists d2.
      - destruct d3 as [d|]; [exists d; split; [reflexivity|exact Hy]|discriminate Hy].
      - destruct d4 as [d|]; [exists d; split; [reflexivity|exact Hy]|discriminate Hy].
      - discriminate Hy.
      - discriminate Hy. }
    assert (A4 : P < p1).
    { destruct (Rle_lt_or_eq_dec _ _ A2) as [L|E]; [exact L|exfalso]. rewrite <- E in A1.
      destruct y2 as [|[|[|[|[|[|y]]]]]]; cbn in A1.
      - injection A1 as E2. lra.
      - injection A1 as E2. lra.
      - revert A1. apply (NP _ (1 / 100000)); [lra|exact N2].
      - revert A1. apply (NP _ (1 / 1000000)); [lra|exact N3].
      - revert A1. apply (NP _ (1 / 1000000)); [lra|exact N4].
      - discriminate A1.
      - discriminate A1. }
    destruct (D y1 p0 B1) as [r0 [R0 Q0]]. destruct (D y2 p1 A1) as [r1 [R1 Q1]]. rewrite R0, R1, B1, A1.
    destruct (ltb (Rabs (r1 - r0)) (1 / 1000)).
    + destruct (line_ok pr P r0 r1 p0 p1 Q0 Q1) as [r [-> K]]; try lra. cbn. exists r0, r1. eapply chord_wider; [| |exact K]; lra.
    + apply (answer_wider pr P p0 p1); try lra. apply IH; try assumption; try lra.
Qed.

(** a chord crosses: the density lies between the two, and for a continuous isotherm a density with pressure P lies there too *)
Lemma chord_between : forall pr P lo hi r a b, chord pr P lo hi r a b -> Rmin a b <= r <= Rmax a b.
Proof.
  intros pr P lo hi r a b [pa [pb [_ [_ [_ [L1 [L2 [_ E]]]]]]]]. set (t := (P - pa) / (pb - pa)).
  assert (T : 0 <= t <= 1). { unfold t. split; [apply Rcomplements.Rdiv_le_0_compat; lra|apply (Rmult_le_reg_r (pb - pa)); [lra|]; field_simplify; lra]. }
  assert (Er : r = a + t * (b - a)) by (unfold t; apply (Rmult_eq_reg_r (pb - pa)); [field_simplify; lra|lra]).
  rewrite Er. unfold Rmin, Rmax. destruct (Rle_dec a b); nra.
Qed.
Lemma chord_root : forall (f : R -> R) P lo hi r a b,
  (forall x, Rmin a b <= x <= Rmax a b -> continuous f x) -> chord (fun x => Some (f x)) P lo hi r a b ->
  exists x, Rmin a b <= x <= Rmax a b /\ f x = P /\ Rabs (r - x) <= Rabs (b - a).
Proof.
  intros f P lo hi r a b C K. assert (B := chord_between _ _ _ _ _ _ _ K). destruct K as [pa [pb [Ha [Hb [_ [L1 [L2 [_ E]]]]]]]]. injection Ha as Ha. injection Hb as Hb.
  assert (X : exists x, Rmin a b <= x <= Rmax a b /\ f x = P).
  { destruct (Rle_lt_or_eq_dec _ _ L2) as [L3|L3]. 2:{ exists b. split; [split; [apply Rmin_r|apply Rmax_r]|lra]. }
    destruct (Rlt_le_dec a b) as [ab|ba].
    - destruct (IVT_interv (fun t => f t - P) a b) as [x [X1 X2]].
      + intros x Hx. apply continuity_pt_minus with (f1 := f) (f2 := fun _ => P); [|apply continuity_pt_const; intros u v; reflexivity]. apply continuity_pt_filterlim. apply C. rewrite Rmin_left, Rmax_right by lra. lra.
      + exact ab.
      + lra.
      + lra.
      + exists x. rewrite Rmin_left, Rmax_right by lra. split; lra.
    - assert (N : b < a). { destruct ba as [N|N]; [exact N|]. subst b. lra. }
      destruct (IVT_interv (fun t => P - f t) b a) as [x [X1 X2]].
      + intros x Hx. apply continuity_pt_minus with (f1 := fun _ => P) (f2 := f); [apply continuity_pt_const; intros u v; reflexivity|]. apply continuity_pt_filterlim. apply C. rewrite Rmin_right, Rmax_left by lra. lra.
      + exact N.
      + lra.
      + lra.
      + exists x. rewrite Rmin_right, Rmax_left by lra. split; lra. }
  destruct X as [x [X1 X2]]. exists x. split; [exact X1|]. split; [exact X2|].
  destruct (Rle_dec a b) as [L|L].
  - rewrite Rmin_left, Rmax_right in * by lra. rewrite (Rabs_pos_eq (b - a)) by lra. apply Rabs_le. lra.
  - rewrite Rmin_right, Rmax_left in * by lra. rewrite (Rabs_left (b - a)) by lra. apply Rabs_le. lra.
Qed.
