(** Proofs about the derivatives carried by the heat-capacity integrations. *)
From Coq Require Import List Bool Reals Lra Lia.
From Coquelicot Require Import Coquelicot.
From Verif Require Import RDeriv ThermoScalarModel ThermoScalarSpec ThermoScalarProofs CpModel CpSpec CpProofs CpTsModel.
Import ListNotations.
Open Scope R_scope.

Lemma cpow_nat : forall x n, 0 < x -> cpow x (INR n) = x ^ n.
Proof. intros x n H. unfold cpow. destruct (Rlt_dec 0 x); [|lra]. now apply Rpower_pow. Qed.
Lemma cpow_half : forall x, 0 < x -> cpow x (1 / 2) = sqrt x.
Proof. intros x H. unfold cpow. destruct (Rlt_dec 0 x); [|lra]. replace (1 / 2) with (/ 2) by field. now apply Rpower_sqrt. Qed.
Lemma cpow_3 : forall x, 0 < x -> cpow x 3 = x ^ 3. Proof. intros. rewrite <- cpow_nat by assumption. f_equal. cbn. ring. Qed.
Lemma cpow_4 : forall x, 0 < x -> cpow x 4 = x ^ 4. Proof. intros. rewrite <- cpow_nat by assumption. f_equal. cbn. ring. Qed.
Lemma cpow_0 : forall x, 0 < x -> cpow x 0 = x ^ 0. Proof. intros. rewrite <- cpow_nat by assumption. reflexivity. Qed.
Lemma cpow_2 : forall x, cpow x 2 = x ^ 2.
Proof.
  intros x. unfold cpow. destruct (Rlt_dec 0 x) as [H|H].
  - rewrite <- (Rpower_pow 2 x) by exact H. apply (f_equal (Rpower x)). change (INR 2) with (1 + 1). ring.
  - assert (I : Int_part 2 = 2%Z). { exact (Int_part_IZR 2). }
    unfold is_int. rewrite I. destruct (Req_EM_T 2 2); [reflexivity|lra].
Qed.
Lemma pow_ok_2 : forall x, pow_ok x 2.
Proof.
  intros x. unfold pow_ok. destruct (Req_dec x 0); [right; right; split; [assumption|exists 2%nat; split; [discriminate|change (INR 2) with (1 + 1); ring]]|].
  right. left. split; [assumption|]. now exists 2%Z.
Qed.
Ltac domt := cbn [dom den]; unfold pow_ok; repeat match goal with |- _ /\ _ => split | |- True => exact I end;
  try lra; try (apply pownz; lra); try nzp; try (now left); try (rewrite ?cpow_half, ?cpow_3, ?cpow_2 by lra);
  try (apply Rdiv_lt_0_compat; lra); try (apply Rgt_not_eq, sqrt_lt_R0; lra); try (apply pownz; lra).
Section One.
Variable c : list R.
Variables Tr T : R.
Hypothesis HTr : 0 < Tr.
Hypothesis HT : 0 < T.
Lemma dom_Cp : dom (CpX c) T 0. Proof using HT. unfold CpX. domt. Qed.
Lemma dom_S : dom (SX c Tr) T 0. Proof using HT HTr. unfold SX. domt. Qed.
Lemma dom_H : dom (HX c Tr) T 0. Proof using HT HTr. unfold HX. domt. Qed.
Lemma dom_G : dom (GX c Tr) T 0. Proof using HT HTr. unfold GX. domt; apply pow_ok_2. Qed.
End One.

(** the values are those of the model over R *)
Lemma den_Cp : forall c T, 0 < T -> den (CpX c) T 0 = Cpf c T.
Proof. intros c T HT. unfold CpX, Cpf. cbn [den]. rewrite cpow_half, cpow_0 by exact HT. cbn [pow]. reflexivity. Qed.
Lemma den_S : forall c Tr T, 0 < Tr -> 0 < T -> den (SX c Tr) T 0 = Sint c Tr T.
Proof. intros c Tr T HTr HT. unfold SX, Sint. cbn [den]. rewrite cpow_half, cpow_3, cpow_4 by exact HT. reflexivity. Qed.
Lemma den_H : forall c Tr T, 0 < Tr -> 0 < T -> den (HX c Tr) T 0 = Hint c Tr T.
Proof. intros c Tr T HTr HT. unfold HX, Hint. cbn [den]. rewrite cpow_half, cpow_3, cpow_4, cpow_2 by exact HT. reflexivity. Qed.
Lemma den_G : forall c Tr T, 0 < Tr -> 0 < T -> den (GX c Tr) T 0 = Gint c Tr T.
Proof. intros c Tr T HTr HT. unfold GX, Gint. cbn [den]. rewrite cpow_half, cpow_3, cpow_4, !cpow_2 by exact HT. reflexivity. Qed.
Lemma X_S : forall c Tr T, 0 < Tr -> 0 < T -> val (teval (SX c Tr) T 0) = Sint c Tr T /\ ddt (teval (SX c Tr) T 0) = Cp_true c T / T.
Proof.
  intros c Tr T HTr HT. pose proof (dom_S c Tr T HTr HT) as D. split; [rewrite teval_val by exact D; now apply den_S|].
  apply (d_unique (Sint c Tr) T); [|now apply Sint_derive].
  apply (d_ext_pos (fun s => den (SX c Tr) s 0)); [exact HT|intros; now apply den_S|]. now apply teval_ddt.
Qed.
Lemma X_H : forall c Tr T, 0 < Tr -> 0 < T -> val (teval (HX c Tr) T 0) = Hint c Tr T /\ ddt (teval (HX c Tr) T 0) = Cp_true c T.
Proof.
  intros c Tr T HTr HT. pose proof (dom_H c Tr T HTr HT) as D. split; [rewrite teval_val by exact D; now apply den_H|].
  apply (d_unique (Hint c Tr) T); [|now apply Hint_derive].
  apply (d_ext_pos (fun s => den (HX c Tr) s 0)); [exact HT|intros; now apply den_H|]. now apply teval_ddt.
Qed.
Lemma X_G : forall c Tr T, 0 < Tr -> 0 < T -> val (teval (GX c Tr) T 0) = Gint c Tr T /\ ddt (teval (GX c Tr) T 0) = Sint c Tr T.
Proof.
  intros c Tr T HTr HT. pose proof (dom_G c Tr T HTr HT) as D. split; [rewrite teval_val by exact D; now apply den_G|].
  apply (d_unique (Gint c Tr) T); [|now apply Gint_derive].
  apply (d_ext_pos (fun s => den (GX c Tr) s 0)); [exact HT|intros; now apply den_G|]. now apply teval_ddt.
Qed.
Lemma pass_vals : forall c Tr x vS vG vH, 0 < Tr -> 0 < x -> let '(S', G', H') := pass_ts c Tr x (vS, vG, vH) in
  val S' = val vS + Sint c Tr x /\ val H' = val vH + Hint c Tr x /\ val G' = val vG - val vS * (x - Tr) - Gint c Tr x /\
  ddt S' = ddt vS + Cp_true c x / x /\ ddt H' = ddt vH + Cp_true c x /\ ddt G' = ddt vG - val S' - ddt vS * (x - Tr).
Proof.
  intros c Tr x vS vG vH HTr Hx. destruct (X_S c Tr x HTr Hx) as [S1 S2]. destruct (X_H c Tr x HTr Hx) as [H1 H2]. destruct (X_G c Tr x HTr Hx) as [G1 G2].
  unfold pass_ts. cbn [ip_add ip_sub val ddt ts_mul ts_sub_d ctor5 Temperature]. rewrite S1, S2, H1, H2, G1, G2. repeat split; ring.
Qed.

(** the passes for interval [k] of a record *)
Definition one_pass (d : cpdat) (l : list (R * R)) (j : nat) (x : R) : list R * R * R * R * R :=
  (overlay (nth j (coeffs d) []) zeros, Tb d l j, x,
   match j with O => 0 | S i => nth 1 (nth i (trans d) []) 0 end, match j with O => 0 | S i => nth 2 (nth i (trans d) []) 0 end).
Definition passes_of (d : cpdat) (l : list (R * R)) (k : nat) (T : R) : list (list R * R * R * R * R) :=
  map (fun j => one_pass d l j (snd (nth j l (0, 0)))) (seq 0 k) ++ [one_pass d l k T].
(** reference values as read from the record: no derivatives *)
Definition ref_ts (d : cpdat) (s : sgh) : Prop :=
  let '(vS, vG, vH) := s in val vS = cS d /\ val vG = cG d /\ val vH = cH d /\ ddt vS = 0 /\ ddt vG = 0 /\ ddt vH = 0.
Definition earlier (d : cpdat) (l : list (R * R)) (k : nat) : R :=
  fold_right Rplus 0 (map (fun j => cp_poly (nth j (coeffs d) []) (snd (nth j l (0, 0)))) (seq 0 k)).

Lemma passes_snoc : forall l p s, passes_ts (l ++ [p]) s = passes_ts [p] (passes_ts l s).
Proof. intros l p s. unfold passes_ts. now rewrite fold_left_app. Qed.
Lemma sum_snoc : forall l x, fold_right Rplus 0 (l ++ [x]) = fold_right Rplus 0 l + x.
Proof. induction l; intros x; cbn; [ring|]. rewrite IHl. ring. Qed.
Lemma step_vals : forall d l k T vS vG vH st, cp_rec d l -> (k < length l)%nat -> 0 < T -> val vS = sS st -> val vG = sG st -> val vH = sH st ->
  let '(S', G', H') := passes_ts [one_pass d l k T] (vS, vG, vH) in
  val S' = sS (pass d l k st T) /\ val G' = sG (pass d l k st T) /\ val H' = sH (pass d l k st T) /\
  ddt S' = ddt vS + cp_poly (nth k (coeffs d) []) T / T /\ ddt H' = ddt vH + cp_poly (nth k (coeffs d) []) T /\ ddt G' = ddt vG - val S' - ddt vS * (T - Tb d l k).
Proof.
  intros d l k T vS vG vH st W Hk HT E1 E2 E3. unfold passes_ts. cbn [fold_left one_pass].
  pose proof (Tb_pos d l W k Hk) as HB. set (a := overlay (nth k (coeffs d) []) zeros).
  match goal with |- context [pass_ts a ?B T (?s, ?g, ?h)] => pose proof (pass_vals a B T s g h HB HT) as P; destruct (pass_ts a B T (s, g, h)) as [[S' G'] H'] end.
  destruct P as (P1 & P2 & P3 & P4 & P5 & P6). cbn [ip_add_d val ddt] in *. unfold a in P4, P5. rewrite Cp_true_poly in P4, P5 by exact HT. fold a in P1, P2, P3.
  unfold pass. cbn [sS sG sH]. fold a.
  assert (Q : sS (st1 d k st) = sS st + match k with O => 0 | S i => nth 1 (nth i (trans d) []) 0 end /\ sG (st1 d k st) = sG st /\
              sH (st1 d k st) = sH st + match k with O => 0 | S i => nth 2 (nth i (trans d) []) 0 end).
  { destruct k; cbn [st1]; [repeat split; ring|]. destruct (trans_nth d l W k Hk) as (dS & rest & E). rewrite (nth_error_nth _ _ _ E).
    unfold transition. cbn [sS sG sH length Nat.ltb Nat.leb a_ nth]. repeat split; ring. }
  destruct Q as (Q1 & Q2 & Q3). rewrite Q1, Q2, Q3, <- E1, <- E2, <- E3. repeat split; assumption.
Qed.
Lemma prefix_vals : forall d l k s, cp_rec d l -> (k < length l)%nat -> ref_ts d s ->
  let '(vS, vG, vH) := passes_ts (map (fun j => one_pass d l j (snd (nth j l (0, 0)))) (seq 0 k)) s in
  val vS = sS (pref d l k) /\ val vG = sG (pref d l k) /\ val vH = sH (pref d l k) /\ ddt vH = earlier d l k /\ (k = 0%nat -> ddt vS = 0 /\ ddt vG = 0).
Proof.
  intros d l k s W. induction k; intros Hk R.
  - destruct s as [[vS vG] vH]. cbn [seq map passes_ts fold_left pref sS sG sH]. destruct R as (R1 & R2 & R3 & R4 & R5 & R6). repeat split; assumption.
  - rewrite seq_S, map_app. change (0 + k)%nat with k. cbn [map]. rewrite passes_snoc. specialize (IHk ltac:(lia) R).
    destruct (passes_ts (map _ (seq 0 k)) s) as [[vS vG] vH]. destruct IHk as (I1 & I2 & I3 & I4 & _).
    pose proof (step_vals d l k (snd (nth k l (0, 0))) vS vG vH (pref d l k) W ltac:(lia) (hi_pos d l W k ltac:(lia)) I1 I2 I3) as P.
    destruct (passes_ts [one_pass d l k _] (vS, vG, vH)) as [[S' G'] H']. destruct P as (P1 & P2 & P3 & P4 & P5 & P6).
    cbn [pref]. split; [exact P1|split; [exact P2|split; [exact P3|split; [|discriminate]]]].
    unfold earlier. rewrite seq_S, map_app. change (0 + k)%nat with k. cbn [map]. rewrite sum_snoc. fold (earlier d l k). rewrite P5, I4. reflexivity.
Qed.
Lemma carried : forall d l k T s, cp_rec d l -> chosen l k T -> 0 < T -> ref_ts d s ->
  let '(S', G', H') := passes_ts (passes_of d l k T) s in
  exists q, empCp d T = COk q /\ val S' = pS q /\ val G' = pG q /\ val H' = pH q /\ ddt H' = cp_poly (nth k (coeffs d) []) T + earlier d l k /\
    (k = 0%nat -> ddt S' = cp_poly (nth k (coeffs d) []) T / T /\ ddt G' = - pS q).
Proof.
  intros d l k T s W C HT RF. pose proof (proj2 (chosen_select d l W k T C)) as Hk. unfold passes_of. rewrite passes_snoc.
  pose proof (prefix_vals d l k s W Hk RF) as P. destruct (passes_ts (map _ (seq 0 k)) s) as [[vS vG] vH]. destruct P as (P1 & P2 & P3 & P4 & P5).
  pose proof (step_vals d l k T vS vG vH (pref d l k) W Hk HT P1 P2 P3) as Q. destruct (passes_ts [one_pass d l k T] (vS, vG, vH)) as [[S' G'] H'].
  destruct Q as (Q1 & Q2 & Q3 & Q4 & Q5 & Q6). exists (qk d l k T). split; [now apply emp_qk|]. unfold qk. cbn [pS pG pH].
  split; [exact Q1|split; [exact Q2|split; [exact Q3|split; [rewrite Q5, P4; ring|]]]]. intros K. destruct (P5 K) as [D1 D2]. rewrite <- Q1, Q4, Q6, D1, D2. split; ring.
Qed.
(** in the first interval the derivatives carried are those of the reported functions *)
Lemma carried_first : forall d l T s, cp_rec d l -> inside l 0 T -> 0 < T -> ref_ts d s ->
  let '(S', G', H') := passes_ts (passes_of d l 0 T) s in
  is_derive (fun t : R => pH (val_of (empCp d t))) T (ddt H') /\ is_derive (fun t : R => pS (val_of (empCp d t))) T (ddt S') /\
  is_derive (fun t : R => pG (val_of (empCp d t))) T (ddt G').
Proof.
  intros d l T s W I HT RF. pose proof (inside_chosen l 0 T I) as C. pose proof (proj2 (chosen_select d l W 0 T C)) as Hk.
  pose proof (carried d l 0 T s W C HT RF) as P. destruct (passes_ts (passes_of d l 0 T) s) as [[S' G'] H'].
  destruct P as (q & E & V1 & V2 & V3 & DH' & DD). destruct (DD eq_refl) as [DS' DG']. clear DD.
  destruct (qk_derive d l 0 T W Hk HT) as (DH & DS & DG). rewrite Cp_true_poly in DH, DS by exact HT.
  assert (EQ : q = qk d l 0 T) by (rewrite (emp_qk d l W 0 T C) in E; now injection E).
  rewrite DH', DS', DG', EQ. unfold earlier. cbn [seq map fold_right]. rewrite Rplus_0_r.
  assert (F : forall (f : cprop -> R) v, is_derive (fun x : R => f (qk d l 0 x)) T v -> is_derive (fun x : R => f (val_of (empCp d x))) T v).
  { intros f v D. apply (is_derive_ext_loc (fun x : R => f (qk d l 0 x))); [|exact D].
    generalize (chosen_near l 0 T I). apply filter_imp. intros x Cx. now rewrite (emp_qk d l W 0 x Cx). }
  split; [exact (F pH _ DH)|split; [exact (F pS _ DS)|exact (F pG _ DG)]].
Qed.
Lemma carried_later : forall d l k T s, cp_rec d l -> inside l k T -> 0 < T -> ref_ts d s -> earlier d l k <> 0 ->
  let '(_, _, H') := passes_ts (passes_of d l k T) s in ~ is_derive (fun t : R => pH (val_of (empCp d t))) T (ddt H').
Proof.
  intros d l k T s W I HT RF NE. pose proof (inside_chosen l k T I) as C. pose proof (proj2 (chosen_select d l W k T C)) as Hk.
  pose proof (carried d l k T s W C HT RF) as P. destruct (passes_ts (passes_of d l k T) s) as [[S' G'] H'].
  destruct P as (q & E & V1 & V2 & V3 & DH' & _). intros D.
  destruct (qk_derive d l k T W Hk HT) as (DH & _ & _). rewrite Cp_true_poly in DH by exact HT.
  assert (D' : is_derive (fun x : R => pH (val_of (empCp d x))) T (cp_poly (nth k (coeffs d) []) T)).
  { apply (is_derive_ext_loc (fun x : R => pH (qk d l k x))); [|exact DH].
    generalize (chosen_near l k T I). apply filter_imp. intros x Cx. now rewrite (emp_qk d l W k x Cx). }
  pose proof (d_unique _ _ _ _ D D') as U. rewrite DH' in U. lra.
Qed.
(** constant heat capacity *)
Lemma const_carried : forall Tr vG vH vS vCp T, 0 < Tr -> 0 < T -> ddt vG = 0 -> ddt vH = 0 -> ddt vS = 0 -> ddt vCp = 0 ->
  let '(S', G', H') := constCp_ts Tr vG vH vS vCp T in
  let q := constCp Tr (val vG) (val vH) (val vS) (val vCp) true true T in
  val S' = pS q /\ val G' = pG q /\ val H' = pH q /\ ddt H' = 0 /\ ddt S' = val vCp * (1 / T - 1 / Tr) /\
  ddt G' = - (val vCp * (ln (T / Tr) + 1 - T / Tr)).
Proof.
  intros Tr vG vH vS vCp T HTr HT D1 D2 D3 D4. unfold constCp_ts, constCp.
  assert (Q : val (ts_div (Temperature T) (Temperature Tr)) = T / Tr) by (cbn; field; lra).
  assert (NZ : is0 (val (ts_div (Temperature T) (Temperature Tr))) = false).
  { rewrite Q. unfold is0. destruct (Req_EM_T (T / Tr) 0) as [e|]; [|reflexivity]. pose proof (Rdiv_lt_0_compat T Tr HT HTr). lra. }
  assert (L1 : val (ts_log (ts_div (Temperature T) (Temperature Tr))) = ln (T / Tr)) by (unfold ts_log; rewrite NZ; cbn [val ctor5]; now rewrite Q).
  assert (L2 : ddt (ts_log (ts_div (Temperature T) (Temperature Tr))) = 1 / T - 1 / Tr).
  { unfold ts_log. rewrite NZ. cbn [ddt ctor5]. rewrite Q. cbn [ts_div Temperature ctor5 ddt val]. field. lra. }
  set (lg := ts_log _) in *. cbn [ip_add ip_sub ts_mul ts_sub ctor5 val ddt Temperature pS pG pH]. rewrite L1, L2, D1, D2, D3, D4. repeat split; try ring. field. lra.
Qed.
