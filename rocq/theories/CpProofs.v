(** Proofs about the heat-capacity integration. *)
From Coq Require Import List Bool Reals Lra Lia.
From Coquelicot Require Import Coquelicot.
From Verif Require Import RDeriv CpModel CpSpec.
Import ListNotations.
Open Scope R_scope.

(** *** calculus of one interval *)
Definition Cp_true (c : list R) (T : R) : R := Cpf c T - a_ c 9 + a_ c 9 * sqrt T.
Ltac root T HT s := let Hs := fresh "Hs" in let Hq := fresh "Hq" in
  assert (Hs := sqrt_lt_R0 T HT); assert (Hq := sqrt_sqrt T (Rlt_le _ _ HT)); set (s := sqrt T) in *; clearbody s; subst T.
Lemma pownz : forall x n, 0 < x -> x ^ n <> 0.
Proof. intros. apply pow_nonzero. lra. Qed.
Lemma dlnq : forall Tr T : R, 0 < Tr -> 0 < T -> is_derive (fun t : R => ln (t / Tr)) T (1 / T).
Proof.
  intros Tr T H1 H2. eapply d_eq; [apply d_ln; [apply d_scal_r, d_id|apply Rdiv_lt_0_compat; lra]|]. cbv beta. unfold Rdiv. field. lra.
Qed.
Ltac nzp := lazymatch goal with |- _ * _ <> 0 => apply Rmult_integral_contrapositive_currified; nzp | |- _ => lra end.
Ltac sideT := repeat split; auto; try lra; try (apply pownz; lra); try nzp.
Lemma Hint_derive : forall c Tr T, 0 < Tr -> 0 < T -> is_derive (Hint c Tr) T (Cp_true c T).
Proof.
  intros c Tr T HTr HT. unfold Hint, Cp_true, Cpf.
  generalize (a_ c 0) (a_ c 1) (a_ c 2) (a_ c 3) (a_ c 4) (a_ c 5) (a_ c 6) (a_ c 7) (a_ c 8) (a_ c 9). intros.
  pose proof (dlnq Tr T HTr HT) as DL. set (L := fun t : R => ln (t / Tr)) in *.
  assert (D : is_derive (fun t : R => r * (t - Tr) + r0 * (t ^ 2 - Tr ^ 2) / 2 + r1 * (1 / Tr - 1 / t) + r2 * 2 * (sqrt t - sqrt Tr) + r3 * (t ^ 3 - Tr ^ 3) / 3 +
     r4 * (t ^ 4 - Tr ^ 4) / 4 + r5 * (t ^ 4 * t - Tr ^ 4 * Tr) / 5 + r6 * (1 / Tr ^ 2 - 1 / t ^ 2) / 2 + r8 * 2 * (t * sqrt t - Tr * sqrt Tr) / 3) T
     (r + r0 * T + r1 / (T * T) + r2 / sqrt T + r3 * (T * T) + r4 * (T * T * T) + r5 * (T * T * T * T) + r6 / (T * T * T) + r8 * sqrt T)).
  { auto_derive; [sideT|]. cbn [pow INR pred]. root Tr HTr z. root T HT s. field. repeat split; nra || lra. }
  apply (d_ext (fun t => (r * (t - Tr) + r0 * (t ^ 2 - Tr ^ 2) / 2 + r1 * (1 / Tr - 1 / t) + r2 * 2 * (sqrt t - sqrt Tr) + r3 * (t ^ 3 - Tr ^ 3) / 3 +
     r4 * (t ^ 4 - Tr ^ 4) / 4 + r5 * (t ^ 4 * t - Tr ^ 4 * Tr) / 5 + r6 * (1 / Tr ^ 2 - 1 / t ^ 2) / 2 + r8 * 2 * (t * sqrt t - Tr * sqrt Tr) / 3) + r7 * L t)); [intros; unfold L; ring|].
  eapply d_eq; [apply d_plus; [exact D|apply d_scal; exact DL]|]. cbn [pow]. unfold Rdiv. ring.
Qed.
Lemma Sint_derive : forall c Tr T, 0 < Tr -> 0 < T -> is_derive (Sint c Tr) T (Cp_true c T / T).
Proof.
  intros c Tr T HTr HT. unfold Sint, Cp_true, Cpf.
  generalize (a_ c 0) (a_ c 1) (a_ c 2) (a_ c 3) (a_ c 4) (a_ c 5) (a_ c 6) (a_ c 7) (a_ c 8) (a_ c 9). intros.
  pose proof (dlnq Tr T HTr HT) as DL. set (L := fun t : R => ln (t / Tr)) in *.
  set (rest := fun t : R => r0 * (t - Tr) + r1 * (1 / Tr ^ 2 - 1 / (t * t)) / 2 + r2 * 2 * (1 / sqrt Tr - 1 / sqrt t) + r3 * (t * t - Tr ^ 2) / 2 +
     r4 * (t ^ 3 - Tr ^ 3) / 3 + r5 * (t ^ 4 - Tr ^ 4) / 4 + r6 * (1 / Tr ^ 3 - 1 / t ^ 3) / 3 + r7 * (1 / Tr - 1 / t) + r8 * 2 * (sqrt t - sqrt Tr)).
  assert (D : is_derive rest T ((r0 * T + r1 / (T * T) + r2 / sqrt T + r3 * (T * T) + r4 * (T * T * T) + r5 * (T * T * T * T) + r6 / (T * T * T) + r7 / T + r8 * sqrt T) / T)).
  { unfold rest. pose proof (sqrt_lt_R0 T HT). auto_derive; [sideT|]. cbn [pow INR pred]. root Tr HTr z. root T HT s. field. repeat split; nra || lra. }
  apply (d_ext (fun t => r * L t + rest t)); [intros; unfold L, rest; ring|].
  eapply d_eq; [apply d_plus; [apply d_scal; exact DL|exact D]|]. cbn [pow]. unfold Rdiv. ring.
Qed.
Lemma Gint_id : forall c Tr T, 0 < Tr -> 0 < T -> Gint c Tr T = T * Sint c Tr T - Hint c Tr T.
Proof.
  intros c Tr T HTr HT. unfold Gint, Sint, Hint.
  generalize (a_ c 0) (a_ c 1) (a_ c 2) (a_ c 3) (a_ c 4) (a_ c 5) (a_ c 6) (a_ c 7) (a_ c 8) (a_ c 9) (ln (T / Tr)). intros.
  root Tr HTr z. root T HT s. field. repeat split; lra.
Qed.
Lemma Gint_derive : forall c Tr T, 0 < Tr -> 0 < T -> is_derive (Gint c Tr) T (Sint c Tr T).
Proof.
  intros c Tr T HTr HT. apply (d_ext_pos (fun t => t * Sint c Tr t - Hint c Tr t)); [exact HT|intros t Ht; symmetry; now apply Gint_id|].
  eapply d_eq; [apply d_minus; [apply d_mult; [apply d_id|apply Sint_derive; assumption]|apply Hint_derive; assumption]|]. cbv beta. field. lra.
Qed.
Lemma Sint_0 : forall c T, 0 < T -> Sint c T T = 0.
Proof. intros c T HT. unfold Sint. replace (T / T) with 1 by (field; lra). rewrite ln_1. pose proof (sqrt_lt_R0 T HT). field. repeat split; lra. Qed.
Lemma Hint_0 : forall c T, 0 < T -> Hint c T T = 0.
Proof. intros c T HT. unfold Hint. replace (T / T) with 1 by (field; lra). rewrite ln_1. pose proof (sqrt_lt_R0 T HT). field. repeat split; lra. Qed.
Lemma Gint_0 : forall c T, 0 < T -> Gint c T T = 0.
Proof. intros c T HT. rewrite Gint_id by assumption. rewrite Sint_0, Hint_0 by assumption. ring. Qed.

(** *** interval search *)
Lemma Rleb_t : forall x y, x <= y -> Rleb x y = true. Proof. intros x y H. unfold Rleb. destruct (Rle_dec x y); tauto. Qed.
Lemma Rleb_f : forall x y, y < x -> Rleb x y = false. Proof. intros x y H. unfold Rleb. destruct (Rle_dec x y); [lra|reflexivity]. Qed.
Lemma Rltb_t : forall x y, x < y -> Rltb x y = true. Proof. intros x y H. unfold Rltb. destruct (Rlt_dec x y); tauto. Qed.
Lemma Rltb_f : forall x y, y <= x -> Rltb x y = false. Proof. intros x y H. unfold Rltb. destruct (Rlt_dec x y); [lra|reflexivity]. Qed.

Lemma cont_nth : forall l k p, contiguous l -> nth_error l k = Some p -> fst p < snd p.
Proof.
  induction l as [|[lo hi] l IH]; intros k p C N; [destruct k; discriminate|]. cbn [contiguous] in C. destruct C as (H1 & H2 & H3).
  destruct k; cbn in N; [inversion N; subst; exact H1|]. now apply (IH k).
Qed.
Lemma cont_next : forall l k p q, contiguous l -> nth_error l k = Some p -> nth_error l (S k) = Some q -> fst q = snd p.
Proof.
  induction l as [|[lo hi] l IH]; intros k p q C N1 N2; [destruct k; discriminate|]. cbn [contiguous] in C. destruct C as (H1 & H2 & H3).
  destruct k; cbn in N1, N2.
  - injection N1 as <-. destruct l as [|[lo' hi'] l]; [discriminate|]. cbn in N2. injection N2 as <-. exact H2.
  - exact (IH k p q H3 N1 N2).
Qed.
Lemma cont_lo : forall l lo hi k p, contiguous ((lo, hi) :: l) -> nth_error l k = Some p -> hi <= fst p.
Proof.
  induction l as [|[lo' hi'] l IH]; intros lo hi k p C N; [destruct k; discriminate|].
  change (lo < hi /\ lo' = hi /\ contiguous ((lo', hi') :: l)) in C. destruct C as (H1 & H2 & H3). destruct k; cbn in N; [inversion N; subst; cbn [fst]; lra|].
  pose proof (IH lo' hi' k p H3 N) as E. assert (H5 : lo' < hi') by apply H3. lra.
Qed.
Lemma search_hit : forall l i k p T ko, contiguous l -> nth_error l k = Some p -> fst p <= T < snd p -> search (rows l) i ko T = COk (Some (i + k)%nat).
Proof.
  induction l as [|[lo hi] l IH]; intros i k p T ko C N HT; [destruct k; discriminate|]. cbn [rows map search fst snd].
  destruct k.
  - cbn in N. inversion N; subst. cbn [fst snd] in HT. rewrite Rleb_t, Rltb_t by lra. cbn [andb]. f_equal. f_equal. lia.
  - cbn in N. pose proof (cont_lo l lo hi k p C N) as E. rewrite (Rltb_f T hi) by lra. rewrite andb_false_r. fold (rows l).
    rewrite (IH (S i) k p T ko) by (try assumption; apply C). f_equal. f_equal. lia.
Qed.
Lemma search_below : forall l i T ko, contiguous l -> (forall p, nth_error l 0 = Some p -> T < fst p) -> search (rows l) i ko T = COk ko.
Proof.
  induction l as [|[lo hi] l IH]; intros i T ko C H; [reflexivity|]. cbn [rows map search fst snd].
  specialize (H (lo, hi) eq_refl). cbn [fst] in H. rewrite (Rleb_f lo T) by lra. cbn [andb]. fold (rows l). destruct C as (H1 & H2 & H3).
  apply IH; [exact H3|]. intros p N. destruct l as [|[lo' hi'] l]; [discriminate|]. cbn in N. injection N as <-. cbn [fst]. cbn in H2. lra.
Qed.
Lemma search_above : forall l i T ko, contiguous l -> (forall k p, nth_error l k = Some p -> snd p <= T) -> search (rows l) i ko T = COk ko.
Proof.
  induction l as [|[lo hi] l IH]; intros i T ko C H; [reflexivity|]. cbn [rows map search fst snd].
  pose proof (H 0%nat (lo, hi) eq_refl) as H0. cbn [snd] in H0. rewrite (Rltb_f T hi) by lra. rewrite andb_false_r. fold (rows l). destruct C as (H1 & H2 & H3).
  apply IH; [exact H3|]. intros k p N. exact (H (S k) p N).
Qed.
Lemma last_nth : forall (l : list (R * R)) d, l <> [] -> nth_error l (length l - 1) = Some (last l d).
Proof.
  induction l as [|a l IH]; intros d H; [congruence|]. destruct l as [|b l]; [reflexivity|]. specialize (IH d ltac:(discriminate)).
  replace (length (a :: b :: l) - 1)%nat with (S (length (b :: l) - 1)) by (cbn; lia). cbn [nth_error]. exact IH.
Qed.
Lemma cont_last : forall l k p q, contiguous l -> nth_error l k = Some p -> nth_error l (length l - 1) = Some q -> snd p <= snd q.
Proof.
  induction l as [|[lo hi] l IH]; intros k p q C N1 N2; [destruct k; discriminate|].
  destruct l as [|a l].
  - cbn in N2. destruct k as [|[|]]; cbn in N1; try discriminate. inversion N1; inversion N2; subst. lra.
  - replace (length ((lo, hi) :: a :: l) - 1)%nat with (S (length (a :: l) - 1)) in N2 by (cbn; lia). cbn [nth_error] in N2.
    destruct k; cbn [nth_error] in N1; [|apply (IH k p q); [apply C|exact N1|exact N2]].
    inversion N1; subst. pose proof (IH 0%nat a q (proj2 (proj2 C)) eq_refl N2) as E. pose proof (cont_lo _ _ _ 0%nat a C eq_refl) as F.
    pose proof (cont_nth (a :: l) 0%nat a (proj2 (proj2 C)) eq_refl). cbn [snd]. lra.
Qed.
Lemma nth_rows : forall l k p, nth_error l k = Some p -> nth_error (rows l) k = Some [fst p; snd p].
Proof. intros l k p H. unfold rows. now rewrite (map_nth_error _ _ _ H). Qed.

Lemma select_in : forall l k p T, contiguous l -> nth_error l k = Some p -> fst p <= T < snd p -> select_k (rows l) T = COk (Some k).
Proof. intros. unfold select_k. now rewrite (search_hit l 0 k p T None). Qed.
Lemma select_out : forall l p q T, contiguous l -> nth_error l 0 = Some p -> nth_error l (length l - 1) = Some q ->
  (T < fst p -> select_k (rows l) T = COk (Some 0%nat)) /\ (snd q < T -> select_k (rows l) T = COk (Some (length l - 1)%nat)) /\
  (T = snd q -> select_k (rows l) T = COk None).
Proof.
  intros l p q T C N0 NL. pose proof (cont_last l 0 p q C N0 NL) as E. pose proof (cont_nth l 0 p C N0) as F.
  assert (LR : length (rows l) = length l) by apply map_length.
  assert (FB : idx (rows l) 0 = COk [fst p; snd p] /\ idx (rows l) (length (rows l) - 1) = COk [fst q; snd q]).
  { unfold idx. rewrite LR, (nth_rows _ _ _ N0), (nth_rows _ _ _ NL). now split. }
  destruct FB as [F1 F2]. unfold select_k. split; [|split].
  - intros H. rewrite search_below; [|exact C|intros p' N'; rewrite N0 in N'; inversion N'; subst; exact H].
    cbn [cbind]. rewrite F1, F2. cbn. rewrite Rleb_t by lra. rewrite (Rltb_f (snd q) T) by lra. reflexivity.
  - intros H. rewrite search_above; [|exact C|intros k' p' N'; pose proof (cont_last l k' p' q C N' NL); lra].
    cbn [cbind]. rewrite F1, F2. cbn. rewrite (Rltb_t (snd q) T) by lra. fold (rows l). now rewrite LR.
  - intros H. rewrite search_above; [|exact C|intros k' p' N'; pose proof (cont_last l k' p' q C N' NL); lra].
    cbn [cbind]. rewrite F1, F2. cbn. rewrite (Rltb_f (snd q) T) by lra. rewrite Rleb_f by lra. reflexivity.
Qed.

(** *** coefficients *)
Lemma overlay_same : forall c c', length c = length c' -> overlay c (overlay c' zeros) = overlay c zeros.
Proof.
  intros c c' L. unfold overlay. destruct (le_lt_dec 16 (length c)) as [H|H].
  - rewrite !firstn_app. replace (16 - length c)%nat with 0%nat by lia. reflexivity.
  - f_equal. f_equal. rewrite firstn_app. rewrite skipn_app. rewrite !firstn_length. rewrite L in *.
    replace (firstn 16 c') with c' by (symmetry; apply firstn_all2; lia). rewrite skipn_all.
    replace (length c' - Nat.min 16 (length c'))%nat with 0%nat by lia. cbn [app skipn].
    rewrite firstn_all2; [reflexivity|]. rewrite skipn_length. unfold zeros. rewrite repeat_length. lia.
Qed.

(** *** the loop *)
Section Loop.
Variable d : cpdat.
Variable l : list (R * R).
Hypothesis W : cp_rec d l.

(** the temperature at which pass [j] starts, and the constant of G = H - TS *)
Definition Tb (j : nat) : R := match j with O => cTr d | S _ => fst (nth j l (0, 0)) end.
Definition gconst : R := cG d - (cH d - cTr d * cS d).
Definition st1 (j : nat) (st : cst) : cst := match j with O => st | S i => transition (nth i (trans d) []) st end.
Definition pass (j : nat) (st : cst) (TK : R) : cst :=
  let a := overlay (nth j (coeffs d) []) zeros in let s := st1 j st in
  mkSt a (ft s) (sS s + Sint a (Tb j) TK) (sG s - sS s * (TK - Tb j) - Gint a (Tb j) TK) (sH s + Hint a (Tb j) TK) (sV s).
Fixpoint pref (j : nat) : cst :=
  match j with
  | O => mkSt (overlay (nth 0 (coeffs d) []) zeros) 0 (cS d) (cG d) (cH d) 0
  | S j' => pass j' (pref j') (snd (nth j' l (0, 0)))
  end.
Record inv (j : nat) (st : cst) : Prop := mkInv {
  i_ac : exists c, In c (coeffs d) /\ ac st = overlay c zeros;
  i_ft : ft st = pred j;
  i_G : sG st - (sH st - Tb j * sS st) = gconst }.

Lemma len_c : length (coeffs d) = length l. Proof using W. apply W. Qed.
Lemma nth_l : forall j, (j < length l)%nat -> nth_error l j = Some (nth j l (0, 0)).
Proof. intros j H. now apply nth_error_nth'. Qed.
Lemma nth_c : forall j, (j < length l)%nat -> nth_error (coeffs d) j = Some (nth j (coeffs d) []).
Proof using W. intros j H. apply nth_error_nth'. now rewrite len_c. Qed.
Lemma trans_nth : forall j, (S j < length l)%nat -> exists dS rest, nth_error (trans d) j = Some (fst (nth (S j) l (0, 0)) :: dS :: fst (nth (S j) l (0, 0)) * dS :: rest).
Proof using W.
  intros j N. apply nth_l in N. revert N. generalize (nth (S j) l (0, 0)). intros p N. pose proof (cr_trans d l W) as Htr. unfold trans_ok in Htr.
  assert (N' : nth_error (tl l) j = Some p) by (destruct l; [destruct j; discriminate|exact N]).
  clear - Htr N'. revert j N'. induction Htr as [|x r xs rs H1 H2 IH]; intros j N; [destruct j; discriminate|].
  destruct j; cbn in N |- *; [|now apply IH]. injection N as <-. destruct H1 as (dS & dH & rest & -> & E). subst dH. now exists dS, rest.
Qed.
Lemma Tb_pos : forall j, (j < length l)%nat -> 0 < Tb j.
Proof using W.
  intros j Hj. unfold Tb. destruct j; [apply W|]. apply (cr_pos d l W). now apply nth_In.
Qed.
Lemma hi_pos : forall j, (j < length l)%nat -> 0 < snd (nth j l (0, 0)).
Proof using W.
  intros j Hj. pose proof (cont_nth l j _ (cr_cont d l W) (nth_l j Hj)). pose proof (cr_pos d l W (nth j l (0, 0)) (nth_In _ _ Hj)). lra.
Qed.
Lemma Tb_S : forall j, (S j < length l)%nat -> Tb (S j) = snd (nth j l (0, 0)).
Proof using W. intros j H. unfold Tb. apply (cont_next l j); [apply W| |]; apply nth_l; lia. Qed.

Lemma trans_G : forall j st, (j < length l)%nat -> inv j st -> sG (st1 j st) - (sH (st1 j st) - Tb j * sS (st1 j st)) = gconst.
Proof using W.
  intros j st Hj [_ _ I]. destruct j; [exact I|]. destruct (trans_nth j Hj) as (dS & rest & E). cbn [st1].
  rewrite (nth_error_nth _ _ _ E). unfold transition. cbn [sG sH sS length Nat.ltb Nat.leb a_ nth]. rewrite <- I. unfold Tb. ring.
Qed.
Lemma ovl : forall c c', In c (coeffs d) -> In c' (coeffs d) -> overlay c (overlay c' zeros) = overlay c zeros.
Proof using W.
  intros c c' H H'. destruct (cr_rect d l W) as [n F]. apply overlay_same. rewrite List.Forall_forall in F. now rewrite (F _ H), (F _ H').
Qed.
Lemma step_eq : forall T k j st, (j < length l)%nat -> inv j st ->
  cpstep d T k j st = COk (pass j st (if Nat.eqb j k then T else snd (nth j l (0, 0)))).
Proof using W.
  intros T k j st Hj I. unfold cpstep. rewrite (cr_ints d l W).
  assert (R : nth_error (rows l) j = Some [fst (nth j l (0, 0)); snd (nth j l (0, 0))]) by (apply nth_rows; now apply nth_l).
  assert (I1 : idx (rows l) j = COk [fst (nth j l (0, 0)); snd (nth j l (0, 0))]) by (unfold idx; now rewrite R).
  assert (I2 : idx (coeffs d) j = COk (nth j (coeffs d) [])) by (unfold idx; now rewrite nth_c).
  assert (E1 : (if Nat.eqb j k then COk T else cbind (idx (rows l) j) (fun r => idx r 1)) = COk (if Nat.eqb j k then T else snd (nth j l (0, 0)))).
  { destruct (Nat.eqb j k); [reflexivity|]. rewrite I1. reflexivity. }
  rewrite E1. cbn [cbind]. clear E1.
  assert (E2 : match j with O => COk (cTr d) | S _ => cbind (idx (rows l) j) (fun r => idx r 0) end = COk (Tb j)).
  { destruct j; [reflexivity|]. rewrite I1. reflexivity. }
  rewrite E2. cbn [cbind]. clear E2.
  match goal with |- cbind ?m _ = _ => assert (E3 : m = COk (st1 j st)) end.
  { destruct j; [reflexivity|]. destruct (trans_nth j Hj) as (dS & rest & E). destruct (trans d) as [|t0 ts] eqn:D; [destruct j; discriminate|].
    rewrite (i_ft _ _ I). cbn [pred]. unfold idx at 1. rewrite E. cbn [cbind idx nth_error]. unfold Tb. rewrite Rleb_t by lra. cbn [st1].
    rewrite D. now rewrite (nth_error_nth _ _ _ E). }
  rewrite E3, I2. cbn [cbind]. destruct (i_ac _ _ I) as (c & Hc & A).
  assert (A' : ac (st1 j st) = overlay c zeros) by (destruct j; exact A). rewrite A'.
  rewrite ovl; [|apply nth_In; rewrite len_c; exact Hj|exact Hc]. reflexivity.
Qed.
Lemma pass_G : forall j st T, (j < length l)%nat -> inv j st -> 0 < T ->
  sG (pass j st T) - (sH (pass j st T) - T * sS (pass j st T)) = gconst.
Proof using W.
  intros j st T Hj I HT. unfold pass. cbn [sG sH sS]. rewrite <- (trans_G j st Hj I). rewrite Gint_id by (try assumption; now apply Tb_pos). ring.
Qed.
Lemma inv_pass : forall j st, (S j < length l)%nat -> inv j st -> inv (S j) (pass j st (snd (nth j l (0, 0)))).
Proof using W.
  intros j st Hj I. split.
  - exists (nth j (coeffs d) []). split; [apply nth_In; rewrite len_c; lia|reflexivity].
  - unfold pass. cbn [ft pred]. destruct j; cbn [st1]; [apply (i_ft _ _ I)|]. unfold transition. cbn [ft]. now rewrite (i_ft _ _ I).
  - rewrite Tb_S by assumption. apply pass_G; [lia|exact I|apply hi_pos; lia].
Qed.
Lemma inv_0 : forall c, In c (coeffs d) -> inv 0 (mkSt (overlay c zeros) 0 (cS d) (cG d) (cH d) 0).
Proof. intros c H. split; [now exists c|reflexivity|reflexivity]. Qed.
Lemma inv_pref : forall j, (j < length l)%nat -> inv j (pref j).
Proof using W.
  induction j; intros Hj; [apply inv_0; apply nth_In; now rewrite len_c|]. cbn [pref]. apply inv_pass; [exact Hj|]. apply IHj. lia.
Qed.
Lemma loop_pref : forall T k c j, (k < length l)%nat -> In c (coeffs d) -> (j < k)%nat ->
  fold_left (fun r i => cbind r (cpstep d T k i)) (seq 0 (S j)) (COk (mkSt (overlay c zeros) 0 (cS d) (cG d) (cH d) 0)) = COk (pref (S j)).
Proof using W.
  intros T k c j Hk Hc. induction j; intros Hj.
  - cbn [seq fold_left cbind]. rewrite (step_eq T k 0); [|lia|now apply inv_0]. destruct k; [lia|]. reflexivity.
  - rewrite seq_S, fold_left_app, IHj by lia. cbn [fold_left cbind]. change (0 + S j)%nat with (S j). rewrite step_eq; [|lia|apply inv_pref; lia].
    replace (Nat.eqb (S j) k) with false by (symmetry; apply Nat.eqb_neq; lia). reflexivity.
Qed.
Lemma loop_eq : forall T k c, (k < length l)%nat -> In c (coeffs d) ->
  cploop d T k (mkSt (overlay c zeros) 0 (cS d) (cG d) (cH d) 0) = COk (pass k (pref k) T).
Proof using W.
  intros T k c Hk Hc. unfold cploop. destruct k.
  - cbn [seq fold_left cbind]. rewrite step_eq; [|lia|now apply inv_0]. reflexivity.
  - rewrite seq_S, fold_left_app. rewrite (loop_pref T (S k) c k) by (try assumption; lia). cbn [fold_left cbind]. change (0 + S k)%nat with (S k).
    rewrite step_eq; [|lia|now apply inv_pref]. now rewrite Nat.eqb_refl.
Qed.
(** the properties reported while interval [k] is the one chosen *)
Definition qk (k : nat) (T : R) : cprop :=
  let st := pass k (pref k) T in mkP (sG st) (sH st) (sS st) (Cpf (overlay (nth k (coeffs d) []) zeros) T) (sV st).
Lemma chosen_select : forall k T, chosen l k T -> select_k (ints d) T = COk (Some k) /\ (k < length l)%nat.
Proof using W.
  intros k T (p & N & H). assert (Hk : (k < length l)%nat) by (apply nth_error_Some; rewrite N; discriminate). split; [|exact Hk].
  rewrite (cr_ints d l W). destruct H as [H|[[-> H]|[E H]]].
  - now apply (select_in l k p T (cr_cont d l W)).
  - refine (proj1 (select_out l p (nth (length l - 1) l (0, 0)) T (cr_cont d l W) N _) H). apply nth_l. lia.
  - assert (K : k = (length l - 1)%nat) by lia. rewrite K in N |- *.
    exact (proj1 (proj2 (select_out l (nth 0 l (0, 0)) p T (cr_cont d l W) (nth_l 0 ltac:(lia)) N)) H).
Qed.
Lemma emp_qk : forall k T, chosen l k T -> empCp d T = COk (qk k T).
Proof using W.
  intros k T C. destruct (chosen_select k T C) as [S Hk]. unfold empCp. pose proof len_c as L.
  destruct (coeffs d) as [|c0 cs] eqn:D; [cbn in L; lia|]. rewrite <- D in *. rewrite S. cbn [cbind].
  unfold idx. rewrite (nth_c k Hk). cbn [cbind]. rewrite loop_eq; [reflexivity|exact Hk|]. apply nth_In. now rewrite len_c.
Qed.
Lemma qk_G : forall k T, (k < length l)%nat -> 0 < T -> pG (qk k T) - (pH (qk k T) - T * pS (qk k T)) = gconst.
Proof using W. intros k T Hk HT. apply pass_G; [exact Hk|now apply inv_pref|exact HT]. Qed.
End Loop.

(** *** the properties *)
Lemma a9_overlay : forall c, a_ (overlay c zeros) 9 = a_ c 9.
Proof.
  intros c. unfold overlay, a_, zeros.
  do 10 (destruct c as [|? c]; [reflexivity|]). reflexivity.
Qed.
Lemma nth_overlay : forall c i, (i < 10)%nat -> a_ (overlay c zeros) i = nth i c 0.
Proof.
  intros c i H. unfold overlay, a_, zeros.
  do 10 (destruct c as [|? c]; [do 10 (destruct i as [|i]; [reflexivity|]); lia|]).
  do 10 (destruct i as [|i]; [reflexivity|]); lia.
Qed.
Lemma Cp_true_poly : forall c T, 0 < T -> Cp_true (overlay c zeros) T = cp_poly c T.
Proof.
  intros c T HT. unfold Cp_true, Cpf, cp_poly. rewrite !nth_overlay by lia. pose proof (sqrt_lt_R0 T HT).
  generalize dependent (sqrt T). intros. cbn [pow]. field. split; lra.
Qed.
Lemma qk_derive : forall d l k T, cp_rec d l -> (k < length l)%nat -> 0 < T ->
  let a := overlay (nth k (coeffs d) []) zeros in
  is_derive (fun t : R => pH (qk d l k t)) T (Cp_true a T) /\ is_derive (fun t : R => pS (qk d l k t)) T (Cp_true a T / T) /\
  is_derive (fun t : R => pG (qk d l k t)) T (- pS (qk d l k T)).
Proof.
  intros d l k T W Hk HT a. pose proof (Tb_pos d l W k Hk) as HB. unfold qk, pass. cbn [pH pS pG sH sS sG]. fold a. split; [|split].
  - eapply d_eq; [apply d_plus; [apply d_const|apply Hint_derive; assumption]|]. ring.
  - eapply d_eq; [apply d_plus; [apply d_const|apply Sint_derive; assumption]|]. ring.
  - eapply d_eq; [apply d_minus; [apply d_minus; [apply d_const|apply d_scal, d_minus; [apply d_id|apply d_const]]|apply Gint_derive; assumption]|]. ring.
Qed.
Lemma cp_true : forall a T, a_ a 9 = 0 -> Cp_true a T = Cpf a T.
Proof. intros a T H. unfold Cp_true. rewrite H. ring. Qed.
Lemma chosen_near : forall l k T, inside l k T -> locally T (fun t => chosen l k t).
Proof.
  intros l k T (p & N & H). destruct H as [H|[[E H]|[E H]]].
  - assert (L : locally T (fun t => fst p < t < snd p)).
    { apply (locally_open (fun t => fst p < t < snd p)); [apply open_and; [apply open_gt|apply open_lt]|auto|exact H]. }
    apply (filter_imp (fun t => fst p < t < snd p)); [|exact L]. intros t Ht. exists p. split; [exact N|]. left. lra.
  - apply (filter_imp (fun t => t < fst p)); [|apply (locally_open (fun t => t < fst p)); [apply open_lt|auto|exact H]].
    intros t Ht. exists p. split; [exact N|]. right. left. now split.
  - apply (filter_imp (fun t => t > snd p)); [|apply (locally_open (fun t => t > snd p)); [apply open_gt|auto|exact H]].
    intros t Ht. exists p. split; [exact N|]. right. right. now split.
Qed.
Lemma inside_chosen : forall l k T, inside l k T -> chosen l k T.
Proof. intros l k T H. exact (locally_singleton _ _ (chosen_near l k T H)). Qed.
Lemma consistent : forall d l k T, cp_rec d l -> (forall c, In c (coeffs d) -> a_ c 9 = 0) -> inside l k T -> 0 < T ->
  exists q, locally T (fun t => empCp d t = COk (q t)) /\ cp_consistent q T.
Proof.
  intros d l k T W A I HT. exists (qk d l k). pose proof (proj2 (chosen_select d l W k T (inside_chosen _ _ _ I))) as Hk. split.
  - apply (filter_imp (fun t => chosen l k t)); [|now apply chosen_near]. intros t. now apply emp_qk.
  - destruct (qk_derive d l k T W Hk HT) as (DH & DS & DG).
    assert (E : Cp_true (overlay (nth k (coeffs d) []) zeros) T = pCp (qk d l k T)).
    { unfold qk. cbn [pCp]. apply cp_true. rewrite a9_overlay. apply A. apply nth_In. rewrite (len_c d l W). exact Hk. }
    rewrite E in DH, DS. now split.
Qed.
Lemma reference : forall d l p, cp_rec d l -> nth_error l 0 = Some p -> fst p <= cTr d < snd p ->
  exists q, empCp d (cTr d) = COk q /\ pG q = cG d /\ pH q = cH d /\ pS q = cS d.
Proof.
  intros d l p W N H. exists (qk d l 0 (cTr d)). split; [apply emp_qk; [exact W|]; exists p; split; [exact N|now left]|].
  unfold qk, pass. cbn [pG pH pS sG sH sS st1 pref Tb]. pose proof (cr_Tr d l W). rewrite Sint_0, Hint_0, Gint_0 by assumption. repeat split; ring.
Qed.
Lemma gibbs_const : forall d l k T, cp_rec d l -> chosen l k T -> 0 < T ->
  exists q, empCp d T = COk q /\ pG q - (pH q - T * pS q) = cG d - (cH d - cTr d * cS d).
Proof.
  intros d l k T W C HT. exists (qk d l k T). split; [now apply emp_qk|]. apply qk_G; [exact W| |exact HT]. exact (proj2 (chosen_select d l W k T C)).
Qed.
(** across the boundary [b] between interval [k] and the next *)
Lemma jump : forall d l k p p' t, cp_rec d l -> nth_error l k = Some p -> nth_error l (S k) = Some p' -> nth_error (trans d) k = Some t ->
  exists h s g q, filterlim (fun x => pH (val_of (empCp d x))) (at_left (snd p)) (locally h) /\
    filterlim (fun x => pS (val_of (empCp d x))) (at_left (snd p)) (locally s) /\
    filterlim (fun x => pG (val_of (empCp d x))) (at_left (snd p)) (locally g) /\
    empCp d (snd p) = COk q /\ pS q = s + nth 1 t 0 /\ pH q = h + nth 2 t 0 /\ pG q = g.
Proof.
  intros d l k p p' t W N N' Nt. assert (Hk' : (S k < length l)%nat) by (apply nth_error_Some; rewrite N'; discriminate).
  assert (Hk : (k < length l)%nat) by lia. assert (P : nth k l (0, 0) = p) by now apply nth_error_nth. assert (P' : nth (S k) l (0, 0) = p') by now apply nth_error_nth.
  pose proof (hi_pos d l W k Hk) as HP. rewrite P in HP. destruct (qk_derive d l k (snd p) W Hk HP) as (DH & DS & DG).
  pose proof (cont_nth l k p (cr_cont d l W) N) as LT.
  pose proof (cont_next l k p p' (cr_cont d l W) N N') as NX. pose proof (cont_nth l (S k) p' (cr_cont d l W) N') as LT'.
  assert (B : at_left (snd p) (fun x => chosen l k x)).
  { assert (L : locally (snd p) (fun t => t > fst p)) by (apply (locally_open (fun t => t > fst p)); [apply open_gt|auto|exact LT]).
    unfold at_left, within. revert L. apply filter_imp. intros x H1 H2. exists p. split; [exact N|]. left. lra. }
  assert (F : forall (f : cprop -> R) v, is_derive (fun x : R => f (qk d l k x)) (snd p) v ->
     filterlim (fun x => f (val_of (empCp d x))) (at_left (snd p)) (locally (f (qk d l k (snd p))))).
  { intros f v D. apply (filterlim_ext_loc (fun x : R => f (qk d l k x))).
    - revert B. apply filter_imp. intros x C. now rewrite (emp_qk d l W k x C).
    - apply (filterlim_filter_le_1 _ (filter_le_within (fun u => Rlt u (snd p)))). apply (ex_derive_continuous (fun x : R => f (qk d l k x))). now exists v. }
  exists (pH (qk d l k (snd p))), (pS (qk d l k (snd p))), (pG (qk d l k (snd p))), (qk d l (S k) (snd p)).
  split; [exact (F pH _ DH)|split; [exact (F pS _ DS)|split; [exact (F pG _ DG)|]]].
  split; [apply emp_qk; [exact W|]; exists p'; split; [exact N'|left; lra]|].
  assert (TB : Tb d l (S k) = snd p) by (rewrite (Tb_S d l W) by exact Hk'; now rewrite P).
  destruct (trans_nth d l W k Hk') as (dS & rest & E). rewrite Nt in E. injection E as ->. set (t := _ :: _) in *.
  assert (Q : forall st, st1 d (S k) st = transition t st) by (intros st; cbn [st1]; now rewrite (nth_error_nth _ _ _ Nt)).
  assert (Z : forall st, let r := pass d l (S k) st (snd p) in sS r = sS st + nth 1 t 0 /\ sH r = sH st + nth 2 t 0 /\ sG r = sG st).
  { intros st. unfold pass. cbn [sG sH sS]. rewrite TB, Q. rewrite Sint_0, Hint_0, Gint_0 by exact HP.
    unfold transition. cbn [sG sH sS t length Nat.ltb Nat.leb a_ nth]. repeat split; ring. }
  unfold qk. cbn [pG pH pS pref]. rewrite P. apply Z.
Qed.
(** *** the constant heat capacity *)
Lemma const_consistent : forall Tr G H S Cp T, 0 < Tr -> 0 < T -> cp_consistent (constCp Tr G H S Cp true true) T.
Proof.
  intros Tr G H S Cp T HTr HT. unfold constCp. split; cbn [pH pS pG pCp].
  - eapply d_eq; [apply d_plus; [apply d_const|apply d_scal, d_minus; [apply d_id|apply d_const]]|]. ring.
  - eapply d_eq; [apply d_plus; [apply d_const|apply d_scal, dlnq; assumption]|]. field. lra.
  - eapply d_eq; [apply d_minus; [apply d_minus; [apply d_const|apply d_scal, d_minus; [apply d_id|apply d_const]]|
      apply d_scal, d_minus; [apply d_mult; [apply d_id|apply dlnq; assumption]|apply d_minus; [apply d_id|apply d_const]]]|]. cbv beta. field. lra.
Qed.
Lemma const_gibbs : forall Tr G H S Cp T, 0 < Tr -> 0 < T ->
  pG (constCp Tr G H S Cp true true T) - (pH (constCp Tr G H S Cp true true T) - T * pS (constCp Tr G H S Cp true true T)) = G - (H - Tr * S).
Proof. intros. unfold constCp. cbn [pG pH pS]. ring. Qed.
Lemma const_reference : forall Tr G H S Cp b1 b2, 0 < Tr -> let q := constCp Tr G H S Cp b1 b2 Tr in pG q = G /\ pH q = H /\ pS q = S /\ pCp q = Cp.
Proof.
  intros Tr G H S Cp b1 b2 HTr q. unfold q, constCp. replace (Tr / Tr) with 1 by (field; lra). rewrite ln_1.
  destruct b1, b2; cbn [pG pH pS pCp]; repeat split; ring.
Qed.
(** *** interval choice *)
Lemma chosen_exists : forall l T, contiguous l -> l <> [] -> T <> snd (last l (0, 0)) -> exists k, chosen l k T.
Proof.
  induction l as [|[lo hi] l IH]; intros T C NE D; [congruence|].
  destruct (Rlt_dec T lo) as [H1|H1]; [exists 0%nat, (lo, hi); split; [reflexivity|cbn [fst snd]; right; left; now split]|].
  destruct (Rlt_dec T hi) as [H2|H2]; [exists 0%nat, (lo, hi); split; [reflexivity|cbn [fst snd]; left; lra]|].
  destruct l as [|[lo' hi'] l].
  - cbn in D. exists 0%nat, (lo, hi). split; [reflexivity|]. cbn [fst snd]. right. right. split; [reflexivity|lra].
  - change (lo < hi /\ lo' = hi /\ contiguous ((lo', hi') :: l)) in C. destruct C as (C1 & C2 & C3).
    destruct (IH T C3 ltac:(discriminate) D) as (k & p & N & H). exists (S k), p. split; [exact N|].
    destruct H as [H|[[-> H]|[E H]]].
    + now left.
    + cbn in N. injection N as <-. cbn [fst] in H. lra.
    + right. right. split; [cbn in E |- *; lia|exact H].
Qed.
Lemma chosen_reported : forall d l T, cp_rec d l -> l <> [] -> T <> snd (last l (0, 0)) -> exists k q, chosen l k T /\ empCp d T = COk q.
Proof.
  intros d l T W NE D. destruct (chosen_exists l T (cr_cont d l W) NE D) as [k C]. exists k, (qk d l k T). split; [exact C|now apply emp_qk].
Qed.
Lemma chosen_cp : forall d l k T c, cp_rec d l -> chosen l k T -> 0 < T -> nth_error (coeffs d) k = Some c -> nth 9 c 0 = 0 ->
  exists q, empCp d T = COk q /\ pCp q = cp_poly c T.
Proof.
  intros d l k T c W C HT N Z. exists (qk d l k T). split; [now apply emp_qk|]. unfold qk. cbn [pCp]. rewrite (nth_error_nth _ _ _ N).
  rewrite <- Cp_true_poly by exact HT. symmetry. apply cp_true. now rewrite nth_overlay by lia.
Qed.
Lemma upper_ub : forall d l, cp_rec d l -> l <> [] -> empCp d (snd (last l (0, 0))) = CUB.
Proof.
  intros d l W NE. pose proof (last_nth l (0, 0) NE) as NL. assert (Hl : (0 < length l)%nat) by (destruct l; [congruence|cbn; lia]).
  unfold empCp. pose proof (len_c d l W) as L. destruct (coeffs d) as [|c0 cs]; [cbn in L; lia|]. rewrite (cr_ints d l W).
  rewrite (proj2 (proj2 (select_out l (nth 0 l (0, 0)) (last l (0, 0)) _ (cr_cont d l W) (nth_l l 0 Hl) NL)) eq_refl). reflexivity.
Qed.
Lemma fold_throw : forall d T k js, fold_left (fun r j => cbind r (cpstep d T k j)) js CThrow = CThrow.
Proof. intros d T k. induction js; [reflexivity|]. exact IHjs. Qed.
(** two intervals without a phase transition between them *)
Lemma no_transition : forall d l k T, ints d = rows l -> contiguous l -> length (coeffs d) = length l -> trans d = [] -> chosen l (S k) T ->
  empCp d T = CThrow.
Proof.
  intros d l k T Hi C L Ht (p & N & H). assert (Hk : (S k < length l)%nat) by (apply nth_error_Some; rewrite N; discriminate).
  assert (S : select_k (ints d) T = COk (Some (S k))).
  { rewrite Hi. destruct H as [H|[[E _]|[E H]]]; [now apply (select_in l (S k) p T C)|discriminate|].
    assert (K : S k = (length l - 1)%nat) by lia. rewrite K in N |- *.
    exact (proj1 (proj2 (select_out l (nth 0 l (0, 0)) p T C (nth_l l 0 ltac:(lia)) N)) H). }
  unfold empCp. destruct (coeffs d) as [|c0 cs] eqn:D; [reflexivity|]. rewrite S. cbn [cbind].
  destruct (nth_error (c0 :: cs) (1 + k)) as [c|] eqn:E; [|apply nth_error_None in E; lia]. unfold idx at 1. change (Datatypes.S k) with (1 + k)%nat. rewrite E. cbn [cbind].
  unfold cploop. change (seq 0 (Datatypes.S (1 + k))) with (0%nat :: 1%nat :: seq 2 k). cbn [fold_left cbind].
  set (s := mkSt _ _ _ _ _ _). pose proof (nth_rows l 0 _ (nth_l l 0 ltac:(lia))) as R0. pose proof (nth_rows l 1 _ (nth_l l 1 ltac:(lia))) as R1.
  assert (E0 : exists s', cpstep d T (1 + k) 0 s = COk s').
  { unfold cpstep. rewrite D, Hi. unfold idx. rewrite R0. cbn [Nat.eqb plus cbind nth_error]. eexists. reflexivity. }
  destruct E0 as [s' E0]. rewrite E0. cbn [cbind].
  assert (E1 : cpstep d T (1 + k) 1 s' = CThrow).
  { unfold cpstep. rewrite Hi, Ht. unfold idx. rewrite R1. destruct (Nat.eqb 1 (1 + k)); reflexivity. }
  rewrite E1. cbn [cbind]. now rewrite fold_throw.
Qed.
