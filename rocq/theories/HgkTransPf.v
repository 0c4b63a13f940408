(** Transport properties of water.  *)
From Coq Require Import List Bool Arith Reals Lra Lia Psatz.
From Coquelicot Require Import Coquelicot.
From Verif Require Import GemsModel GemsRun HgkSat HgkPs HgkTrans HgkTransSpec.
Import ListNotations.
Open Scope R_scope.

(** *** The loops: the inner one runs once *)
Lemma inner_done : forall n f hj k s, (hj < k)%nat -> (0 < n)%nat -> inner n f hj k s = (S k, s).
Proof. intros [|n] f hj k s H1 H2; [lia|]. cbn [inner]. destruct (k <=? hj)%nat eqn:E; [apply Nat.leb_le in E; lia|reflexivity]. Qed.
Lemma inner_sum : forall m n f hj k s, (k + m = S hj)%nat -> (m < n)%nat ->
  inner n f hj k s = (S (S hj), s + fold_right (fun j a => f j + a) 0 (seq k m)).
Proof.
  induction m as [|m IH]; intros n f hj k s H1 H2.
  - rewrite inner_done by lia. cbn [seq fold_right]. rewrite Rplus_0_r. f_equal. lia.
  - destruct n as [|n]; [lia|]. cbn [inner]. destruct (k <=? hj)%nat eqn:E; [|apply Nat.leb_gt in E; lia]. rewrite IH by lia. cbn [seq fold_right]. f_equal. ring.
Qed.
Lemma fold_sum : forall f n, fold_right (fun j a => f j + a) 0 (seq 0 (S n)) = sum_f_R0 f n.
Proof.
  intros f n. assert (G : forall (l : list nat) x, fold_right (fun j a => f j + a) x l = fold_right (fun j a => f j + a) 0 l + x) by (induction l as [|j l IH]; intro x; cbn [fold_right]; [ring|rewrite IH; ring]).
  induction n as [|n IH]; [cbn; ring|]. rewrite seq_S, fold_right_app, G, IH. cbn [fold_right Nat.add sum_f_R0]. ring.
Qed.
Lemma outer_done : forall n f hi hj i k s, (hj < k)%nat -> outer n f hi hj i k s = s.
Proof. induction n as [|n IH]; intros f hi hj i k s H; [reflexivity|]. cbn [outer]. destruct (i <=? hi)%nat; [|reflexivity]. rewrite inner_done by lia. cbn [fst snd]. apply IH. lia. Qed.
Lemma nested_once : forall f hi hj, nested f hi hj = sum_f_R0 (f 0%nat) hj.
Proof.
  intros f hi hj. unfold nested. generalize (S hi). intro n. cbn [outer]. change (0 <=? hi)%nat with true. cbv iota zeta. rewrite (inner_sum (S hj)) by lia. cbn [fst snd]. rewrite outer_done by lia. rewrite Rplus_0_l. apply fold_sum.
Qed.
Lemma sum_ext : forall f g n, (forall i, f i = g i) -> sum_f_R0 f n = sum_f_R0 g n.
Proof. intros f g n H. induction n as [|n IH]; cbn [sum_f_R0]; rewrite ?IH, H; reflexivity. Qed.

(** *** Dilute gas *)
Lemma poly_x : forall a T, 0 < T -> gsum (fun i => nth i a 0 / T ^ i) i4 = poly3 a (1 / T).
Proof.
  intros l T H. unfold poly3, gsum, i4. cbn [fold_left sum_f_R0]. assert (T <> 0) by lra. generalize (nth 0 l 0) (nth 1 l 0) (nth 2 l 0) (nth 3 l 0). intros a b c d. field. assumption.
Qed.
Lemma gas_u0 : forall T, 0 < T -> u0 T = gas T.
Proof. intros T H. unfold u0. rewrite poly_x by exact H. reflexivity. Qed.
Lemma va_pos : forall x, 0 < x <= 12 / 5 -> 0 < poly3 va x.
Proof. intros x H. unfold poly3, va. cbn [sum_f_R0 nth]. nra. Qed.
Lemma aL_pos : forall x, 0 < x <= 12 / 5 -> 0 < poly3 aL x.
Proof. intros x H. unfold poly3, aL. cbn [sum_f_R0 nth]. nra. Qed.
Lemma va_up : forall x y, 0 < x < y -> y <= 12 / 5 -> poly3 va x < poly3 va y.
Proof.
  intros x y H1 H2. unfold poly3, va. cbn [sum_f_R0 nth].
  assert (A : 0 < 177624 / 10000000 + 105287 / 10000000 * (x + y) - 36744 / 10000000 * (x * x + x * y + y * y)).
  { assert (x * x <= 12 / 5 * x) by nra. assert (y * y <= 12 / 5 * y) by nra. assert (x * y <= 12 / 5 * x) by nra. assert (x * y <= 12 / 5 * y) by nra. lra. }
  assert (B : 0 < (y - x) * (177624 / 10000000 + 105287 / 10000000 * (x + y) - 36744 / 10000000 * (x * x + x * y + y * y))) by (apply Rmult_lt_0_compat; lra). lra.
Qed.
Lemma inv_T : forall T, 5 / 12 <= T -> 0 < 1 / T <= 12 / 5.
Proof. intros T H. unfold Rdiv. rewrite Rmult_1_l. split; [apply Rinv_0_lt_compat; lra|]. rewrite <- (Rinv_inv (12 * / 5)). apply Rinv_le_contravar; lra. Qed.
Lemma gas_pos : forall T, 5 / 12 <= T -> 0 < gas T.
Proof. intros T H. assert (A := va_pos _ (inv_T T H)). unfold gas. apply Rdiv_lt_0_compat; [|exact A]. apply Rmult_lt_0_compat; [lra|apply sqrt_lt_R0; lra]. Qed.
Lemma gas_up : forall T1 T2, 5 / 12 <= T1 < T2 -> gas T1 < gas T2.
Proof.
  intros T1 T2 H. assert (A1 := inv_T T1 ltac:(lra)). assert (A2 := inv_T T2 ltac:(lra)). assert (P := va_pos _ A2). assert (Q : poly3 va (1 / T2) < poly3 va (1 / T1)).
  { apply va_up; [|apply A1]. split; [apply A2|]. unfold Rdiv. rewrite !Rmult_1_l. apply Rinv_lt_contravar; [apply Rmult_lt_0_compat; lra|lra]. }
  assert (S1 : sqrt T1 < sqrt T2) by (apply sqrt_lt_1; lra). assert (S0 : 0 < sqrt T1) by (apply sqrt_lt_R0; lra). unfold gas.
  generalize dependent (poly3 va (1 / T2)). generalize (poly3 va (1 / T1)). intros p1 p2 P Q. generalize dependent (sqrt T1). generalize (sqrt T2). intros s2 s1 S1 S0.
  apply (Rlt_trans _ (1 / 10 ^ 6 * s2 / p1)); unfold Rdiv.
  - apply Rmult_lt_compat_r; [apply Rinv_0_lt_compat; lra|]. apply Rmult_lt_compat_l; lra.
  - apply Rmult_lt_compat_l; [apply Rmult_lt_0_compat; lra|]. apply Rinv_lt_contravar; [apply Rmult_lt_0_compat; lra|lra].
Qed.
Lemma red_T : forall Tk, 270 <= Tk -> 5 / 12 <= Tk / (64727 / 100). Proof. intros Tk H. lra. Qed.

(** *** Limits *)
Lemma gt_t : forall a b, b < a -> gt a b = true. Proof. intros a b H. unfold gt. destruct (Rlt_dec b a); [reflexivity|lra]. Qed.
Lemma gt_f : forall a b, a <= b -> gt a b = false. Proof. intros a b H. unfold gt. destruct (Rlt_dec b a); [lra|reflexivity]. Qed.
Lemma visc_in : forall Tk P, visc_range Tk P -> visc_out Tk P = false.
Proof.
  intros Tk P (A & B & C & D). unfold visc_out. cbv zeta. rewrite (gt_f P (5000 + 1 / 100)), (gt_f _ (900 + 1 / 100)) by lra. rewrite orb_false_r. cbn [orb].
  apply orb_false_intro; apply andb_false_iff; [destruct B|destruct C]; [right|left|right|left]; apply gt_f; lra.
Qed.
Lemma cond_in : forall Tk P, cond_range Tk P -> cond_out Tk P = false.
Proof.
  intros Tk P (A & B & C & D). unfold cond_out. cbv zeta. rewrite (gt_f P (4000 + 1 / 100)), (gt_f _ (800 + 1 / 100)) by lra. rewrite orb_false_r. cbn [orb].
  apply orb_false_intro; apply andb_false_iff; [destruct B|destruct C]; [right|left|right|left]; apply gt_f; lra.
Qed.
Lemma visc_b : forall Tk P, visc_beyond Tk P -> visc_out Tk P = true.
Proof.
  intros Tk P H. unfold visc_out. cbv zeta. rewrite !orb_true_iff, !andb_true_iff. destruct H as [H|[[H1 H2]|[[H1 H2]|H]]]; [left; left; left|left; left; right; split|left; right; split|right]; apply gt_t; lra.
Qed.
Lemma cond_b : forall Tk P, cond_beyond Tk P -> cond_out Tk P = true.
Proof.
  intros Tk P H. unfold cond_out. cbv zeta. rewrite !orb_true_iff, !andb_true_iff. destruct H as [H|[[H1 H2]|[[H1 H2]|H]]]; [left; left; left|left; left; right; split|left; right; split|right]; apply gt_t; lra.
Qed.
Lemma u2_off : forall T D r b, ordinary (T * (64727 / 100)) -> u2 T D r b = 1.
Proof.
  intros T D r b H. unfold u2, le. destruct (Rle_dec (997 / 1000) T) as [L|L]; [|reflexivity]. destruct (Rle_dec T (10082 / 10000)) as [U|U]; [|reflexivity]. exfalso. unfold ordinary in H. lra.
Qed.
Lemma u2_pos : forall T D r b, 0 < u2 T D r b.
Proof.
  intros T D r b. unfold u2. destruct (_ && _); [|lra]. cbv zeta. destruct (Rlt_dec _ 22); [lra|]. apply Rmult_lt_0_compat; [lra|apply exp_pos].
Qed.

(** *** Viscosity *)
Lemma visc_form : forall Tk P rho beta, 0 < Tk -> visc_range Tk P ->
  viscos Tk P rho beta = gas (Tk / (64727 / 100)) * exp (rho / (317763 / 1000) * row0 (rho / (317763 / 1000))) * u2 (Tk / (64727 / 100)) (rho / (317763 / 1000)) rho beta.
Proof.
  intros Tk P rho beta HT HR. unfold viscos. rewrite (visc_in _ _ HR). cbv zeta. rewrite nested_once. unfold Tstar, Dstar. rewrite gas_u0 by (apply Rdiv_lt_0_compat; lra).
  do 4 f_equal. unfold row0. apply sum_ext. intro j. unfold at2. rewrite pow_O. ring.
Qed.
Lemma visc_form_ord : forall Tk P rho beta, 0 < Tk -> visc_range Tk P -> ordinary Tk ->
  viscos Tk P rho beta = gas (Tk / (64727 / 100)) * exp (rho / (317763 / 1000) * row0 (rho / (317763 / 1000))).
Proof.
  intros Tk P rho beta HT HR HO. rewrite visc_form by assumption. rewrite u2_off; [ring|]. replace (Tk / (64727 / 100) * (64727 / 100)) with Tk by field. exact HO.
Qed.
Lemma visc_pos : forall Tk P rho beta, 270 <= Tk -> visc_range Tk P -> 0 < viscos Tk P rho beta.
Proof.
  intros Tk P rho beta HT HR. rewrite visc_form by (lra || assumption). apply Rmult_lt_0_compat; [apply Rmult_lt_0_compat; [apply gas_pos, red_T, HT|apply exp_pos]|apply u2_pos].
Qed.
Lemma visc_up : forall T1 T2 P1 P2 rho b1 b2, 270 <= T1 < T2 -> visc_range T1 P1 -> visc_range T2 P2 -> ordinary T1 -> ordinary T2 -> viscos T1 P1 rho b1 < viscos T2 P2 rho b2.
Proof.
  intros T1 T2 P1 P2 rho b1 b2 HT R1 R2 O1 O2. rewrite !visc_form_ord by (lra || assumption). apply Rmult_lt_compat_r; [apply exp_pos|]. apply gas_up. lra.
Qed.
(** what is missing: the rows of the powers of 1/T - 1 *)
Lemma sum_head : forall f n, sum_f_R0 f (S n) = f 0%nat + sum_f_R0 (fun i => f (S i)) n.
Proof. intros f n. induction n as [|n IH]; [reflexivity|]. change (sum_f_R0 f (S (S n))) with (sum_f_R0 f (S n) + f (S (S n))). rewrite IH. cbn [sum_f_R0]. ring. Qed.
Lemma visc_lost : forall Tk P rho beta, 0 < Tk -> visc_range Tk P -> ordinary Tk ->
  watson Tk rho = viscos Tk P rho beta * exp (rho / (317763 / 1000) * lost (Tk / (64727 / 100)) (rho / (317763 / 1000))).
Proof.
  intros Tk P rho beta HT HR HO. rewrite visc_form_ord by assumption. unfold watson. cbv zeta. rewrite Rmult_assoc, <- exp_plus. f_equal. f_equal. rewrite <- Rmult_plus_distr_l. f_equal. rewrite sum_head. f_equal. unfold row0. apply sum_ext. intro j. rewrite pow_O. ring.
Qed.
Lemma sum_zero : forall f n, (forall i, f i = 0) -> sum_f_R0 f n = 0.
Proof. intros f n H. induction n as [|n IH]; cbn [sum_f_R0]; rewrite ?IH, H; ring. Qed.
Lemma visc_star : forall P rho beta, visc_range (64727 / 100) P -> viscos (64727 / 100) P rho beta = watson (64727 / 100) rho * u2 1 (rho / (317763 / 1000)) rho beta.
Proof.
  intros P rho beta HR. rewrite visc_form by (lra || assumption). unfold watson. cbv zeta. replace (64727 / 100 / (64727 / 100)) with 1 by field. rewrite Rdiv_1. f_equal. f_equal. f_equal. f_equal. rewrite sum_head. match goal with |- _ = _ + ?b => assert (Zb : b = 0) end.
  - apply sum_zero. intro i. apply sum_zero. intro j. rewrite Rminus_diag_eq, pow_i by (reflexivity || lia). ring.
  - rewrite Zb, Rplus_0_r. unfold row0. apply sum_ext. intro j. rewrite pow_O. ring.
Qed.

(** *** Bounds *)
Lemma exp_hi : forall a v b, 0 <= v -> 0 < a <= 1 - v + v ^ 2 / 2 - v ^ 3 / 6 + v ^ 4 / 24 - v ^ 5 / 120 -> 1 <= b * a ^ 16 -> exp (16 * v) <= b.
Proof.
  intros a v b Hv Ha Hb. assert (A := proj1 (alt 2) v Hv). cbn [Nat.mul Nat.add Te fact INR] in A. assert (B : a <= exp (- v)) by lra. clear A. assert (C := pow_incr a _ 16 ltac:(split; [lra|exact B])).
  assert (E : exp (16 * v) * exp (- v) ^ 16 = 1) by (cbn [pow]; rewrite !Rmult_1_r, <- !exp_plus, <- exp_0; f_equal; ring). assert (P := exp_pos (16 * v)). assert (P2 : 0 < a ^ 16) by (apply pow_lt; lra).
  generalize dependent (exp (- v) ^ 16). generalize dependent (exp (16 * v)). generalize dependent (a ^ 16). intros p Hb P2 x P y Q E. apply (Rmult_le_reg_r p); [exact P2|]. assert (x * p <= x * y) by (apply Rmult_le_compat_l; lra). lra.
Qed.
Lemma exp_lo : forall a v b, 0 <= v -> 1 - v + v ^ 2 / 2 - v ^ 3 / 6 + v ^ 4 / 24 <= a -> b * a ^ 16 <= 1 -> b <= exp (16 * v).
Proof.
  intros a v b Hv Ha Hb. assert (A := proj2 (alt 2) v Hv). cbn [Nat.mul Nat.add Te fact INR] in A. assert (B : exp (- v) <= a) by lra. clear A. assert (C := pow_incr _ a 16 ltac:(split; [apply Rlt_le, exp_pos|exact B])).
  assert (E : exp (16 * v) * exp (- v) ^ 16 = 1) by (cbn [pow]; rewrite !Rmult_1_r, <- !exp_plus, <- exp_0; f_equal; ring). assert (P := exp_pos (16 * v)). assert (P2 : 0 < exp (- v) ^ 16) by (apply pow_lt, exp_pos).
  generalize dependent (exp (- v) ^ 16). generalize dependent (exp (16 * v)). generalize dependent (a ^ 16). intros p Hb x P y Q E P2. apply (Rmult_le_reg_r p); [lra|]. assert (x * y <= x * p) by (apply Rmult_le_compat_l; lra). lra.
Qed.
Lemma e2 : exp (200 / 100) <= 75 / 10.
Proof. replace (200 / 100) with (16 * (200 / 1600)) by field. apply (exp_hi (882496 / 1000000)); lra. Qed.
Lemma e334 : exp (334 / 100) <= 285 / 10.
Proof. replace (334 / 100) with (16 * (334 / 1600)) by field. apply (exp_hi (811597 / 1000000)); lra. Qed.
Lemma e349 : 32 <= exp (349 / 100).
Proof. replace (349 / 100) with (16 * (349 / 1600)) by field. apply (exp_lo (804029 / 1000000)); lra. Qed.
Lemma e525 : 180 <= exp (525 / 100).
Proof. replace (525 / 100) with (16 * (525 / 1600)) by field. apply (exp_lo (720304 / 1000000)); lra. Qed.

(** *** Cold water *)
Lemma dv : forall a b y, 0 < y -> a * y < b -> a < b / y.
Proof. intros a b y H1 H2. apply (Rmult_lt_reg_r y); [exact H1|]. unfold Rdiv. rewrite Rmult_assoc, Rinv_l by lra. lra. Qed.
Definition Wl : list Z := [-62500000000; -20335630000; 473370496000; -1091406336000; 1130072637440; -437949300736]%Z.
Lemma row_2 : forall D, 0 <= D < 16 / 5 -> D * row0 D < 2.
Proof.
  intros D H. assert (A : ev Wl (D * (5 / 16)) < 0) by (apply (neg_01 2); [vm_compute; reflexivity|lra]). unfold ev, Wl in A. cbn [fold_right] in A. unfold row0, vb. cbn [sum_f_R0 nth]. lra.
Qed.
Lemma gas_hot : forall T, 5 / 12 <= T -> T <= 57650 / 100000 -> gas T < 124 / 10 ^ 7.
Proof.
  intros T H1 H2. apply (Rle_lt_trans _ (gas (57650 / 100000))); [destruct (Req_dec T (57650 / 100000)) as [E|E]; [rewrite E; lra|apply Rlt_le, gas_up; lra]|].
  unfold gas. assert (S1 : sqrt (57650 / 100000) < 7593 / 10000) by (rewrite <- (sqrt_pow2 (7593 / 10000)) by lra; apply sqrt_lt_1; lra). assert (P : 614 / 10000 < poly3 va (1 / (57650 / 100000))) by (unfold poly3, va; cbn [sum_f_R0 nth]; lra).
  generalize dependent (poly3 va (1 / (57650 / 100000))). generalize dependent (sqrt (57650 / 100000)). intros x X y Y. apply (Rmult_lt_reg_r y); [lra|]. unfold Rdiv at 1. rewrite Rmult_assoc, Rinv_l by lra. lra.
Qed.
Lemma visc_small : forall Tk P rho beta, 270 <= Tk <= 37315 / 100 -> visc_range Tk P -> 0 <= rho <= 1010 -> viscos Tk P rho beta < 1 / 10 ^ 4.
Proof.
  intros Tk P rho beta HT HR Hr. rewrite visc_form_ord by (unfold ordinary; lra || assumption). assert (G := gas_hot (Tk / (64727 / 100)) ltac:(lra) ltac:(lra)). assert (G0 := gas_pos (Tk / (64727 / 100)) ltac:(lra)).
  assert (X := row_2 (rho / (317763 / 1000)) ltac:(lra)). apply exp_increasing in X. assert (X0 := exp_pos (rho / (317763 / 1000) * row0 (rho / (317763 / 1000)))). assert (X2 : exp 2 <= 75 / 10) by (replace 2 with (200 / 100) by lra; exact e2).
  generalize dependent (exp (rho / (317763 / 1000) * row0 (rho / (317763 / 1000)))). generalize dependent (gas (Tk / (64727 / 100))). generalize dependent (exp 2). intros e E2 g G G0 x X X0.
  apply (Rlt_trans _ (g * (75 / 10))); [apply Rmult_lt_compat_l; lra|lra].
Qed.
Lemma watson_cold : 16 / 10 ^ 4 < watson (27315 / 100) 1000.
Proof.
  unfold watson. cbv zeta. assert (G : 92 / 10 ^ 7 < gas (27315 / 100 / (64727 / 100))).
  { unfold gas. assert (S1 : 6496 / 10000 < sqrt (27315 / 100 / (64727 / 100))) by (rewrite <- (sqrt_pow2 (6496 / 10000)) by lra; apply sqrt_lt_1; lra). assert (P : 0 < poly3 va (1 / (27315 / 100 / (64727 / 100))) < 706 / 10000) by (unfold poly3, va; cbn [sum_f_R0 nth]; lra).
    generalize dependent (poly3 va (1 / (27315 / 100 / (64727 / 100)))). generalize dependent (sqrt (27315 / 100 / (64727 / 100))). intros x X y Y. apply dv; lra. }
  match goal with |- _ < _ * exp ?s => assert (E : 525 / 100 < s) by (unfold vb; cbn [sum_f_R0 nth]; lra) end.
  apply exp_increasing in E. assert (L := e525). generalize dependent (gas (27315 / 100 / (64727 / 100))). intros g G.
  match goal with |- _ < _ * ?x => generalize dependent x end. intros x E. generalize dependent (exp (525 / 100)). intros e E L.
  assert (g * 180 <= g * x) by (apply Rmult_le_compat_l; lra). lra.
Qed.

(** *** Thermal conductivity *)
Lemma cond_form : forall Tk P rho alph beta, 0 < Tk -> cond_range Tk P ->
  thcond Tk P rho alph beta = sqrt (Tk / (64727 / 100)) / poly3 aL (1 / (Tk / (64727 / 100))) * exp (rho / (317763 / 1000) * rowL (rho / (317763 / 1000))) + crit_part Tk rho alph beta.
Proof.
  intros Tk P rho alph beta HT HR. unfold thcond. rewrite (cond_in _ _ HR). cbv zeta. rewrite !nested_once. unfold Tstar, Dstar, Pstar. rewrite gas_u0 by (apply Rdiv_lt_0_compat; lra). rewrite poly_x by (apply Rdiv_lt_0_compat; lra).
  unfold crit_part. cbv zeta.
  assert (A : forall D x m n, sum_f_R0 (fun j => at2 m 0 j * x ^ 0 * (D - 1) ^ j) n = sum_f_R0 (fun j => nth j (nth 0 m []) 0 * (D - 1) ^ j) n) by (intros D x m n; apply sum_ext; intro j; unfold at2; rewrite pow_O; ring).
  rewrite !A. reflexivity.
Qed.
Lemma pw_nonneg : forall w e, 0 <= pw w e. Proof. intros w e. unfold pw. destruct (Req_EM_T w 0); [lra|apply Rlt_le, exp_pos]. Qed.
Lemma crit_nonneg : forall Tk rho alph beta, 270 <= Tk -> 0 <= crit_part Tk rho alph beta.
Proof.
  intros Tk rho alph beta HT. unfold crit_part. cbv zeta. assert (G := gas_pos (Tk / (64727 / 100)) ltac:(lra)).
  apply Rmult_le_pos; [|apply Rlt_le, exp_pos]. apply Rmult_le_pos; [|apply pw_nonneg]. apply Rmult_le_pos; [|apply pw_nonneg]. apply Rmult_le_pos; [|apply pow2_ge_0]. apply Rmult_le_pos; [|apply pow2_ge_0].
  apply Rlt_le, Rdiv_lt_0_compat; [lra|]. apply Rmult_lt_0_compat; [exact G|apply exp_pos].
Qed.
Lemma cond_pos : forall Tk P rho alph beta, 270 <= Tk -> cond_range Tk P -> 0 < thcond Tk P rho alph beta.
Proof.
  intros Tk P rho alph beta HT HR. rewrite cond_form by (lra || assumption). assert (A := crit_nonneg Tk rho alph beta HT). apply Rplus_lt_le_0_compat; [|exact A]. apply Rmult_lt_0_compat; [|apply exp_pos].
  apply Rdiv_lt_0_compat; [apply sqrt_lt_R0; lra|apply aL_pos, inv_T; lra].
Qed.
Lemma crit_0 : forall Tk rho beta, crit_part Tk rho 0 beta = 0.
Proof. intros Tk rho beta. unfold crit_part. cbv zeta. replace (64727 / 100 / 22115000 * 0 / beta) with 0 by (unfold Rdiv; ring). rewrite pow_i by lia. ring. Qed.
Lemma cond_low : forall P beta, cond_range (27713 / 100) P -> thcond (27713 / 100) P 1000 0 beta < 1 / 2.
Proof.
  intros P beta HR. rewrite cond_form by (lra || assumption). rewrite crit_0, Rplus_0_r.
  assert (S1 : 0 < sqrt (27713 / 100 / (64727 / 100)) < 6544 / 10000) by (split; [apply sqrt_lt_R0; lra|rewrite <- (sqrt_pow2 (6544 / 10000)) by lra; apply sqrt_lt_1; lra]).
  assert (Q : 379 / 10 < poly3 aL (1 / (27713 / 100 / (64727 / 100)))) by (unfold poly3, aL; cbn [sum_f_R0 nth]; lra).
  match goal with |- _ * exp ?s < _ => assert (E : s < 334 / 100) by (unfold rowL, bL; cbn [sum_f_R0 nth]; lra); apply exp_increasing in E; assert (E0 := exp_pos s); set (x := exp s) in *; clearbody x end. assert (L := e334).
  generalize dependent (poly3 aL (1 / (27713 / 100 / (64727 / 100)))). generalize dependent (sqrt (27713 / 100 / (64727 / 100))). generalize dependent (exp (334 / 100)). intros e E L y Y z Z.
  assert (A : y / z < 1727 / 100000). { apply (Rmult_lt_reg_r z); [lra|]. unfold Rdiv. rewrite Rmult_assoc, Rinv_l by lra. lra. } assert (A0 : 0 < y / z) by (apply Rdiv_lt_0_compat; lra).
  assert (y / z * x <= y / z * (285 / 10)) by (apply Rmult_le_compat_l; lra). lra.
Qed.
Lemma sengers_high : 55 / 100 < sengers (27713 / 100) 1000.
Proof.
  unfold sengers. cbv zeta.
  assert (S1 : 6543 / 10000 < sqrt (27713 / 100 / (64727 / 100))) by (rewrite <- (sqrt_pow2 (6543 / 10000)) by lra; apply sqrt_lt_1; lra).
  assert (Q : 0 < poly3 aL (1 / (27713 / 100 / (64727 / 100))) < 3795 / 100) by (unfold poly3, aL; cbn [sum_f_R0 nth]; lra).
  match goal with |- _ < _ * exp ?s => assert (E : 349 / 100 < s) by (unfold bL; cbn [sum_f_R0 nth]; lra); apply exp_increasing in E; set (x := exp s) in *; clearbody x end. assert (L := e349).
  generalize dependent (poly3 aL (1 / (27713 / 100 / (64727 / 100)))). generalize dependent (sqrt (27713 / 100 / (64727 / 100))). generalize dependent (exp (349 / 100)). intros e E L y Y z Z.
  assert (A : 1724 / 100000 < y / z) by (apply dv; lra).
  assert (y / z * 32 <= y / z * x) by (apply Rmult_le_compat_l; lra). lra.
Qed.

(** *** Surface tension *)
Lemma surt_out : forall T, T < 27316 / 100 \/ 647067 / 1000 < T -> surten T = Some 0.
Proof. intros T [H|H]; unfold surten; cbv zeta; [rewrite gt_t by lra; reflexivity|rewrite (gt_f (27316 / 100)) by lra; rewrite (gt_t T) by lra; reflexivity]. Qed.
Definition tn (T : R) : R := (999686 / 1000000 - T / (64727 / 100)) / (999686 / 1000000).
Lemma surt_in : forall T, 27316 / 100 <= T -> T <= 6470667 / 10000 -> surten T = Some (2358 / 10000 * (tn T * Rpower (tn T) (256 / 1000)) * (1 - 625 / 1000 * tn T)) /\ 0 < tn T < 8 / 10.
Proof.
  intros T H1 H2. assert (Q : 0 < tn T < 8 / 10) by (unfold tn; lra). split; [|exact Q]. unfold surten. cbv zeta. rewrite (gt_f (27316 / 100)), (gt_f T) by lra. cbn [orb]. destruct (Rle_dec _ T) as [L|L]; [lra|]. unfold Tstar. fold (tn T). destruct (Rlt_dec (tn T) 0) as [N|_]; [lra|]. f_equal.
  unfold pw. destruct (Req_EM_T (tn T) 0) as [Z|_]; [lra|]. replace (1256 / 1000) with (1 + 256 / 1000) by lra. rewrite Rpower_plus, Rpower_1 by lra. lra.
Qed.
Lemma surt_falls : forall T1 T2, 27316 / 100 <= T1 < T2 -> T2 <= 6470667 / 10000 -> exists s1 s2 : R, surten T1 = Some s1 /\ surten T2 = Some s2 /\ 0 < s2 < s1 /\ s1 < 88 / 1000.
Proof.
  intros T1 T2 H1 H2. destruct (surt_in T1 ltac:(lra) ltac:(lra)) as [E1 B1]. destruct (surt_in T2 ltac:(lra) ltac:(lra)) as [E2 B2]. do 2 eexists. split; [exact E1|]. split; [exact E2|].
  assert (L : tn T2 < tn T1) by (unfold tn; lra). assert (M : tn T1 < 5780 / 10000) by (unfold tn; lra). clear E1 E2. generalize dependent (tn T1). intros x Bx L M. generalize dependent (tn T2). intros y By L.
  assert (P : Rpower y (256 / 1000) < Rpower x (256 / 1000)) by (apply Rlt_Rpower_l; lra).
  assert (Py : 0 < Rpower y (256 / 1000)) by apply exp_pos.
  assert (P1 : Rpower x (256 / 1000) < 1) by (rewrite <- (Rpower_1 1 Rlt_0_1); unfold Rpower; rewrite ln_1, Rmult_0_r; apply exp_increasing; assert (N : ln x < ln 1) by (apply ln_increasing; lra); rewrite ln_1 in N; lra).
  generalize dependent (Rpower x (256 / 1000)). generalize dependent (Rpower y (256 / 1000)). intros p Py q Q Q1.
  assert (A0 : 0 < y * (1 - 625 / 1000 * y)) by (apply Rmult_lt_0_compat; lra). assert (A1 : y * (1 - 625 / 1000 * y) < x * (1 - 625 / 1000 * x)) by nra. assert (A2 : x * (1 - 625 / 1000 * x) < 37 / 100) by nra.
  replace (2358 / 10000 * (y * p) * (1 - 625 / 1000 * y)) with (2358 / 10000 * (y * (1 - 625 / 1000 * y) * p)) by ring. replace (2358 / 10000 * (x * q) * (1 - 625 / 1000 * x)) with (2358 / 10000 * (x * (1 - 625 / 1000 * x) * q)) by ring.
  generalize dependent (x * (1 - 625 / 1000 * x)). generalize dependent (y * (1 - 625 / 1000 * y)). intros a A0 b A1 A2. assert (0 < a * p) by (apply Rmult_lt_0_compat; lra). assert (a * p < b * q) by (apply Rmult_gt_0_lt_compat; lra). assert (b * q < b * 1) by (apply Rmult_lt_compat_l; lra). lra.
Qed.
(** between 647.06677 K and the critical temperature it is the power of a negative number *)
Lemma surt_nan : forall T, 64706677 / 100000 <= T < 647067 / 1000 - 1 / 10 ^ 10 -> surten T = None.
Proof.
  intros T H. unfold surten. cbv zeta. rewrite (gt_f (27316 / 100)), (gt_f T) by lra. cbn [orb]. destruct (Rle_dec _ T) as [L|L]; [lra|]. unfold Tstar. fold (tn T). destruct (Rlt_dec (tn T) 0) as [N|N]; [reflexivity|exfalso; apply N; unfold tn; lra].
Qed.

(** *** The records *)
Lemma rec_eq : forall isat T P d f, let r := dim_trans isat T P d f in
  t_visc r = 10 * viscos T (P * 10) (d * 1000) (1 / (d * dpdd f * 10) * 10 / 10 ^ 6) /\
  t_cond r = 23901 / 10 ^ 7 * thcond T (P * 10) (d * 1000) (d * dvdt f) (1 / (d * dpdd f * 10) * 10 / 10 ^ 6).
Proof. intros isat T P d f r. unfold r, dim_trans. cbv zeta. cbn [t_visc t_cond]. unfold un_fvd, un_fc, un_fp. split; [ring|lra]. Qed.
Lemma rec_kin : forall isat T P d f, d <> 0 -> let r := dim_trans isat T P d f in t_visck r * (d * 1000) = 1000 * t_visc r.
Proof. intros isat T P d f Hd r. unfold r, dim_trans. cbv zeta. cbn [t_visck t_visc]. unfold un_fvd, un_fvk. generalize (viscos T (P * 10) (d * 1000) (1 / (d * dpdd f * un_fp) * un_fp / 10 ^ 6)). intro v. field. exact Hd. Qed.
Lemma rec_diff : forall isat T P d f, d <> 0 -> cpd f <> 0 -> let r := dim_trans isat T P d f in
  t_diff r * (d * 1000) * (cpd f * gascon * 1000) * (23901 / 10 ^ 7) = 10000 * t_cond r.
Proof.
  intros isat T P d f Hd Hc r. unfold r, dim_trans. cbv zeta. cbn [t_diff t_cond]. unfold un_fc, un_fvk, un_fh. generalize (thcond T (P * 10) (d * 1000) (d * dvdt f) (1 / (d * dpdd f * un_fp) * un_fp / 10 ^ 6)). intro v. unfold gascon in *. field. split; assumption.
Qed.
Lemma rec_prandtl : forall isat T P d f, d <> 0 -> cpd f <> 0 -> let r := dim_trans isat T P d f in
  (t_cond r <> 0 -> t_prandtl r * t_diff r = t_visck r) /\ (t_cond r = 0 -> t_prandtl r = 0 /\ t_diff r = 0).
Proof.
  intros isat T P d f Hd Hc r. unfold r, dim_trans. cbv zeta. cbn [t_diff t_cond t_visck t_prandtl]. set (c := thcond T (P * 10) (d * 1000) (d * dvdt f) (1 / (d * dpdd f * un_fp) * un_fp / 10 ^ 6)). set (v := viscos T (P * 10) (d * 1000) (1 / (d * dpdd f * un_fp) * un_fp / 10 ^ 6)). clearbody c v.
  unfold un_fc, un_fvk, un_fh, un_fvd. generalize dependent (cpd f). intros k Hk. destruct (Req_EM_T _ 0) as [Z|Z]; (split; intro H; [|]); try contradiction.
  - split; [reflexivity|]. unfold Rdiv in *. rewrite Z. ring.
  - assert (C : c <> 0) by (intro; subst c; apply Z; ring). unfold gascon. field. repeat split; assumption.
Qed.
Lemma rec_zero : forall isat T P d f, let r := dim_trans isat T P d f in
  (visc_beyond T (P * 10) -> t_visc r = 0 /\ t_visck r = 0 /\ t_prandtl r = 0) /\ (cond_beyond T (P * 10) -> t_cond r = 0 /\ t_diff r = 0 /\ t_prandtl r = 0).
Proof.
  intros isat T P d f r. unfold r, dim_trans. cbv zeta. cbn [t_visc t_diff t_cond t_visck t_prandtl]. split; intro H; [apply visc_b in H|apply cond_b in H].
  - assert (V : forall a b, viscos T (P * 10) a b = 0) by (intros a b; unfold viscos; rewrite H; reflexivity). rewrite !V. unfold Rdiv. repeat split; try ring. destruct (Req_EM_T _ 0); ring.
  - assert (V : forall a b c, thcond T (P * 10) a b c = 0) by (intros a b c; unfold thcond; rewrite H; reflexivity). rewrite !V. unfold Rdiv. repeat split; try ring. destruct (Req_EM_T _ 0) as [Z|Z]; [ring|exfalso; apply Z; ring].
Qed.
Lemma rec_surf0 : forall T P Psat ps dll, t_surf (fst (HGKeqn_trans T P Psat ps dll)) = Some 0.
Proof. intros. unfold HGKeqn_trans. cbv zeta. destruct (_ && _); reflexivity. Qed.
Lemma rec_surf1 : forall T P Psat ps dll, t_surf (snd (HGKeqn_trans T P Psat ps dll)) =
  if Rlt_dec Psat (P * 10) then (if Rlt_dec T (647126 / 1000) then option_map (fun s => s * 1000) (surten T) else Some 0) else Some 0.
Proof. intros. unfold HGKeqn_trans, gt. cbv zeta. destruct (Rlt_dec Psat (P * 10)); [destruct (Rlt_dec T (647126 / 1000))|]; reflexivity. Qed.
Lemma rec_sat : forall q T, t_surf (fst (sat_trans q T)) = option_map (fun s => s * 1000) (surten T) /\ t_surf (snd (sat_trans q T)) = option_map (fun s => s * 1000) (surten T).
Proof. intros. split; reflexivity. Qed.
(** a state with a viscosity and no Prandtl number; a step of the pressure that loses the viscosity *)
Lemma rec_gap : forall T P d f, 3982 / 10 <= T <= 423 -> 2001 <= P * 10 <= 3000 -> t_visc (dim_trans 0 T P d f) > 0 /\ t_prandtl (dim_trans 0 T P d f) = 0.
Proof.
  intros T P d f H1 H2. split; [|apply (proj2 (rec_zero 0 T P d f)); right; left; lra]. rewrite (proj1 (rec_eq 0 T P d f)). apply Rlt_gt, Rmult_lt_0_compat; [lra|]. apply visc_pos; [lra|]. unfold visc_range. lra.
Qed.
Lemma visc_step : forall Tk rho beta, 270 <= Tk <= 42315 / 100 -> 0 < viscos Tk 5000 rho beta /\ viscos Tk 5001 rho beta = 0.
Proof.
  intros Tk rho beta H. split; [apply visc_pos; [lra|unfold visc_range; lra]|]. unfold viscos. rewrite visc_b; [reflexivity|]. left. lra.
Qed.
Lemma cold_case : visc_range (27315 / 100) 1 /\ ordinary (27315 / 100) /\ cond_range (27713 / 100) 1. Proof. unfold visc_range, ordinary, cond_range. lra. Qed.
Lemma not_watson : ~ (forall Tk P rho beta, 270 <= Tk -> visc_range Tk P -> ordinary Tk -> viscos Tk P rho beta = watson Tk rho).
Proof.
  intro H. assert (A := H (27315 / 100) 1 1000 1 ltac:(lra) (proj1 cold_case) (proj1 (proj2 cold_case))). assert (B := visc_small (27315 / 100) 1 1000 1 ltac:(lra) (proj1 cold_case) ltac:(lra)). assert (C := watson_cold). lra.
Qed.
Lemma not_sengers : ~ (forall Tk P rho alph beta, 270 <= Tk -> cond_range Tk P -> 0 < beta -> sengers Tk rho <= thcond Tk P rho alph beta).
Proof.
  intro H. assert (A := H (27713 / 100) 1 1000 0 1 ltac:(lra) (proj2 (proj2 cold_case)) ltac:(lra)). assert (B := cond_low 1 1 (proj2 (proj2 cold_case))). assert (C := sengers_high). lra.
Qed.
Lemma surf_mixed : forall T P Psat ps dll, 27316 / 100 <= T <= 647 -> Psat < P * 10 ->
  t_surf (fst (HGKeqn_trans T P Psat ps dll)) = Some 0 /\ exists s, t_surf (snd (HGKeqn_trans T P Psat ps dll)) = Some s /\ 0 < s.
Proof.
  intros T P Psat ps dll HT HP. split; [apply rec_surf0|]. rewrite rec_surf1. destruct (Rlt_dec Psat (P * 10)) as [_|N]; [|lra]. destruct (Rlt_dec T (647126 / 1000)) as [_|N]; [|lra].
  destruct (surt_falls T (64705 / 100) ltac:(lra) ltac:(lra)) as (s1 & s2 & E1 & _ & [B1 B2] & _). rewrite E1. exists (s1 * 1000). split; [reflexivity|]. lra.
Qed.
Lemma case_cp : exists f : fcts, (1 : R) <> 0 /\ cpd f <> 0.
Proof. exists (mkF 0 0 0 0 0 1 1 0 0 1). cbn. lra. Qed.
