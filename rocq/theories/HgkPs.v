(** The vapour pressure PsHGK: how it varies with temperature.  *)
From Coq Require Import List Bool Arith ZArith Reals Lra Lia.
From Coquelicot Require Import Coquelicot.
From Verif Require Import GemsModel HgkSat.
Import ListNotations.
Open Scope R_scope.

(** *** Signs of polynomials with integer coefficients, by computation *)
Definition ev (l : list Z) (x : R) : R := fold_right (fun c a => IZR c + x * a) 0 l.
Fixpoint addl (a b : list Z) : list Z := match a, b with [], _ => b | _, [] => a | x :: a, y :: b => (x + y)%Z :: addl a b end.
Definition shiftl (k : Z) (l : list Z) : list Z := fold_right (fun c a => addl [c] (addl (map (Z.mul k) a) (0%Z :: a))) [] l.
Definition top (l : list Z) : Z := fold_right (fun c a => (c + Z.max 0 a)%Z) 0%Z l.
Lemma ev_add : forall a b x, ev (addl a b) x = ev a x + ev b x.
Proof. induction a as [|c a IH]; intros [|d b] x; cbn [addl ev fold_right]; try ring. unfold ev in IH. rewrite IH, plus_IZR. fold (ev a x) (ev b x). ring. Qed.
Lemma ev_map : forall k a x, ev (map (Z.mul k) a) x = IZR k * ev a x.
Proof. induction a as [|c a IH]; intro x; cbn [map ev fold_right]; [ring|]. unfold ev in IH. rewrite IH, mult_IZR. fold (ev a x). ring. Qed.
Lemma ev_shift : forall k l x, ev (shiftl k l) x = ev l (IZR k + x).
Proof.
  induction l as [|c l IH]; intro x; [reflexivity|]. change (shiftl k (c :: l)) with (addl [c] (addl (map (Z.mul k) (shiftl k l)) (0%Z :: shiftl k l))). rewrite !ev_add, ev_map.
  change (ev [c] x) with (IZR c + x * 0). change (ev (0%Z :: shiftl k l) x) with (IZR 0 + x * ev (shiftl k l) x). rewrite IH. change (ev (c :: l) (IZR k + x)) with (IZR c + (IZR k + x) * ev l (IZR k + x)). ring.
Qed.
Lemma ev_top : forall l x, 0 <= x <= 1 -> ev l x <= IZR (top l).
Proof.
  induction l as [|c l IH]; intros x H; [cbn; lra|]. change (ev (c :: l) x) with (IZR c + x * ev l x). change (top (c :: l)) with (c + Z.max 0 (top l))%Z. rewrite plus_IZR. apply Rplus_le_compat_l. specialize (IH x H).
  assert (A := IZR_le _ _ (Z.le_max_l 0 (top l))). assert (B := IZR_le _ _ (Z.le_max_r 0 (top l))). set (m := IZR (Z.max 0 (top l))) in *. clearbody m. destruct (Rle_dec (ev l x) 0) as [N|N]; [assert (x * ev l x <= x * 0) by (apply Rmult_le_compat_l; lra); lra|].
  assert (x * ev l x <= 1 * ev l x) by (apply Rmult_le_compat_r; lra). lra.
Qed.
(** negative on [0, n] *)
Definition neg (n : nat) (l : list Z) : bool := forallb (fun k => (top (shiftl (Z.of_nat k) l) <? 0)%Z) (seq 0 n).
Lemma neg_spec : forall n l, neg n l = true -> forall x, 0 <= x < INR n -> ev l x < 0.
Proof.
  intros n l H x Hx. unfold neg in H. rewrite forallb_forall in H. destruct (nfloor_ex x (proj1 Hx)) as [k [K1 K2]].
  assert (L : (k < n)%nat) by (apply INR_lt; lra). assert (A := H k ltac:(apply in_seq; lia)). apply Z.ltb_lt, IZR_lt in A. assert (B := ev_top (shiftl (Z.of_nat k) l) (x - INR k) ltac:(lra)). rewrite ev_shift, <- INR_IZR_INZ in B. replace (INR k + (x - INR k)) with x in B by ring. lra.
Qed.

(** *** The branch above 314 K, in s = sqrt |1 - T / 647.25| *)
Definition Ap (s : R) : R := s ^ 2 * (- (78889166 / 10000000) + s * (25514255 / 10000000 + s * (- (6716169 / 1000000) + s * (33239495 / 1000000 + s * (- (10538479 / 100000) + s * (17435319 / 100000 + s * (- (14839348 / 100000) + s * (48631602 / 1000000)))))))).
Lemma pw_sq : forall s n, 0 <= s -> (1 <= n)%nat -> pw (s ^ 2) (INR n / 2) = s ^ n.
Proof.
  intros s n Hs Hn. unfold pw. destruct (Req_EM_T (s ^ 2) 0) as [E|E].
  - assert (s = 0) by (apply Rsqr_0_uniq; unfold Rsqr; lra). subst s. rewrite pow_i by lia. reflexivity.
  - assert (P : 0 < s) by (destruct (Req_dec s 0) as [Z|Z]; [subst s; exfalso; apply E; ring|lra]). unfold Rpower. rewrite ln_pow by exact P. rewrite <- (Rpower_pow n s P). unfold Rpower. f_equal. cbn [INR]. field.
Qed.
Lemma high_s : forall t s, 0 <= s -> Rabs (1 - t / (64725 / 100)) = s ^ 2 -> ps_high t = 22093 / 1000 * exp (Ap s / (t / (64725 / 100))).
Proof.
  intros t s Hs E. unfold ps_high. cbv zeta. rewrite E. do 2 f_equal. f_equal. unfold gsum, ps_i, ps_a. cbn [fold_left nth].
  assert (G : forall i : nat, pw (s ^ 2) ((INR (i + 1) + 1) / 2) = s ^ (i + 2)). { intro i. rewrite <- (pw_sq s (i + 2) Hs) by lia. f_equal. f_equal. rewrite !plus_INR. cbn [INR]. ring. }
  rewrite !G. cbn [Nat.add]. unfold Ap. ring.
Qed.
Definition Hl : list Z := [-157778332; 76542765; -268646760; 1636460495; -6188764020; 11207538450; -7656086800; -4340815320; 8903608800; -3404212140]%Z.
Definition Kl : list Z := [-157778332; 76542765; -268646760; 1687489005; -6457410780; 13201908150; -16086870000; 13094503680; -8903608800; 3404212140]%Z.
Fixpoint scale (n : Z) (l : list Z) : list Z := match l with [] => [] | c :: l => (c * n ^ Z.of_nat (length l))%Z :: scale n l end.
Lemma ev_scale : forall n l x, (0 < n)%Z -> ev (scale n l) (IZR n * x) * IZR n = IZR (n ^ Z.of_nat (length l)) * ev l x.
Proof.
  intros n l x Hn. induction l as [|c l IH]; [cbn; ring|]. cbn [scale length]. change (ev ((c * n ^ Z.of_nat (length l))%Z :: scale n l) (IZR n * x)) with (IZR (c * n ^ Z.of_nat (length l)) + IZR n * x * ev (scale n l) (IZR n * x)).
  change (ev (c :: l) x) with (IZR c + x * ev l x). rewrite Nat2Z.inj_succ, Z.pow_succ_r by lia. rewrite !mult_IZR.
  replace ((IZR c * IZR (n ^ Z.of_nat (length l)) + IZR n * x * ev (scale n l) (IZR n * x)) * IZR n) with (IZR c * IZR (n ^ Z.of_nat (length l)) * IZR n + IZR n * x * (ev (scale n l) (IZR n * x) * IZR n)) by ring. rewrite IH. ring.
Qed.
Lemma neg_01 : forall m l, neg (S m) (scale (Z.of_nat (S m)) l) = true -> forall x, 0 <= x < 1 -> ev l x < 0.
Proof.
  intros n l H x Hx.
  assert (P : 0 < INR (S n)) by (apply lt_0_INR; lia). assert (A := neg_spec _ _ H (INR (S n) * x) ltac:(split; [apply Rmult_le_pos; lra|rewrite <- (Rmult_1_r (INR (S n))) at 2; apply Rmult_lt_compat_l; lra])).
    assert (B := ev_scale (Z.of_nat (S n)) l x ltac:(lia)). rewrite <- INR_IZR_INZ in B. assert (Q : 0 < IZR (Z.of_nat (S n) ^ Z.of_nat (length l))) by (apply IZR_lt, Z.pow_pos_nonneg; lia).
    destruct (Rlt_dec (ev l x) 0) as [L|L]; [exact L|exfalso]. assert (0 <= IZR (Z.of_nat (S n) ^ Z.of_nat (length l)) * ev l x) by (apply Rmult_le_pos; lra). assert (ev (scale (Z.of_nat (S n)) l) (INR (S n) * x) * INR (S n) < 0 * INR (S n)) by (apply Rmult_lt_compat_r; assumption). lra.
Qed.
Lemma H_neg : forall s, 0 <= s < 1 -> ev Hl s < 0. Proof. apply (neg_01 3). vm_compute. reflexivity. Qed.
Lemma K_neg : forall s, 0 <= s < 1 -> ev Kl s < 0. Proof. apply (neg_01 3). vm_compute. reflexivity. Qed.
Lemma d_below : forall s, 0 <= s < 1 -> is_derive (fun s => Ap s / (1 - s ^ 2)) s (s * (ev Hl s / 10000000) / (1 - s ^ 2) ^ 2).
Proof. intros s H. assert (1 - s ^ 2 <> 0) by nra. unfold Ap. auto_derive; [repeat split; assumption|]. unfold ev, Hl. cbn [fold_right]. field. assumption. Qed.
Lemma d_above : forall s, 0 <= s -> is_derive (fun s => Ap s / (1 + s ^ 2)) s (s * (ev Kl s / 10000000) / (1 + s ^ 2) ^ 2).
Proof. intros s H. assert (1 + s ^ 2 <> 0) by nra. unfold Ap. auto_derive; [repeat split; assumption|]. unfold ev, Kl. cbn [fold_right]. field. assumption. Qed.
Lemma falls : forall (f d : R -> R), (forall x, 0 <= x < 1 -> is_derive f x (d x)) -> (forall x, 0 < x < 1 -> d x < 0) -> forall a b, 0 <= a < b -> b < 1 -> f b < f a.
Proof.
  intros f d D N a b Ha Hb. destruct (MVT_cor2 f d a b ltac:(lra)) as (c & E & C). { intros c Hc. apply is_derive_Reals. apply D. lra. } assert (X := N c ltac:(lra)). assert (d c * (b - a) < 0 * (b - a)) by (apply Rmult_lt_compat_r; lra). lra.
Qed.
Lemma fall_below : forall a b, 0 <= a < b -> b < 1 -> Ap b / (1 - b ^ 2) < Ap a / (1 - a ^ 2).
Proof.
  apply (falls (fun s => Ap s / (1 - s ^ 2)) _ d_below). intros x Hx. assert (E := H_neg x ltac:(lra)). assert (0 < 1 - x ^ 2) by nra. assert (Q : 0 < (1 - x ^ 2) ^ 2) by (apply pow_lt; assumption). unfold Rdiv.
  assert (0 < x * (- ev Hl x * / 10000000) * / (1 - x ^ 2) ^ 2) by (apply Rmult_lt_0_compat; [apply Rmult_lt_0_compat; [lra|lra]|apply Rinv_0_lt_compat; exact Q]). lra.
Qed.
Lemma fall_above : forall a b, 0 <= a < b -> b < 1 -> Ap b / (1 + b ^ 2) < Ap a / (1 + a ^ 2).
Proof.
  apply (falls (fun s => Ap s / (1 + s ^ 2)) _ (fun s H => d_above s (proj1 H))). intros x Hx. assert (E := K_neg x ltac:(lra)). assert (0 < 1 + x ^ 2) by nra. assert (Q : 0 < (1 + x ^ 2) ^ 2) by (apply pow_lt; assumption). unfold Rdiv.
  assert (0 < x * (- ev Kl x * / 10000000) * / (1 + x ^ 2) ^ 2) by (apply Rmult_lt_0_compat; [apply Rmult_lt_0_compat; [lra|lra]|apply Rinv_0_lt_compat; exact Q]). lra.
Qed.
Definition root (t : R) : R := sqrt (Rabs (1 - t / (64725 / 100))).
Lemma root_sq : forall t, Rabs (1 - t / (64725 / 100)) = root t ^ 2.
Proof. intro t. unfold root. rewrite pow2_sqrt; [reflexivity|apply Rabs_pos]. Qed.
Lemma high_below : forall t, t <= 64725 / 100 -> ps_high t = 22093 / 1000 * exp (Ap (root t) / (1 - root t ^ 2)).
Proof. intros t H. rewrite (high_s t (root t) (sqrt_pos _) (root_sq t)). rewrite <- root_sq, Rabs_pos_eq by lra. do 3 f_equal. lra. Qed.
Lemma high_above : forall t, 64725 / 100 <= t -> ps_high t = 22093 / 1000 * exp (Ap (root t) / (1 + root t ^ 2)).
Proof. intros t H. rewrite (high_s t (root t) (sqrt_pos _) (root_sq t)). rewrite <- root_sq, Rabs_left1 by lra. do 3 f_equal. lra. Qed.
Lemma high_up : forall t1 t2, 0 < t1 < t2 -> t2 <= 64725 / 100 -> ps_high t1 < ps_high t2.
Proof.
  intros t1 t2 H1 H2. rewrite !high_below by lra. apply Rmult_lt_compat_l; [lra|]. apply exp_increasing, fall_below; unfold root; rewrite !Rabs_pos_eq by lra.
  - split; [apply sqrt_pos|apply sqrt_lt_1; lra].
  - apply (Rlt_le_trans _ (sqrt 1)); [apply sqrt_lt_1; lra|rewrite sqrt_1; lra].
Qed.
Lemma high_down : forall t1 t2, 64725 / 100 <= t1 < t2 -> t2 < 2 * (64725 / 100) -> ps_high t2 < ps_high t1.
Proof.
  intros t1 t2 H1 H2. rewrite !high_above by lra. apply Rmult_lt_compat_l; [lra|]. apply exp_increasing, fall_above; unfold root; rewrite !Rabs_left1 by lra.
  - split; [apply sqrt_pos|apply sqrt_lt_1; lra].
  - apply (Rlt_le_trans _ (sqrt 1)); [apply sqrt_lt_1; lra|rewrite sqrt_1; lra].
Qed.
Lemma high_crit : ps_high (64725 / 100) = 22093 / 1000.
Proof. rewrite high_below by lra. unfold root. replace (1 - 64725 / 100 / (64725 / 100)) with 0 by field. rewrite Rabs_R0, sqrt_0. unfold Ap. replace (0 ^ 2) with 0 by ring. rewrite !Rmult_0_l. unfold Rdiv at 2. rewrite Rmult_0_l, exp_0. ring. Qed.

(** *** The branch up to 314 K, in r = T^(-1/5) *)
Definition r5 (t : R) : R := Rpower t (- (1 / 5)).
Lemma r5_pos : forall t, 0 < r5 t. Proof. intro t. apply exp_pos. Qed.
Lemma r5_5 : forall t, 0 < t -> r5 t ^ 5 = / t.
Proof. intros t H. unfold r5. rewrite <- Rpower_pow by apply exp_pos. rewrite Rpower_mult. replace (- (1 / 5) * INR 5) with (- (1)) by (cbn; field). rewrite Rpower_Ropp, Rpower_1 by exact H. reflexivity. Qed.
Lemma low_r : forall t, 0 < t -> ps_low t = 1 / 10 * exp (63573118 / 10000000 - 8858843 / 1000 * r5 t ^ 5 + 60756335 / 100000 * r5 t ^ 3).
Proof.
  intros t H. unfold ps_low. rewrite (r5_5 t H). assert (E : Rpower t (- (6 / 10)) = r5 t ^ 3). { unfold r5. rewrite <- Rpower_pow by apply exp_pos. rewrite Rpower_mult. f_equal. cbn [INR]. field. } rewrite E. reflexivity.
Qed.
Lemma pow5_lt : forall a b, 0 < a -> 0 < b -> a ^ 5 < b ^ 5 -> a < b.
Proof. intros a b Ha Hb H. destruct (Rlt_dec a b) as [L|L]; [exact L|exfalso]. assert (X : b ^ 5 <= a ^ 5) by (apply pow_incr; lra). lra. Qed.
Lemma low_up : forall t1 t2, 0 < t1 < t2 -> t2 <= 314 -> ps_low t1 < ps_low t2.
Proof.
  intros t1 t2 H1 H2. rewrite !low_r by lra. apply Rmult_lt_compat_l; [lra|]. apply exp_increasing. assert (A := r5_pos t1). assert (B := r5_pos t2).
  assert (L : r5 t2 < r5 t1). { apply pow5_lt; [exact B|exact A|]. rewrite !r5_5 by lra. apply Rinv_lt_contravar; [apply Rmult_lt_0_compat; lra|lra]. }
  assert (M : 3 / 10 < r5 t2). { apply pow5_lt; [lra|exact B|]. rewrite r5_5 by lra. apply (Rlt_le_trans _ (/ 314)); [lra|apply Rinv_le_contravar; lra]. }
  set (a := r5 t1) in *. set (b := r5 t2) in *. clearbody a b. assert (X : 60756335 / 100000 * (a ^ 2 + a * b + b ^ 2) < 8858843 / 1000 * (a ^ 4 + a ^ 3 * b + a ^ 2 * b ^ 2 + a * b ^ 3 + b ^ 4)).
  { assert (9 / 100 * (a ^ 2 + a * b + b ^ 2) <= a ^ 4 + a ^ 3 * b + a ^ 2 * b ^ 2) by (replace (a ^ 4 + a ^ 3 * b + a ^ 2 * b ^ 2) with (a ^ 2 * (a ^ 2 + a * b + b ^ 2)) by ring; apply Rmult_le_compat_r; nra). assert (0 < a * b ^ 3 + b ^ 4) by (apply Rplus_lt_0_compat; [apply Rmult_lt_0_compat; [lra|apply pow_lt; lra]|apply pow_lt; lra]). assert (0 < a ^ 2 + a * b + b ^ 2) by nra. lra. }
  assert (Y : 0 < (a - b) * (8858843 / 1000 * (a ^ 4 + a ^ 3 * b + a ^ 2 * b ^ 2 + a * b ^ 3 + b ^ 4) - 60756335 / 100000 * (a ^ 2 + a * b + b ^ 2))) by (apply Rmult_lt_0_compat; lra).
  assert (Z : (a - b) * (8858843 / 1000 * (a ^ 4 + a ^ 3 * b + a ^ 2 * b ^ 2 + a * b ^ 3 + b ^ 4) - 60756335 / 100000 * (a ^ 2 + a * b + b ^ 2)) = 8858843 / 1000 * (a ^ 5 - b ^ 5) - 60756335 / 100000 * (a ^ 3 - b ^ 3)) by ring. lra.
Qed.

(** *** Where the branches meet *)
Fixpoint Te (n : nat) (u : R) : R := match n with O => 1 | S m => Te m u + (- u) ^ n / INR (fact n) end.
Lemma Te_d : forall n u, is_derive (Te (S n)) u (- Te n u).
Proof.
  assert (F : forall n, INR (fact n) <> 0) by (intro n; apply INR_fact_neq_0).
  assert (M : forall n u, is_derive (fun u => (- u) ^ S n / INR (fact (S n))) u (- ((- u) ^ n / INR (fact n)))).
  { intros n u. assert (A := is_derive_pow (fun u => - u) (S n) u (-1)). cbv beta in A. assert (B : is_derive (fun u : R => - u) u (-1)) by (auto_derive; [exact I|ring]). specialize (A B). apply (is_derive_scal _ _ (/ INR (fact (S n)))) in A. cbv beta in A.
    assert (Q : INR (fact (S n)) = INR (S n) * INR (fact n)) by (rewrite <- mult_INR; reflexivity). assert (P : INR (S n) <> 0) by (apply not_0_INR; discriminate).
    replace (/ INR (fact (S n)) * (INR (S n) * -1 * (- u) ^ Init.Nat.pred (S n))) with (- ((- u) ^ n / INR (fact n))) in A by (cbn [Init.Nat.pred]; rewrite Q; field; split; [apply F|exact P]).
    revert A. apply is_derive_ext. intro t. change (@eq R (/ INR (fact (S n)) * (- t) ^ S n) ((- t) ^ S n / INR (fact (S n)))). unfold Rdiv. ring. }
  induction n as [|n IH]; intro u.
  - apply (is_derive_ext (fun u => 1 + (- u) ^ 1 / INR (fact 1))); [reflexivity|]. cbn [Te]. auto_derive; [exact I|]. cbn. field.
  - apply (is_derive_ext (fun u => Te (S n) u + (- u) ^ S (S n) / INR (fact (S (S n))))); [reflexivity|]. change (- Te (S n) u) with (- (Te n u + (- u) ^ S n / INR (fact (S n)))). rewrite Ropp_plus_distr. apply (is_derive_plus (V := R_NormedModule)); [apply IH|apply M].
Qed.
Lemma exp_d : forall u, is_derive (fun u => exp (- u)) u (- exp (- u)). Proof. intro u. auto_derive; [exact I|ring]. Qed.
Lemma from0 : forall (f d : R -> R), (forall x, is_derive f x (d x)) -> f 0 = 0 -> (forall x, 0 <= x -> 0 <= d x) -> forall x, 0 <= x -> 0 <= f x.
Proof.
  intros f d D Z N x Hx. destruct (Req_dec x 0) as [E|E]; [rewrite E, Z; lra|]. destruct (MVT_cor2 f d 0 x ltac:(lra)) as (c & Q & C). { intros c _. apply is_derive_Reals, D. } assert (A := N c ltac:(lra)). assert (0 <= d c * (x - 0)) by (apply Rmult_le_pos; lra). lra.
Qed.
Lemma Te_0 : forall n, Te n 0 = 1. Proof. induction n as [|n IH]; [reflexivity|]. cbn [Te]. rewrite IH. replace (- 0) with 0 by ring. rewrite pow_i by lia. field. apply INR_fact_neq_0. Qed.
Lemma alt : forall n, (forall u, 0 <= u -> Te (2 * n + 1) u <= exp (- u)) /\ (forall u, 0 <= u -> exp (- u) <= Te (2 * n) u).
Proof.
  assert (A : forall m, (forall u, 0 <= u -> exp (- u) <= Te m u) -> forall u, 0 <= u -> Te (S m) u <= exp (- u)).
  { intros m H u Hu. assert (K := from0 (fun u => exp (- u) - Te (S m) u) (fun u => - exp (- u) - - Te m u)). cut (0 <= exp (- u) - Te (S m) u); [intro; lra|]. apply K; [intro x; apply (is_derive_minus (V := R_NormedModule)); [apply exp_d|apply Te_d]| |intros x Hx; specialize (H x Hx); lra|exact Hu]. rewrite Te_0, Ropp_0, exp_0. ring. }
  assert (B : forall m, (forall u, 0 <= u -> Te m u <= exp (- u)) -> forall u, 0 <= u -> exp (- u) <= Te (S m) u).
  { intros m H u Hu. assert (K := from0 (fun u => Te (S m) u - exp (- u)) (fun u => - Te m u - - exp (- u))). cut (0 <= Te (S m) u - exp (- u)); [intro; lra|]. apply K; [intro x; apply (is_derive_minus (V := R_NormedModule)); [apply Te_d|apply exp_d]| |intros x Hx; specialize (H x Hx); lra|exact Hu]. rewrite Te_0, Ropp_0, exp_0. ring. }
  induction n as [|n [IH1 IH2]].
  - assert (Z : forall u, 0 <= u -> exp (- u) <= Te (2 * 0) u). { intros u Hu. cbn. rewrite <- exp_0. destruct (Req_dec u 0) as [E|E]; [rewrite E, Ropp_0; lra|apply Rlt_le, exp_increasing; lra]. } split; [|exact Z]. exact (A _ Z).
  - assert (Z : forall u, 0 <= u -> exp (- u) <= Te (2 * S n) u). { replace (2 * S n)%nat with (S (2 * n + 1)) by lia. exact (B _ IH1). } split; [|exact Z]. replace (2 * S n + 1)%nat with (S (2 * S n)) by lia. exact (A _ Z).
Qed.
Definition Y0 : R := 5397844555 / 1000000000.
Lemma sq_up : forall a b x, 0 <= a -> b <= a * a -> a <= x -> b <= x * x. Proof. intros a b x A B C. assert (a * a <= x * x) by (apply Rmult_le_compat; lra). lra. Qed.
Lemma exp_Y : exp Y0 < 22093 / 100.
Proof.
  assert (A := proj1 (alt 3) (Y0 / 64) ltac:(unfold Y0; lra)). cbn [Nat.mul Nat.add Te] in A.
  assert (L : 919117488292 / 10 ^ 12 <= exp (- (Y0 / 64))). { eapply Rle_trans; [|exact A]. unfold Y0. cbn [fact Nat.mul Nat.add INR]. lra. } clear A.
  set (e := exp (- (Y0 / 64))) in *. assert (E : exp Y0 * (e * e * (e * e) * (e * e * (e * e)) * (e * e * (e * e) * (e * e * (e * e))) * (e * e * (e * e) * (e * e * (e * e)) * (e * e * (e * e) * (e * e * (e * e)))) * (e * e * (e * e) * (e * e * (e * e)) * (e * e * (e * e) * (e * e * (e * e))) * (e * e * (e * e) * (e * e * (e * e)) * (e * e * (e * e) * (e * e * (e * e)))))) = 1).
  { unfold e. rewrite <- !exp_plus. rewrite <- exp_0. f_equal. field. }
  assert (P : 0 < e) by apply exp_pos. clearbody e.
  assert (L1 := sq_up (919117488292 / 10 ^ 12) (844776957284 / 10 ^ 12) _ ltac:(lra) ltac:(lra) L). set (e1 := e * e) in *. clearbody e1.
  assert (L2 := sq_up (844776957284 / 10 ^ 12) (713648107558 / 10 ^ 12) _ ltac:(lra) ltac:(lra) L1). set (e2 := e1 * e1) in *. clearbody e2.
  assert (L3 := sq_up (713648107558 / 10 ^ 12) (509293621421 / 10 ^ 12) _ ltac:(lra) ltac:(lra) L2). set (e3 := e2 * e2) in *. clearbody e3.
  assert (L4 := sq_up (509293621421 / 10 ^ 12) (259379992820 / 10 ^ 12) _ ltac:(lra) ltac:(lra) L3). set (e4 := e3 * e3) in *. clearbody e4.
  assert (L5 := sq_up (259379992820 / 10 ^ 12) (67277980675 / 10 ^ 12) _ ltac:(lra) ltac:(lra) L4). set (e5 := e4 * e4) in *. clearbody e5.
  assert (L6 := sq_up (67277980675 / 10 ^ 12) (4526326683 / 10 ^ 12) _ ltac:(lra) ltac:(lra) L5). set (e6 := e5 * e5) in *. clearbody e6.
  assert (Q := exp_pos Y0). set (y := exp Y0) in *. clearbody y. assert (y * (4526326683 / 10 ^ 12) <= y * e6) by (apply Rmult_le_compat_l; lra). lra.
Qed.
Lemma meet : ps_low 314 < ps_high 314.
Proof.
  rewrite low_r by lra. rewrite high_below by lra. assert (A := r5_pos 314). assert (A5 := r5_5 314 ltac:(lra)).
  assert (U : r5 314 < 316675212309 / 10 ^ 12) by (apply pow5_lt; [exact A|lra|rewrite A5; lra]). rewrite A5.
  assert (U3 : r5 314 ^ 3 <= (316675212309 / 10 ^ 12) ^ 3) by (apply pow_incr; lra). set (x := r5 314 ^ 3) in *. clearbody x. clear A A5 U.
  assert (SQ : root 314 < 717544846273 / 10 ^ 12). { unfold root. rewrite Rabs_pos_eq by lra. rewrite <- (sqrt_pow2 (717544846273 / 10 ^ 12)) by lra. apply sqrt_lt_1; lra. }
  assert (Q := fall_below (root 314) (717544846273 / 10 ^ 12) ltac:(split; [apply sqrt_pos|exact SQ]) ltac:(lra)). set (q := Ap (root 314) / (1 - root 314 ^ 2)) in *. clearbody q. clear SQ.
  assert (V : -79588974202 / 10 ^ 10 <= Ap (717544846273 / 10 ^ 12) / (1 - (717544846273 / 10 ^ 12) ^ 2)). { unfold Ap. lra. }
  assert (B : 63573118 / 10000000 - 8858843 / 1000 * / 314 + 60756335 / 100000 * x <= Y0 + q) by (unfold Y0; lra).
  apply (Rle_lt_trans _ (1 / 10 * exp (Y0 + q))).
  - apply Rmult_le_compat_l; [lra|]. destruct (Rle_lt_or_eq_dec _ _ B) as [L|L]; [apply Rlt_le, exp_increasing; exact L|rewrite L; apply Rle_refl].
  - rewrite exp_plus. assert (E := exp_Y). assert (P := exp_pos q). assert (exp Y0 * exp q < 22093 / 100 * exp q) by (apply Rmult_lt_compat_r; assumption). lra.
Qed.

(** *** PsHGK *)
Lemma ps_up : forall t1 t2, 0 < t1 < t2 -> t2 <= 64725 / 100 -> PsHGK t1 < PsHGK t2.
Proof.
  intros t1 t2 H1 H2. unfold PsHGK. destruct (Rle_dec t1 314) as [A|A]; destruct (Rle_dec t2 314) as [B|B]; [apply low_up; lra| |lra|apply high_up; lra].
  assert (L : ps_low t1 <= ps_low 314) by (destruct (Req_dec t1 314) as [E|E]; [rewrite E; lra|apply Rlt_le, low_up; lra]). assert (M := meet). assert (N := high_up 314 t2 ltac:(lra) H2). lra.
Qed.
Lemma ps_pos : forall t, 0 < PsHGK t.
Proof. intro t. unfold PsHGK. destruct (Rle_dec t 314); [unfold ps_low|unfold ps_high; cbv zeta]; apply Rmult_lt_0_compat; try lra; apply exp_pos. Qed.
Lemma ps_crit : PsHGK (64725 / 100) = 22093 / 1000. Proof. unfold PsHGK. destruct (Rle_dec _ 314) as [B|_]; [lra|exact high_crit]. Qed.
Lemma ps_down : forall t1 t2, 64725 / 100 <= t1 < t2 -> t2 < 2 * (64725 / 100) -> PsHGK t2 < PsHGK t1.
Proof. intros t1 t2 H1 H2. unfold PsHGK. destruct (Rle_dec t1 314) as [B|_]; [lra|]. destruct (Rle_dec t2 314) as [B|_]; [lra|]. now apply high_down. Qed.
(** it jumps at 314 K *)
Lemma ps_jump : ~ continuous PsHGK 314.
Proof.
  intro C. assert (M := meet). assert (Z : PsHGK 314 = ps_low 314) by (unfold PsHGK; destruct (Rle_dec 314 314) as [_|B]; [reflexivity|lra]).
  assert (e : 0 < ps_high 314 - ps_low 314) by lra. destruct (C (fun y => y < ps_high 314)) as [d Hd]. { exists (mkposreal _ e). intros y Hy. rewrite Z in Hy. unfold ball in Hy. cbn in Hy. unfold AbsRing_ball, abs, minus, plus, opp in Hy. cbn in Hy. apply Rabs_def2 in Hy. lra. }
  assert (P := cond_pos d). assert (X := Hd (314 + Rmin (d / 2) 1)). assert (A := Rmin_l (d / 2) 1). assert (B := Rmin_r (d / 2) 1). assert (D : 0 < Rmin (d / 2) 1) by (apply Rmin_pos; lra).
  assert (Y : PsHGK (314 + Rmin (d / 2) 1) < ps_high 314). { apply X. unfold ball. cbn. unfold AbsRing_ball, abs, minus, plus, opp. cbn. apply Rabs_def1; lra. }
  unfold PsHGK in Y. destruct (Rle_dec _ 314) as [E|E]; [lra|]. assert (N := high_up 314 (314 + Rmin (d / 2) 1) ltac:(lra) ltac:(lra)). lra.
Qed.
