(** The g function as returned, in both regions and across their boundary; the other code's g function. *)
From Coq Require Import List Bool Reals Lra Lia.
From Coquelicot Require Import Coquelicot.
From Verif Require Import RDeriv MineralModel MineralSpec GasMore GasPhase SoluteModel SoluteSpec SoluteProofs SoluteG.
Open Scope R_scope.

Lemma flat : forall (f : R -> R) x C, 0 <= C -> f x = 0 -> (forall t, Rabs (t - x) < 300 -> Rabs (f t) <= C * (t - x) ^ 2) -> is_derive f x 0.
Proof.
  intros f x C HC Hx Hf. apply is_derive_Reals. intros eps He.
  assert (Hd : 0 < Rmin 300 (eps / (C + 1))). { apply Rmin_pos; [lra|]. apply Rdiv_lt_0_compat; lra. }
  exists (mkposreal _ Hd). cbn [pos]. intros h Hh Hlt. rewrite Hx, !Rminus_0_r.
  assert (A : Rabs h < 300) by (eapply Rlt_le_trans; [exact Hlt|apply Rmin_l]). assert (B : Rabs h < eps / (C + 1)) by (eapply Rlt_le_trans; [exact Hlt|apply Rmin_r]).
  assert (Hp : 0 < Rabs h) by now apply Rabs_pos_lt.
  specialize (Hf (x + h)). replace (x + h - x) with h in Hf by ring. specialize (Hf A). unfold Rdiv. rewrite Rabs_mult, Rabs_Rinv by exact Hh.
  rewrite <- (pow2_abs h) in Hf. apply Rle_lt_trans with (C * Rabs h).
  - apply Rmult_le_reg_r with (Rabs h); [exact Hp|]. rewrite Rmult_assoc, Rinv_l by lra. cbn [pow] in Hf. lra.
  - apply Rmult_lt_compat_r with (r := C + 1) in B; [|lra]. unfold Rdiv in B. rewrite Rmult_assoc, Rinv_l in B by lra. nra.
Qed.
Lemma flat0 : forall (f : R -> R) x, locally x (fun t => f t = 0) -> is_derive f x 0.
Proof. intros f x H. apply is_derive_ext_loc with (fun _ : R => 0); [|apply d_const]. eapply filter_imp; [|exact H]. intros t Ht. now rewrite Ht. Qed.

Definition corr (c P : R) : gfun := if region2 c P then g_two c P g_zero else g_zero.
Lemma small_pow : forall a y, 0 < a < 1 -> 2 <= y -> 0 < Rpower a y <= a ^ 2.
Proof.
  intros a y Ha Hy. split; [apply exp_pos|]. rewrite <- Rpower_pow by lra. cbn [INR]. unfold Rpower.
  assert (L : ln a < 0) by (rewrite <- ln_1; apply ln_increasing; lra). assert (y * ln a <= (1 + 1) * ln a) by nra.
  destruct (Req_dec (y * ln a) ((1 + 1) * ln a)) as [E|E]; [rewrite E; lra|]. apply Rlt_le, exp_increasing. lra.
Qed.
Lemma small_pow16 : forall a, 0 < a < 1 -> 0 < a ^ 15 <= a ^ 2.
Proof.
  intros a Ha. split; [apply pow_lt; lra|]. replace (a ^ 15) with (a ^ 2 * a ^ 13) by ring. assert (0 < a ^ 2) by (apply pow_lt; lra).
  assert (a ^ 13 <= 1). { rewrite <- (pow1 13). apply pow_incr. lra. } nra.
Qed.
Lemma ft_flat : forall a k, 0 < a < 1 -> 0 <= k -> 0 < Rpower a (48 / 10) + k * a ^ 16 <= (1 + k) * a ^ 2.
Proof.
  intros a k Ha Hk. destruct (small_pow a (48 / 10)) as [A B]; [exact Ha|lra|]. destruct (small_pow16 a Ha) as [C D].
  replace (a ^ 16) with (a * a ^ 15) by ring. assert (E : 0 <= a * a ^ 15 <= a ^ 2) by nra. assert (0 <= k * (a * a ^ 15)) by (apply Rmult_le_pos; lra). assert (k * (a * a ^ 15) <= k * a ^ 2) by (apply Rmult_le_compat_l; lra). split; lra.
Qed.
Lemma ftT_flat : forall a k, 0 < a < 1 -> 0 <= k -> 0 < (48 / 10 * Rpower a (48 / 10) + 16 * k * a ^ 16) / (300 * a) <= (1 + k) * a ^ 2.
Proof.
  intros a k Ha Hk. destruct (small_pow a (48 / 10 - 1)) as [A B]; [exact Ha|lra|]. rewrite Rpower_pred in A, B by lra. destruct (small_pow16 a Ha) as [C D].
  replace (a ^ 16) with (a * a ^ 15) by ring.
  replace ((48 / 10 * Rpower a (48 / 10) + 16 * k * (a * a ^ 15)) / (300 * a)) with (48 / 3000 * (Rpower a (48 / 10) / a) + 16 / 300 * (k * a ^ 15)) by (field; lra).
  assert (0 <= k * a ^ 15) by (apply Rmult_le_pos; lra). assert (k * a ^ 15 <= k * a ^ 2) by (apply Rmult_le_compat_l; lra). assert (0 < a ^ 2) by (apply pow_lt; lra). assert (0 <= k * a ^ 2) by (apply Rmult_le_pos; lra). split; lra.
Qed.

Lemma zero_ok : forall T P, g_ok (fun _ _ => g_zero) T P /\ g_ok2 (fun _ _ => g_zero) T P.
Proof. intros. split; [split; [|split]|split]; cbn [g_zero g_ g_T g_P g_TT g_TP g_PP]; try apply d_const; (eapply d_eq; [apply d_const|ring]). Qed.
Lemma af1_pos : 0 <= af1. Proof. unfold af1. lra. Qed.
Lemma corr_in : forall c P, 155 < c -> P < 1000 -> corr c P = g_two c P g_zero.
Proof. intros c P H1 H2. unfold corr. now rewrite (proj2 (region2_in c P) (conj H1 H2)). Qed.
Lemma corr_out : forall c P, c <= 155 \/ 1000 <= P -> corr c P = g_zero.
Proof. intros c P H. unfold corr. now rewrite region2_out. Qed.
(** a component of the correction seen along the temperature *)
Lemma along_T : forall (k k' : gfun -> R) T P, k g_zero = 0 -> k' g_zero = 0 ->
   (155 < T - C_K -> P < 1000 -> is_derive (fun t : R => k (g_two (t - C_K) P g_zero)) T (k' (g_two (T - C_K) P g_zero))) ->
   (P < 1000 -> exists C, 0 <= C /\ forall a, 0 < a < 1 -> Rabs (k (g_two (155 + 300 * a) P g_zero)) <= C * a ^ 2) ->
   is_derive (fun t : R => k (corr (t - C_K) P)) T (k' (corr (T - C_K) P)).
Proof.
  intros k k' T P K0 K0' Hin Hb. destruct (Rlt_dec P 1000) as [HP|HP].
  2: { rewrite corr_out, K0' by lra. apply flat0. apply filter_forall. intros t. rewrite corr_out by lra. exact K0. }
  destruct (Rtotal_order (T - C_K) 155) as [Hc|[Hc|Hc]].
  - rewrite corr_out, K0' by lra. apply flat0. eapply filter_imp; [|apply (near_lt (155 + C_K)); lra]. intros t Ht. rewrite corr_out by (cbv beta in Ht; lra). exact K0.
  - rewrite corr_out, K0' by lra. destruct (Hb HP) as (C & HC & Hf). apply (flat _ _ (C / 90000)); [lra|rewrite corr_out by lra; exact K0|]. intros t Ht.
    destruct (Rle_dec (t - C_K) 155) as [Hl|Hl].
    + rewrite corr_out, K0, Rabs_R0 by lra. assert (0 <= (t - T) ^ 2) by apply pow2_ge_0. apply Rmult_le_pos; lra.
    + rewrite corr_in by lra. specialize (Hf ((t - C_K - 155) / 300)). replace (155 + 300 * ((t - C_K - 155) / 300)) with (t - C_K) in Hf by lra.
      replace (C / 90000 * (t - T) ^ 2) with (C * ((t - C_K - 155) / 300) ^ 2). { apply Hf. apply Rabs_def2 in Ht. lra. }
      replace (t - T) with (t - C_K - 155) by lra. field.
  - rewrite corr_in by lra. apply is_derive_ext_loc with (fun t : R => k (g_two (t - C_K) P g_zero)); [|now apply Hin].
    eapply filter_imp; [|apply (near_gt (155 + C_K)); lra]. intros t Ht. rewrite corr_in by (cbv beta in Ht; lra). reflexivity.
Qed.
Lemma along_P : forall (k k' : gfun -> R) T P, k g_zero = 0 -> k' g_zero = 0 ->
   (155 < T - C_K -> P < 1000 -> is_derive (fun p : R => k (g_two (T - C_K) p g_zero)) P (100000 * k' (g_two (T - C_K) P g_zero))) ->
   (155 < T - C_K -> exists C, 0 <= C /\ forall p, 0 < 1000 - p < 300 -> Rabs (k (g_two (T - C_K) p g_zero)) <= C * (1000 - p) ^ 2) ->
   is_derive (fun p : R => k (corr (T - C_K) p)) P (100000 * k' (corr (T - C_K) P)).
Proof.
  intros k k' T P K0 K0' Hin Hb. destruct (Rlt_dec 155 (T - C_K)) as [HT|HT].
  2: { rewrite corr_out, K0', Rmult_0_r by lra. apply flat0. apply filter_forall. intros t. rewrite corr_out by lra. exact K0. }
  destruct (Rtotal_order P 1000) as [Hc|[Hc|Hc]].
  - rewrite corr_in by lra. apply is_derive_ext_loc with (fun p : R => k (g_two (T - C_K) p g_zero)); [|now apply Hin].
    eapply filter_imp; [|apply (near_lt 1000); lra]. intros t Ht. rewrite corr_in by (cbv beta in Ht; lra). reflexivity.
  - rewrite corr_out, K0', Rmult_0_r by lra. destruct (Hb HT) as (C & HC & Hf). apply (flat _ _ C); [lra|rewrite corr_out by lra; exact K0|]. intros t Ht.
    destruct (Rle_dec 1000 t) as [Hl|Hl].
    + rewrite corr_out, K0, Rabs_R0 by lra. assert (0 <= (t - P) ^ 2) by apply pow2_ge_0. apply Rmult_le_pos; lra.
    + rewrite corr_in by lra. replace ((t - P) ^ 2) with ((1000 - t) ^ 2) by (subst P; ring). apply Hf. apply Rabs_def2 in Ht. lra.
  - rewrite corr_out, K0', Rmult_0_r by lra. apply flat0. eapply filter_imp; [|apply (near_gt 1000); lra]. intros t Ht. rewrite corr_out by (cbv beta in Ht; lra). exact K0.
Qed.
Lemma af_bound : forall p, 0 < p < 300 -> Rabs (af2 * p ^ 3 + af3 * p ^ 4) <= 1 * p ^ 2 /\ Rabs (- (3 * af2 * p ^ 3 + 4 * af3 * p ^ 4) / (p * 100000)) <= 1 * p ^ 2.
Proof.
  intros p Hp. assert (0 < p ^ 2) by (apply pow_lt; lra). assert (E : 0 <= p * p <= 90000) by nra.
  split.
  - replace (af2 * p ^ 3 + af3 * p ^ 4) with (p ^ 2 * (af2 * p + af3 * (p * p))) by ring. rewrite Rabs_mult, (Rabs_right (p ^ 2)) by lra. rewrite Rmult_comm. apply Rmult_le_compat_r; [lra|].
    apply Rabs_le. unfold af2, af3. lra.
  - replace (- (3 * af2 * p ^ 3 + 4 * af3 * p ^ 4) / (p * 100000)) with (p ^ 2 * (- (3 * af2 + 4 * af3 * p) / 100000)) by (field; lra). rewrite Rabs_mult, (Rabs_right (p ^ 2)) by lra. rewrite Rmult_comm.
    apply Rmult_le_compat_r; [lra|]. apply Rabs_le. unfold af2, af3. lra.
Qed.
Lemma bound_T : forall x q k a, 0 <= k -> 0 < x <= (1 + k) * a ^ 2 -> Rabs (0 - x * q) <= Rabs q * (1 + k) * a ^ 2.
Proof. intros x q k a Hk Hx. replace (0 - x * q) with (- (x * q)) by ring. rewrite Rabs_Ropp, Rabs_mult, (Rabs_right x) by lra. assert (0 <= Rabs q) by apply Rabs_pos. nra. Qed.
Lemma bound_P : forall x q b, Rabs q <= 1 * b -> Rabs (0 - x * q) <= Rabs x * b.
Proof. intros x q b Hq. replace (0 - x * q) with (- (x * q)) by ring. rewrite Rabs_Ropp, Rabs_mult. assert (0 <= Rabs x) by apply Rabs_pos. nra. Qed.
Lemma corr_ok : forall T P, g_ok (fun t p => corr (t - C_K) p) T P /\ g_ok2 (fun t p => corr (t - C_K) p) T P.
Proof.
  intros T P. destruct (zero_ok T P) as [Z1 Z2].
  assert (Ea : forall a, (155 + 300 * a - 155) / 300 = a) by (intros; field).
  assert (B1 : forall q : R, exists C, 0 <= C /\ forall a, 0 < a < 1 -> Rabs (0 - (Rpower a (48 / 10) + af1 * a ^ 16) * q) <= C * a ^ 2).
  { intros q. exists (Rabs q * (1 + af1)). assert (0 <= Rabs q) by apply Rabs_pos. assert (A := af1_pos). split; [nra|]. intros a Ha. apply bound_T; [exact A|]. now apply ft_flat. }
  assert (B2 : forall q : R, exists C, 0 <= C /\ forall a, 0 < a < 1 -> Rabs (0 - q * ((48 / 10 * Rpower a (48 / 10) + 16 * af1 * a ^ 16) / (300 * a))) <= C * a ^ 2).
  { intros q. exists (Rabs q * (1 + af1)). assert (0 <= Rabs q) by apply Rabs_pos. assert (A := af1_pos). split; [nra|]. intros a Ha. rewrite (Rmult_comm q). apply bound_T; [exact A|]. now apply ftT_flat. }
  split; [split; [|split]|split].
  - apply (along_T g_ g_T); try reflexivity; [intros H1 H2; apply (two_T (fun _ _ => g_zero) T P); assumption|]. intros _.
    destruct (B1 (af2 * (1000 - P) ^ 3 + af3 * (1000 - P) ^ 4)) as (C & HC & Hf). exists C. split; [exact HC|]. intros a Ha. cbn [g_ g_two g_zero]. rewrite Ea. now apply Hf.
  - apply (along_P g_ g_P); try reflexivity; [intros H1 H2; apply (two_P (fun _ _ => g_zero) T P); assumption|]. intros _.
    eexists. split; [|intros p Hp; cbn [g_ g_two g_zero]; apply bound_P; apply (proj1 (af_bound _ Hp))]. apply Rabs_pos.
  - apply (along_T g_T g_TT); try reflexivity; [intros H1 H2; apply (two_TT (fun _ _ => g_zero) T P); assumption|]. intros _.
    destruct (B2 (af2 * (1000 - P) ^ 3 + af3 * (1000 - P) ^ 4)) as (C & HC & Hf). exists C. split; [exact HC|]. intros a Ha. cbn [g_T g_two g_zero]. rewrite Ea. now apply Hf.
  - apply (along_T g_P g_TP); try reflexivity; [intros H1 H2; apply (two_TP (fun _ _ => g_zero) T P); assumption|]. intros _.
    destruct (B1 (- (3 * af2 * (1000 - P) ^ 3 + 4 * af3 * (1000 - P) ^ 4) / ((1000 - P) * 100000))) as (C & HC & Hf). exists C. split; [exact HC|]. intros a Ha. cbn [g_P g_two g_zero]. rewrite Ea. now apply Hf.
  - apply (along_P g_P g_PP); try reflexivity; [intros H1 H2; apply (two_PP (fun _ _ => g_zero) T P); assumption|]. intros _.
    eexists. split; [|intros p Hp; cbn [g_P g_two g_zero]; apply bound_P; apply (proj2 (af_bound _ Hp))]. apply Rabs_pos.
Qed.

(** *** functionG *)
Definition gval (w : R -> R -> wet) (t p : R) : gfun := match functionG t p (w t p) with Some x => x | None => g_zero end.
Definition gsum (x y : gfun) : gfun := mkG (g_ x + g_ y) (g_T x + g_T y) (g_P x + g_P y) (g_TT x + g_TT y) (g_TP x + g_TP y) (g_PP x + g_PP y).
Lemma split_g : forall t p w, d_ w < 1000 -> d_T w <> 0 -> d_P w <> 0 -> functionG t p w = Some (gsum (g_one (t - C_K) w) (corr (t - C_K) p)).
Proof.
  intros t p w Hd HT HP. unfold functionG, corr, rlt, is_zero. destruct (Rlt_dec 1000 (d_ w)); [lra|]. destruct (Req_EM_T (1 - d_ w / 1000) 0); [lra|].
  destruct (Req_EM_T (d_T w) 0); [lra|]. destruct (Req_EM_T (d_P w) 0); [lra|]. cbn [orb]. f_equal. destruct (region2 (t - C_K) p).
  - generalize (g_one (t - C_K) w). intros x. unfold gsum, g_two. cbn [g_ g_T g_P g_TT g_TP g_PP g_zero]. f_equal; ring.
  - generalize (g_one (t - C_K) w). intros [v1 v2 v3 v4 v5 v6]. unfold gsum. cbn [g_ g_T g_P g_TT g_TP g_PP g_zero]. rewrite !Rplus_0_r. reflexivity.
Qed.
Lemma near_nz : forall (f : R -> R) x, ex_derive f x -> f x <> 0 -> locally x (fun t => f t <> 0).
Proof.
  intros f x Hf Hn. destruct (Rdichotomy _ _ Hn) as [H|H].
  - eapply filter_imp; [|apply (near_cont_lt f x 0 Hf H)]. intros t Ht E. cbv beta in Ht. lra.
  - eapply filter_imp; [|apply (near_cont f x 0 Hf H)]. intros t Ht E. cbv beta in Ht. lra.
Qed.
Lemma ex_d : forall (f : R -> R) x l, is_derive f x l -> ex_derive f x. Proof. intros f x l H. now exists l. Qed.
Lemma functionG_ok : forall w T P, water_ok w T P -> 0 < d_ (w T P) < 1000 -> d_T (w T P) <> 0 -> d_P (w T P) <> 0 ->
  locally T (fun t => functionG t P (w t P) = Some (gval w t P)) /\ locally P (fun p => functionG T p (w T p) = Some (gval w T p)) /\ g_ok (gval w) T P /\ g_ok2 (gval w) T P.
Proof.
  intros w T P Hw [H0 H1] HT HP. assert (Hw' := Hw). destruct Hw' as (W1 & W2 & W3 & W4 & W5 & W6). set (S := fun t p => gsum (g_one (t - C_K) (w t p)) (corr (t - C_K) p)).
  assert (NT : locally T (fun t => functionG t P (w t P) = Some (S t P))).
  { assert (A := near_cont_lt _ _ 1000 (ex_d _ _ _ W1) H1). assert (B := near_nz _ _ (ex_d _ _ _ W3) HT). assert (C := near_nz _ _ (ex_d _ _ _ W4) HP).
    assert (D := near_both _ _ _ A (near_both _ _ _ B C)). eapply filter_imp; [|exact D]. intros t (X & Y & Z). apply split_g; assumption. }
  assert (NP : locally P (fun p => functionG T p (w T p) = Some (S T p))).
  { assert (A := near_cont_lt _ _ 1000 (ex_d _ _ _ W2) H1). assert (B := near_nz _ _ (ex_d _ _ _ W6) HT). assert (C := near_nz _ _ (ex_d _ _ _ W5) HP).
    assert (D := near_both _ _ _ A (near_both _ _ _ B C)). eapply filter_imp; [|exact D]. intros t (X & Y & Z). apply split_g; assumption. }
  assert (NT' : locally T (fun t => S t P = gval w t P)). { eapply filter_imp; [|exact NT]. intros t Ht. unfold gval. now rewrite Ht. }
  assert (NP' : locally P (fun p => S T p = gval w T p)). { eapply filter_imp; [|exact NP]. intros t Ht. unfold gval. now rewrite Ht. }
  assert (E : S T P = gval w T P) by (apply locally_singleton with (P := fun t => S t P = gval w t P); exact NT').
  destruct (corr_ok T P) as [(C1 & C2 & C3) (C4 & C5)].
  assert (O1 := one_T w T P Hw H0 H1). assert (O2 := one_P w T P Hw H0 H1). assert (O3 := one_TT w T P Hw H0 H1 HT). assert (O4 := one_TP w T P Hw H0 H1 HP). assert (O5 := one_PP w T P Hw H0 H1 HP).
  split; [eapply filter_imp; [|exact NT]; intros t Ht; unfold gval; now rewrite Ht|]. split; [eapply filter_imp; [|exact NP]; intros t Ht; unfold gval; now rewrite Ht|].
  split; [split; [|split]|split]; rewrite <- E.
  - apply is_derive_ext_loc with (fun t => g_ (S t P)); [eapply filter_imp; [|exact NT']; intros t Ht; now rewrite Ht|]. apply d_plus; assumption.
  - apply is_derive_ext_loc with (fun p => g_ (S T p)); [eapply filter_imp; [|exact NP']; intros t Ht; now rewrite Ht|]. cbn [S gsum g_P]. rewrite Rmult_plus_distr_l. apply d_plus; assumption.
  - apply is_derive_ext_loc with (fun t => g_T (S t P)); [eapply filter_imp; [|exact NT']; intros t Ht; now rewrite Ht|]. apply d_plus; assumption.
  - apply is_derive_ext_loc with (fun t => g_P (S t P)); [eapply filter_imp; [|exact NT']; intros t Ht; now rewrite Ht|]. apply d_plus; assumption.
  - apply is_derive_ext_loc with (fun p => g_P (S T p)); [eapply filter_imp; [|exact NP']; intros t Ht; now rewrite Ht|]. cbn [S gsum g_PP]. rewrite Rmult_plus_distr_l. apply d_plus; assumption.
Qed.
Lemma functionG_dense : forall w T P, water_ok w T P -> 1000 < d_ (w T P) ->
  functionG T P (w T P) = Some g_zero /\ locally T (fun t => functionG t P (w t P) = Some (gval w t P)) /\ locally P (fun p => functionG T p (w T p) = Some (gval w T p)) /\ g_ok (gval w) T P /\ g_ok2 (gval w) T P.
Proof.
  intros w T P (W1 & W2 & _) H. assert (Z : forall t p x, 1000 < d_ x -> functionG t p x = Some g_zero).
  { intros t p x Hx. unfold functionG, rlt. destruct (Rlt_dec 1000 (d_ x)); [reflexivity|lra]. }
  assert (A := near_cont _ _ 1000 (ex_d _ _ _ W1) H). assert (B := near_cont _ _ 1000 (ex_d _ _ _ W2) H). cbv beta in A, B.
  assert (E : gval w T P = g_zero) by (unfold gval; now rewrite Z).
  split; [now apply Z|]. split; [eapply filter_imp; [|exact A]; intros t Ht; unfold gval; now rewrite Z|]. split; [eapply filter_imp; [|exact B]; intros t Ht; unfold gval; now rewrite Z|].
  split; [split; [|split]|split]; rewrite E; cbn [g_zero g_T g_P g_TT g_TP g_PP]; rewrite ?Rmult_0_r; apply flat0.
  1,3,4: eapply filter_imp; [|exact A]; intros t Ht; unfold gval; rewrite Z by exact Ht; reflexivity.
  all: eapply filter_imp; [|exact B]; intros t Ht; unfold gval; rewrite Z by exact Ht; reflexivity.
Qed.
Lemma functionG_fails : forall T P w, d_ w <= 1000 -> functionG T P w = None <-> (d_ w = 1000 \/ d_T w = 0 \/ d_P w = 0).
Proof.
  intros T P w H. unfold functionG, rlt, is_zero. destruct (Rlt_dec 1000 (d_ w)); [lra|]. destruct (Req_EM_T (1 - d_ w / 1000) 0), (Req_EM_T (d_T w) 0), (Req_EM_T (d_P w) 0); cbn [orb]; intuition (try discriminate; try lra).
Qed.

(** *** gShok2 *)
Definition sval (D al be daT : R -> R -> R) (t p : R) : gfun := match gShok2 (t - C_K) p (D t p) (al t p) (be t p) (daT t p) with Some x => x | None => g_zero end.
Section Shok.
Context (D al be daT : R -> R -> R) (T P : R).
Hypothesis D1 : is_derive (fun t : R => D t P) T (- D T P * al T P).
Hypothesis D2 : is_derive (fun p : R => D T p) P (100000 * (D T P * be T P)).
Hypothesis D3 : is_derive (fun t : R => al t P) T (daT T P).
Let S1 := fun t p => s_one (t - C_K) (D t p) (al t p) (be t p) (daT t p).
Let X := fun t p => Rpower (1 - D t p) (bg (t - C_K)).
Lemma s_val : forall t p, 0 < 1 - D t p -> g_ (S1 t p) = ag (t - C_K) * X t p.
Proof. intros t p H. unfold S1, X, s_one. cbn [g_]. rewrite (Rabs_right (1 - D t p)) by lra. reflexivity. Qed.
Lemma s_valT : forall t p, 0 < 1 - D t p -> g_T (S1 t p) = ag (t - C_K) * (bg (t - C_K) * (X t p / (1 - D t p)) * (D t p * al t p) + ln (1 - D t p) * X t p * bgT (t - C_K)) + X t p * agT (t - C_K).
Proof. intros t p H. unfold S1, X, s_one. cbn [g_T]. rewrite (Rabs_right (1 - D t p)) by lra. rewrite Rpower_pred by exact H. ring. Qed.
Lemma s_valTT : forall t p, 0 < 1 - D t p -> g_TT (S1 t p) = let b := bg (t - C_K) in let x := X t p in let q := 1 - D t p in let DT := - D t p * al t p in let DTT := - D t p * (daT t p - al t p ^ 2) in let b' := bgT (t - C_K) in
   let DbT := - b * (x / q) * DT + ln q * x * b' in
   ag (t - C_K) * (- (b * (x / q) * DTT + x / q * DT * b' + b * DT * (- (b - 1) * (x / q / q) * DT + ln q * (x / q) * b')) + ln q * x * bgTT - x * b' * DT / q + ln q * b' * DbT) + 2 * DbT * agT (t - C_K) + x * agTT.
Proof.
  intros t p H. unfold S1, X, s_one. cbn [g_TT]. rewrite (Rabs_right (1 - D t p)) by lra. replace (bg (t - C_K) - 2) with (bg (t - C_K) - 1 - 1) by ring. rewrite !Rpower_pred by exact H. reflexivity.
Qed.
Lemma s_valP : forall t p, 0 < 1 - D t p -> g_P (S1 t p) = - ag (t - C_K) * bg (t - C_K) * (X t p / (1 - D t p)) * (D t p * be t p).
Proof. intros t p H. unfold S1, X, s_one. cbn [g_P]. rewrite (Rabs_right (1 - D t p)) by lra. rewrite Rpower_pred by exact H. reflexivity. Qed.
Section Light.
Hypothesis HD : D T P < 1.
Lemma nearT : locally T (fun t => 0 < 1 - D t P).
Proof. eapply filter_imp; [|apply (near_cont_lt _ _ 1 (ex_d _ _ _ D1) HD)]. intros t Ht. cbv beta in Ht. lra. Qed.
Lemma nearP : locally P (fun p => 0 < 1 - D T p).
Proof. eapply filter_imp; [|apply (near_cont_lt _ _ 1 (ex_d _ _ _ D2) HD)]. intros t Ht. cbv beta in Ht. lra. Qed.
Lemma X_T : is_derive (fun t : R => X t P) T (X T P * (bgT (T - C_K) * ln (1 - D T P) + bg (T - C_K) * (D T P * al T P) / (1 - D T P))).
Proof. assert (B := bg_d T). unfold X, Rpower. eapply d_eq; [dr; lra|]. cbv beta. field. lra. Qed.
Lemma X_P : is_derive (fun p : R => X T p) P (- X T P * (bg (T - C_K) * (100000 * (D T P * be T P)) / (1 - D T P))).
Proof. unfold X, Rpower. eapply d_eq; [dr; lra|]. cbv beta. field. lra. Qed.
Lemma s_T : is_derive (fun t : R => g_ (S1 t P)) T (g_T (S1 T P)).
Proof.
  apply is_derive_ext_loc with (fun t : R => ag (t - C_K) * X t P); [eapply filter_imp; [|exact nearT]; intros t Ht; symmetry; now apply s_val|]. rewrite s_valT by lra.
  assert (A := ag_d T). assert (B := X_T). eapply d_eq; [dr|]. cbv beta. field. lra.
Qed.
Lemma s_P : is_derive (fun p : R => g_ (S1 T p)) P (100000 * g_P (S1 T P)).
Proof.
  apply is_derive_ext_loc with (fun p : R => ag (T - C_K) * X T p); [eapply filter_imp; [|exact nearP]; intros t Ht; symmetry; now apply s_val|]. rewrite s_valP by lra.
  assert (B := X_P). eapply d_eq; [dr|]. cbv beta. field. lra.
Qed.
Lemma s_TT : is_derive (fun t : R => g_T (S1 t P)) T (g_TT (S1 T P)).
Proof.
  eapply is_derive_ext_loc; [eapply filter_imp; [|exact nearT]; intros t Ht; symmetry; now apply s_valT|]. rewrite s_valTT by lra. cbv zeta.
  assert (A := ag_d T). assert (A2 := bg_d T). assert (A3 := agT_d T). assert (A4 := bgT_d T). assert (B := X_T). eapply d_eq; [dr; lra|]. cbv beta. field. lra.
Qed.
Lemma s_ok : g_ok S1 T P. Proof. split; [exact s_T|split; [exact s_P|exact s_TT]]. Qed.
End Light.
(** above 1 g/cm3 the sign of the pressure derivative is the wrong one *)
Section Dense.
Hypothesis HD : 1 < D T P.
Lemma dense_P : is_derive (fun p : R => g_ (S1 T p)) P (- (100000 * g_P (S1 T P))).
Proof.
  assert (N : locally P (fun p => 1 < D T p)) by exact (near_cont _ _ 1 (ex_d _ _ _ D2) HD).
  apply is_derive_ext_loc with (fun p : R => ag (T - C_K) * Rpower (D T p - 1) (bg (T - C_K))).
  { eapply filter_imp; [|exact N]. intros p Hp. unfold S1, s_one. cbn [g_]. rewrite (Rabs_left (1 - D T p)) by lra. do 2 f_equal. ring. }
  unfold S1, s_one. cbn [g_P]. rewrite (Rabs_left (1 - D T P)) by lra. replace (- (1 - D T P)) with (D T P - 1) by ring. eapply d_eq; [dr; lra|]. cbv beta. ring.
Qed.
Lemma dense_nz : D T P * be T P <> 0 -> g_P (S1 T P) <> 0.
Proof.
  intros H. unfold S1, s_one. cbn [g_P]. assert (A := ag_neg (T - C_K)). assert (B := bg_big (T - C_K)). assert (E := exp_pos ((bg (T - C_K) - 1) * ln (Rabs (1 - D T P)))).
  fold (Rpower (Rabs (1 - D T P)) (bg (T - C_K) - 1)) in E. repeat apply Rmult_integral_contrapositive_currified; try lra; intros E'; rewrite E' in H; lra.
Qed.
End Dense.
End Shok.
