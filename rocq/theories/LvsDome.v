(** Lemmas: inside the two-phase region conver leaves |theta| < 1, so Pfind never sets the slope that TsLVS divides by; the answers of rtheta. *)
From Coq Require Import Bool Reals Lra Psatz.
From Coquelicot Require Import Coquelicot.
From Verif Require Import RDeriv LvsModel LvsSpec LvsPf LvsTherm LvsDal LvsTab LvsFlow.
Open Scope R_scope.

Ltac tab := cbn [l_c l_P3 l_P2 l_P1 l_b l_k0 l_b2 l_a l_del l_k1 l_mc l_m1 l_m2 l_m3 l_s00 l_s20 l_s01 l_s21 l_p11 l_al l_p00 l_p20 l_p40 l_D1 l_ali l_bi l_p01 l_p21 l_p41 l_Tc l_rc l_Pc l_Pcon l_Ucon l_Scon l_dPcon co_].
Lemma Rpower_anti : forall r a b, 0 < r <= 1 -> a <= b -> Rpower r b <= Rpower r a.
Proof.
  intros r a b h ab. unfold Rpower. assert (ln r <= 0) by (rewrite <- ln_1; destruct (Req_dec r 1) as [->|n]; [lra|left; apply ln_increasing; lra]).
  assert (b * ln r <= a * ln r) by nra. destruct (Req_dec (b * ln r) (a * ln r)) as [->|n]; [lra|left; apply exp_increasing; lra].
Qed.
Lemma quarter : Rpower (1 / 16) (1 / 4) = 1 / 2.
Proof. replace (1 / 16) with ((1 / 2) ^ 4) by field. rewrite <- Rpower_pow by lra. rewrite Rpower_mult. replace (INR 4 * (1 / 4)) with 1 by (cbn [INR]; field). apply Rpower_1. lra. Qed.
Lemma below_half : forall r e, 0 < r <= 1 / 16 -> 1 / 4 <= e -> Rpower r e <= 1 / 2.
Proof.
  intros r e h he. rewrite <- quarter. apply Rle_trans with (Rpower (1 / 16) e); [apply Rle_Rpower_l; lra|apply Rpower_anti; lra].
Qed.
Section Dome.
Variable T : R.
Hypothesis hT : 643 <= T < l_Tc co_.
Lemma hT' : 643 <= T < 647.067. Proof. exact hT. Qed.
Lemma dt : - (4067 / 643000) <= dtstin co_ T < 0.
Proof.
  pose proof hT'. unfold dtstin. tab. replace ((T - 647.067) / 647.067 + 1) with (T / 647.067) by (field; lra). replace (1 / (T / 647.067)) with (647.067 / T) by (field; lra).
  assert (647.067 / T <= 647.067 / 643) by (apply Rmult_le_compat_l; [lra|apply Rinv_le_contravar; lra]). assert (1 < 647.067 / T) by (apply Rmult_lt_reg_r with T; [lra|]; unfold Rdiv; rewrite Rmult_assoc, Rinv_l by lra; lra). lra.
Qed.
Lemma cvr : cv_r co_ T = - dtstin co_ T / 0.3757 /\ cv_th co_ T = 1.
Proof. pose proof dt. unfold cv_r, cv_th. destruct (Rle_dec _ _); [|lra]. split; [|reflexivity]. tab. replace (1 - 1.3757) with (- (0.3757)) by lra. assert (k : 0.3757 <> 0) by lra. revert k. generalize 0.3757. intros. field. assumption. Qed.
Lemma rb : 0 < cv_r co_ T <= 1 / 16. Proof. rewrite (proj1 cvr). pose proof dt. lra. Qed.
Lemma twofaz_small : 0 < twofaz co_ T < 1.
Proof.
  pose proof rb as h. unfold twofaz. tab. assert (0 < Rpower (cv_r co_ T) 0.325) by apply exp_pos. assert (0 < Rpower (cv_r co_ T) 0.825) by apply exp_pos.
  pose proof (below_half (cv_r co_ T) 0.325 h ltac:(lra)). pose proof (below_half (cv_r co_ T) 0.825 h ltac:(lra)). lra.
Qed.
Lemma dome_theta : forall rho th, conver_dome co_ T rho = Some th -> Rabs th < 1.
Proof.
  intros rho th. unfold conver_dome. destruct (Rle_dec _ _); [|discriminate]. destruct (Rle_dec _ _) as [h|]; [|discriminate]. intros E. injection E as <-. pose proof twofaz_small. rewrite Rabs_mult, Rabs_Rabsolu. pose proof (Rabs_pos (rho - rhodit co_ T)). nra.
Qed.
Lemma dome_critical : exists th, conver_dome co_ T 1 = Some th.
Proof.
  unfold conver_dome. pose proof dt. destruct (Rle_dec _ _); [|lra]. destruct (Rle_dec _ _) as [h|N]; [eexists; reflexivity|exfalso; apply N]. pose proof rb as h.
  set (p := Rpower (cv_r co_ T) 0.325). assert (0 < p) by apply exp_pos.
  assert (A : Rpower (cv_r co_ T) 1 <= p) by (apply Rpower_anti; lra). rewrite Rpower_1 in A by lra.
  assert (B : 0 < Rpower (cv_r co_ T) (1 - 0.1085) <= p) by (split; [apply exp_pos|apply Rpower_anti; lra]). assert (C : 0 < Rpower (cv_r co_ T) (1 - -0.3915) <= p) by (split; [apply exp_pos|apply Rpower_anti; lra]).
  assert (D : 0 < Rpower (cv_r co_ T) 0.825) by apply exp_pos.
  unfold twofaz, rhodit, s0, s1, sx0, sx1. rewrite (proj2 cvr). tab. fold p. set (u := Rpower (cv_r co_ T) (1 - 0.1085)) in *. set (v := Rpower (cv_r co_ T) (1 - -0.3915)) in *. set (w := Rpower (cv_r co_ T) 0.825) in *.
  assert (E : dtstin co_ T = - (0.3757 * cv_r co_ T)) by (rewrite (proj1 cvr); assert (k : 0.3757 <> 0) by lra; revert k; generalize 0.3757; intros; field; assumption). rewrite E. set (rq := cv_r co_ T) in *. clearbody p u v w rq. apply Rabs_le. split; lra.
Qed.
End Dome.
(** the slope is left as it was, for every temperature that TsLVS can try between 643 K and the critical one *)
Lemma slope_unset : forall T, 643 <= T < l_Tc co_ -> exists th, conver_dome co_ T 1 = Some th /\ Rabs th < 1 /\ forall computed before, slope_after th computed before = before.
Proof.
  intros T h. destruct (dome_critical T h) as [th E]. exists th. split; [exact E|]. pose proof (dome_theta T h 1 th E) as l. split; [exact l|]. intros. unfold slope_after. destruct (Rlt_dec _ _); [reflexivity|contradiction].
Qed.
Lemma dome_unset : forall T rho th, 643 <= T < l_Tc co_ -> conver_dome co_ T rho = Some th -> forall computed before, slope_after th computed before = before.
Proof. intros T rho th h E computed before. pose proof (dome_theta T h rho th E). unfold slope_after. destruct (Rlt_dec _ _); [reflexivity|contradiction]. Qed.

(** *** rtheta *)
Section Rth.
Variables (c : lvs) (rho Tee : R).
Hypothesis k0 : 0 < l_k0 c.
Hypothesis b2 : 1 < l_b2 c.
Lemma bee0 : 0 < rt_bee c. Proof. unfold rt_bee. apply sqrt_lt_R0. lra. Qed.
Lemma bee2 : rt_bee c * rt_bee c = l_b2 c. Proof. unfold rt_bee. apply sqrt_sqrt. lra. Qed.
(** the two equations *)
Definition answers (p : R * R) : Prop := l_k0 c * snd p * Rpower (fst p) (l_b c) = rho /\ fst p * (1 - l_b2 c * (snd p * snd p)) = Tee.
Lemma fixed_point : forall z, rt_dz c rho Tee z = 0 -> 1 - z * z + 2 * l_b c * (z * z) <> 0 -> 0 < Tee * (1 - z * z) -> answers (rt_498 c Tee z).
Proof.
  intros z h den s. assert (z3 : 1 - z * z <> 0) by (intros e; rewrite e in s; lra). assert (Tn : Tee <> 0) by (intros e; rewrite e in s; lra).
  assert (q : z + rt_c c rho Tee * Rpower (Rabs (1 - z * z)) (l_b c) = 0).
  { unfold rt_dz in h. cbv zeta in h. set (u := z + rt_c c rho Tee * Rpower (Rabs (1 - z * z)) (l_b c)) in *. assert (E : (1 - z * z) * u = 0) by (apply Rmult_eq_reg_r with (/ (1 - z * z + 2 * l_b c * (z * z))); [rewrite Rmult_0_l; exact h|apply Rinv_neq_0_compat; exact den]). apply Rmult_integral in E. destruct E; [contradiction|assumption]. }
  assert (rp : 0 < Tee / (1 - z * z)) by (replace (Tee / (1 - z * z)) with (Tee * (1 - z * z) / (1 - z * z) ^ 2) by (field; assumption); apply Rdiv_lt_0_compat; [exact s|nra]).
  pose proof bee0 as bp. unfold answers, rt_498. cbn [fst snd]. rewrite (Rabs_right (Tee / (1 - z * z))) by lra. split.
  - assert (E : Rpower (Tee / (1 - z * z)) (l_b c) = Rpower (Rabs Tee) (l_b c) / Rpower (Rabs (1 - z * z)) (l_b c)).
    { rewrite <- (Rabs_right (Tee / (1 - z * z))) by lra. unfold Rdiv. rewrite Rabs_mult, Rabs_inv. rewrite <- Rpower_mult_distr; [|apply Rabs_pos_lt; exact Tn|apply Rinv_0_lt_compat, Rabs_pos_lt; exact z3].
      f_equal. unfold Rpower. rewrite ln_Rinv by (apply Rabs_pos_lt; exact z3). rewrite <- exp_Ropp. f_equal. ring. }
    rewrite E. set (a := Rpower (Rabs Tee) (l_b c)) in *. set (d := Rpower (Rabs (1 - z * z)) (l_b c)) in *. assert (0 < a) by apply exp_pos. assert (0 < d) by apply exp_pos.
    replace z with (- (rt_c c rho Tee * d)) by lra. unfold rt_c. fold a. field. repeat split; lra.
  - replace (l_b2 c * (z / rt_bee c * (z / rt_bee c))) with (z * z); [field; exact z3|]. rewrite <- bee2. field. lra.
Qed.
(** the iteration is Newton's for z |1 - z^2|^(-beta) + c *)
Definition rt_g (z : R) : R := z * Rpower (Rabs (1 - z * z)) (- l_b c) + rt_c c rho Tee.
Lemma rt_newton : forall z, 1 - z * z <> 0 -> 1 - z * z + 2 * l_b c * (z * z) <> 0 -> exists g', is_derive rt_g z g' /\ g' <> 0 /\ rt_dz c rho Tee z = rt_g z / g'.
Proof.
  intros z z3 den. set (m := 1 - z * z) in *.
  assert (Ha : is_derive (fun y : R => Rabs (1 - y * y)) z (sign m * (- 2 * z))).
  { eapply d_eq; [apply (is_derive_Rabs (fun y : R => 1 - y * y) z); [apply d_minus; [apply d_const|apply d_mult; apply d_id]|exact z3]|]. cbv beta. fold m. ring. }
  assert (ap : 0 < Rabs m) by (apply Rabs_pos_lt; exact z3).
  assert (Hd : is_derive rt_g z (Rpower (Rabs m) (- l_b c) * ((m + 2 * l_b c * (z * z)) / m))).
  { unfold rt_g. eapply d_eq; [apply d_plus; [apply d_mult; [apply d_id|apply (d_Rpower (fun y : R => Rabs (1 - y * y)) _ z _ Ha ap)]|apply d_const]|]. cbv beta. fold m.
    replace (Rpower (Rabs m) (- l_b c - 1)) with (Rpower (Rabs m) (- l_b c) * / Rabs m) by (unfold Rminus; rewrite Rpower_plus, Rpower_Ropp with (y := 1), Rpower_1 by exact ap; reflexivity).
    assert (S : sign m * / Rabs m = / m).
    { destruct (Rlt_or_le m 0) as [l|l]; [rewrite sign_eq_m1, (Rabs_left m) by exact l|rewrite sign_eq_1, (Rabs_right m) by lra]; field; lra. }
    transitivity (Rpower (Rabs m) (- l_b c) + z * (- l_b c * Rpower (Rabs m) (- l_b c) * (sign m * / Rabs m) * (- 2 * z))); [ring|]. rewrite S. field. exact z3. }
  eexists. split; [exact Hd|]. assert (pp : 0 < Rpower (Rabs m) (- l_b c)) by apply exp_pos. split.
  - apply Rmult_integral_contrapositive_currified; [lra|]. unfold Rdiv. apply Rmult_integral_contrapositive_currified; [exact den|apply Rinv_neq_0_compat; exact z3].
  - unfold rt_dz, rt_g. cbv zeta. fold m. rewrite Rpower_Ropp. assert (0 < Rpower (Rabs m) (l_b c)) by apply exp_pos. field. repeat split; try assumption; lra.
Qed.
(** where Tee is 0 and on the coexistence curve *)
Lemma ans_495 : rho <> 0 -> l_b c <> 0 -> let p := rt_495 c rho in l_k0 c * snd p * Rpower (fst p) (l_b c) = rho /\ fst p * (1 - l_b2 c * (snd p * snd p)) = 0.
Proof.
  intros rn bn. cbv zeta. unfold rt_495. cbn [fst snd]. cbv zeta. pose proof bee0 as bp. pose proof bee2 as bq. assert (0 < Rabs rho) by (apply Rabs_pos_lt; exact rn). assert (Q : Rabs rho * Rabs rho = rho * rho) by (rewrite <- Rabs_mult; apply Rabs_right; nra). split.
  - rewrite Rpower_mult. replace (1 / l_b c * l_b c) with 1 by (field; exact bn). rewrite Rpower_1.
    + field. repeat split; try lra.
    + replace (rho / (l_k0 c * (rho / Rabs rho / rt_bee c))) with (Rabs rho * rt_bee c / l_k0 c) by (field; repeat split; lra). apply Rdiv_lt_0_compat; [apply Rmult_lt_0_compat; lra|lra].
  - replace (l_b2 c * (rho / Rabs rho / rt_bee c * (rho / Rabs rho / rt_bee c))) with 1; [ring|]. rewrite <- bq. replace (rho / Rabs rho / rt_bee c * (rho / Rabs rho / rt_bee c)) with (rho * rho / (Rabs rho * Rabs rho) / (rt_bee c * rt_bee c)) by (field; split; lra). rewrite Q. field. split; lra.
Qed.
Lemma ans_496 : rho <> 0 -> Tee < 0 -> let p := rt_496 c rho Tee in fst p * (1 - l_b2 c * (snd p * snd p)) = Tee /\ Rabs (snd p) = 1 /\ 0 < fst p.
Proof.
  intros rn t. cbv zeta. unfold rt_496. cbn [fst snd]. assert (0 < Rabs rho) by (apply Rabs_pos_lt; exact rn). assert (Q : Rabs rho * Rabs rho = rho * rho) by (rewrite <- Rabs_mult; apply Rabs_right; nra).
  assert (p : 0 < Tee / (1 - l_b2 c)) by (replace (Tee / (1 - l_b2 c)) with ((- Tee) / (l_b2 c - 1)) by (field; lra); apply Rdiv_lt_0_compat; lra). rewrite (Rabs_right (Tee / (1 - l_b2 c))) by lra. split; [|split; [|exact p]].
  - replace (rho / Rabs rho * (rho / Rabs rho)) with (rho * rho / (Rabs rho * Rabs rho)) by (field; lra). rewrite Q. field. split; first [exact rn|lra].
  - unfold Rdiv. rewrite Rabs_mult, Rabs_inv, Rabs_Rabsolu. field. lra.
Qed.
(** the first guess lies on the right side of 1 *)
Lemma guess_side : rho <> 0 -> Tee <> 0 -> 0 < l_b c -> 0 < Tee * (1 - rt_z0 c rho Tee * rt_z0 c rho Tee).
Proof.
  intros rn tn bp. assert (0 < Rabs rho) by (apply Rabs_pos_lt; exact rn). assert (Q : Rabs rho * Rabs rho = rho * rho) by (rewrite <- Rabs_mult; apply Rabs_right; nra). pose proof bee0 as bb. pose proof bee2 as bq.
  unfold rt_z0. set (g := if Rlt_dec Tee 0 then _ else _). replace (g * rho / Rabs rho * (g * rho / Rabs rho)) with (g * g) by (replace (g * rho / Rabs rho * (g * rho / Rabs rho)) with (g * g * (rho * rho / (Rabs rho * Rabs rho))) by (field; lra); rewrite Q; field; exact rn).
  unfold g. destruct (Rlt_dec Tee 0) as [l|l].
  - set (w := Rpower (l_k0 c / Rabs rho) (1 / l_b c)). assert (0 < w) by apply exp_pos. assert (B : 1 < rt_bee c) by nra.
    replace (1 - (1 - rt_bee c) * Tee / (1 - l_b2 c) * w) with (1 + - Tee / (1 + rt_bee c) * w) by (rewrite <- bq; field; split; first [lra|rewrite bq; lra]). assert (0 < - Tee / (1 + rt_bee c) * w) by (apply Rmult_lt_0_compat; [apply Rdiv_lt_0_compat; lra|assumption]). set (q := - Tee / (1 + rt_bee c) * w) in *. replace (Tee * (1 - (1 + q) * (1 + q))) with ((- Tee) * (q * (2 + q))) by ring. apply Rmult_lt_0_compat; [lra|apply Rmult_lt_0_compat; lra].
  - assert (0 < Tee) by (destruct (Rtotal_order Tee 0) as [?|[?|?]]; [contradiction|contradiction|assumption]). set (w := Rpower (l_k0 c / rt_bee c / Rabs rho) (1 / l_b c)). assert (0 < w) by apply exp_pos.
    assert (0 < Tee * w) by (apply Rmult_lt_0_compat; assumption). assert (0 < Rpower (1 + Tee * w) (- l_b c)) by apply exp_pos. assert (Rpower (1 + Tee * w) (- l_b c) < 1) by (rewrite <- (Rpower_O (1 + Tee * w)) at 2 by lra; apply Rpower_lt; lra). set (q := Rpower (1 + Tee * w) (- l_b c)) in *. replace (Tee * (1 - q * q)) with (Tee * ((1 - q) * (1 + q))) by ring. apply Rmult_lt_0_compat; [lra|apply Rmult_lt_0_compat; lra].
Qed.
End Rth.
