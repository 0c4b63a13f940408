(** Proofs about the cubic equations of state of gases. *)
From Coq Require Import List Bool Reals Lra Lia.
From Coquelicot Require Import Coquelicot.
From Verif Require Import RDeriv GasModel GasSpec GasCubic.
Open Scope R_scope.

Lemma Rgas_Rg : Rgas = Rg. Proof. unfold Rgas, Rg. lra. Qed.
Lemma Rg_pos : 0 < Rg. Proof. unfold Rg. lra. Qed.

(** *** Redlich-Kwong form *)
Definition L_rk (A B z : R) : R := z - 1 - ln (z - B) - A / B * ln (1 + B / z).
Lemma srk_lnf_L : forall A B, srk_lnf A B = lnf_of B (L_rk A B).
Proof. reflexivity. Qed.
Lemma L_rk_d : forall A B z, 0 < B -> B < z -> is_derive (L_rk A B) z (/ ((z - B) * z * (z + B)) * poly (-1) (A - B - B ^ 2) (- A * B) z).
Proof.
  intros A B z HB Hz. unfold L_rk. eapply d_eq.
  - apply d_minus; [apply d_minus; [apply d_minus; [apply d_id|apply d_const]|apply d_ln; [apply d_minus; [apply d_id|apply d_const]|lra]]|].
    apply d_scal, (d_ln (fun t => 1 + B / t)).
    + apply d_plus; [apply d_const|]. unfold Rdiv. apply d_scal, (d_inv (fun t => t)); [apply d_id|lra].
    + assert (0 < B / z) by (apply Rdiv_lt_0_compat; lra). lra.
  - cbv beta. unfold poly. field. repeat split; lra.
Qed.
Lemma rk_poly_B : forall A B, 0 < B -> poly (-1) (A - B - B ^ 2) (- A * B) B < 0.
Proof. intros A B H. unfold poly. nra. Qed.
Lemma L_rk_1B : forall A B, 0 < B -> 0 <= A -> L_rk A B (1 + B) <= B.
Proof.
  intros A B HB HA. unfold L_rk. replace (1 + B - B) with 1 by ring. rewrite ln_1.
  assert (0 < B / (1 + B)) by (apply Rdiv_lt_0_compat; lra). assert (0 < ln (1 + B / (1 + B))) by (rewrite <- ln_1; apply ln_increasing; lra).
  assert (0 <= A / B) by (apply Rmult_le_pos; [lra|apply Rlt_le, Rinv_0_lt_compat; lra]). nra.
Qed.
(** *** Peng-Robinson form *)
Lemma sqrt2 : sqrt 2 * sqrt 2 = 2 /\ 1 < sqrt 2 < 2.
Proof.
  split; [apply sqrt_sqrt; lra|]. split.
  - rewrite <- sqrt_1 at 1. apply sqrt_lt_1; lra.
  - rewrite <- (sqrt_pow2 2) at 2 by lra. apply sqrt_lt_1; lra.
Qed.
Lemma sqrt8 : sqrt 8 = 2 * sqrt 2.
Proof. replace 8 with (2 ^ 2 * 2) by ring. rewrite sqrt_mult by lra. rewrite sqrt_pow2 by lra. reflexivity. Qed.
Definition L_pr (A B z : R) : R := -1 * ln (z - B) - A / (B * sqrt 8) * pr_log B z + z - 1.
Lemma pr_lnf_L : forall A B, pr_lnf A B = lnf_of B (L_pr A B).
Proof. reflexivity. Qed.
Lemma pr_log_d : forall B z, 0 < B -> B < z -> is_derive (pr_log B) z (- (2 * sqrt 2 * B) / (z ^ 2 + 2 * B * z - B ^ 2)) /\ 0 < pr_log B z.
Proof.
  intros B z HB Hz. destruct sqrt2 as [E2 [H1 H2]]. set (w := sqrt 2) in *.
  assert (N1 : 0 < z + (1 + w) * B) by nra. assert (N2 : 0 < z + (1 - w) * B) by nra. split.
  - unfold pr_log. fold w. eapply d_eq.
    + apply (d_ln (fun t => (t + (1 + w) * B) / (t + (1 - w) * B))).
      * apply d_div; [apply d_plus; [apply d_id|apply d_const]|apply d_plus; [apply d_id|apply d_const]|lra].
      * apply Rdiv_lt_0_compat; assumption.
    + cbv beta. assert (Ed : z ^ 2 + 2 * B * z - B ^ 2 = (z + (1 + w) * B) * (z + (1 - w) * B)). { transitivity (z ^ 2 + 2 * B * z + B ^ 2 - w * w * B ^ 2); [rewrite E2; ring|ring]. }
      rewrite Ed. field. split; lra.
  - unfold pr_log. fold w. rewrite <- ln_1. apply ln_increasing; [lra|]. apply Rmult_lt_reg_r with (z + (1 - w) * B); [exact N2|]. unfold Rdiv. rewrite Rmult_assoc, Rinv_l by lra. nra.
Qed.
Lemma pr_quad : forall B z, 0 < B -> B < z -> 0 < z ^ 2 + 2 * B * z - B ^ 2.
Proof. intros. nra. Qed.
Lemma L_pr_d : forall A B z, 0 < B -> B < z -> is_derive (L_pr A B) z (/ ((z - B) * (z ^ 2 + 2 * B * z - B ^ 2)) * poly (B - 1) (A - 3 * B ^ 2 - 2 * B) (B ^ 3 + B ^ 2 - A * B) z).
Proof.
  intros A B z HB Hz. unfold L_pr. destruct sqrt2 as [E2 [H1 H2]]. assert (Hq := pr_quad B z HB Hz). eapply d_eq.
  - apply d_minus; [apply d_plus; [apply d_minus; [apply d_scal, d_ln; [apply d_minus; [apply d_id|apply d_const]|lra]|apply d_scal, (proj1 (pr_log_d B z HB Hz))]|apply d_id]|apply d_const].
  - cbv beta. rewrite sqrt8. unfold poly. field. repeat split; lra.
Qed.
Lemma pr_poly_B : forall A B, 0 < B -> poly (B - 1) (A - 3 * B ^ 2 - 2 * B) (B ^ 3 + B ^ 2 - A * B) B < 0.
Proof. intros A B H. unfold poly. nra. Qed.
Lemma L_pr_1B : forall A B, 0 < B -> 0 <= A -> L_pr A B (1 + B) <= B.
Proof.
  intros A B HB HA. unfold L_pr. replace (1 + B - B) with 1 by ring. rewrite ln_1. destruct (pr_log_d B (1 + B) HB) as [_ HL]; [lra|].
  assert (0 <= A / (B * sqrt 8)). { apply Rmult_le_pos; [lra|]. apply Rlt_le, Rinv_0_lt_compat. apply Rmult_lt_0_compat; [lra|]. apply sqrt_lt_R0. lra. } nra.
Qed.

(** *** from compressibility factors to volumes *)
Section Vol.
Variables a b T P : R.
Hypothesis Hb : 0 < b.
Hypothesis HT : 0 < T.
Hypothesis HP : 0 < P.
Lemma RT_pos : 0 < Rg * T. Proof. generalize Rg_pos. intros. now apply Rmult_lt_0_compat. Qed.
Lemma eB_pos : 0 < eB b T P.
Proof. unfold eB. apply Rdiv_lt_0_compat; [now apply Rmult_lt_0_compat|apply RT_pos]. Qed.
Lemma vz : forall z, z * Rg * T / P * P / (Rg * T) = z.
Proof. intros z. generalize Rg_pos RT_pos. intros. field. repeat split; lra. Qed.
Lemma zv : forall v, v * P / (Rg * T) * Rg * T / P = v.
Proof. intros z. generalize Rg_pos RT_pos. intros. field. repeat split; lra. Qed.
Lemma z_gt : forall v, b < v -> eB b T P < v * P / (Rg * T).
Proof. intros v H. unfold eB. apply Rmult_lt_compat_r; [apply Rinv_0_lt_compat, RT_pos|]. now apply Rmult_lt_compat_r. Qed.
Lemma v_gt : forall z, eB b T P < z -> b < z * Rg * T / P.
Proof.
  intros z H. assert (b = eB b T P * Rg * T / P) by (unfold eB; generalize Rg_pos; intros; field; repeat split; lra). rewrite H0. unfold Rdiv.
  apply Rmult_lt_compat_r; [now apply Rinv_0_lt_compat|]. apply Rmult_lt_compat_r; [exact HT|]. apply Rmult_lt_compat_r; [apply Rg_pos|exact H].
Qed.
Lemma gres_rk_L : forall v, b < v -> gres_rk a b T P v = Rg * T * L_rk (eA a T P) (eB b T P) (v * P / (Rg * T)).
Proof.
  intros v H. unfold gres_rk, L_rk, eA, eB. rewrite Rgas_Rg. assert (G := Rg_pos).
  replace (P * (v - b) / (Rg * T)) with (v * P / (Rg * T) - b * P / (Rg * T)) by (field; split; lra).
  replace (1 + b * P / (Rg * T) / (v * P / (Rg * T))) with ((v + b) / v) by (field; repeat split; lra). field. repeat split; lra.
Qed.
Lemma eos_rk_poly : forall v, b < v -> eos_rk a b T v = P <-> poly (-1) (eA a T P - eB b T P - eB b T P ^ 2) (- eA a T P * eB b T P) (v * P / (Rg * T)) = 0.
Proof.
  intros v H. assert (G := Rg_pos).
  assert (E : poly (-1) (eA a T P - eB b T P - eB b T P ^ 2) (- eA a T P * eB b T P) (v * P / (Rg * T)) = P ^ 2 / (Rg * T) ^ 3 * ((v - b) * v * (v + b)) * (P - eos_rk a b T v)).
  { unfold poly, eA, eB, eos_rk. rewrite Rgas_Rg. field. repeat split; lra. }
  rewrite E. split.
  - intros ->. ring.
  - intros Z. apply Rmult_integral in Z. destruct Z as [Z|Z]; [|lra]. exfalso.
    assert (0 < P ^ 2 / (Rg * T) ^ 3 * ((v - b) * v * (v + b))); [|lra]. apply Rmult_lt_0_compat.
    + apply Rdiv_lt_0_compat; apply pow_lt; [lra|apply RT_pos].
    + apply Rmult_lt_0_compat; [apply Rmult_lt_0_compat|]; lra.
Qed.
Lemma pr_log_v : forall v, b < v -> pr_log (eB b T P) (v * P / (Rg * T)) = ln ((v + (1 + sqrt 2) * b) / (v + (1 - sqrt 2) * b)).
Proof.
  intros v H. unfold pr_log, eB. assert (G := Rg_pos). destruct sqrt2 as [E2 [H1 H2]]. f_equal. assert (N2 : 0 < v + (1 - sqrt 2) * b) by nra.
  replace (v * P / (Rg * T) + (1 + sqrt 2) * (b * P / (Rg * T))) with ((v + (1 + sqrt 2) * b) * (P / (Rg * T))) by (field; split; lra).
  replace (v * P / (Rg * T) + (1 - sqrt 2) * (b * P / (Rg * T))) with ((v + (1 - sqrt 2) * b) * (P / (Rg * T))) by (field; split; lra).
  assert (0 < P / (Rg * T)) by (apply Rdiv_lt_0_compat; [exact HP|apply RT_pos]). field_simplify_eq; [ring|]. repeat split; lra.
Qed.
Lemma gres_pr_L : forall v, b < v -> gres_pr a b T P v = Rg * T * L_pr (eA a T P) (eB b T P) (v * P / (Rg * T)).
Proof.
  intros v H. unfold gres_pr, L_pr. rewrite pr_log_v by exact H. rewrite Rgas_Rg, sqrt8. unfold eA, eB. assert (G := Rg_pos). destruct sqrt2 as [E2 [H1 H2]].
  replace (P * (v - b) / (Rg * T)) with (v * P / (Rg * T) - b * P / (Rg * T)) by (field; split; lra). field. repeat split; lra.
Qed.
Lemma eos_pr_poly : forall v, b < v -> eos_pr a b T v = P <-> poly (eB b T P - 1) (eA a T P - 3 * eB b T P ^ 2 - 2 * eB b T P) (eB b T P ^ 3 + eB b T P ^ 2 - eA a T P * eB b T P) (v * P / (Rg * T)) = 0.
Proof.
  intros v H. assert (G := Rg_pos). assert (Hq := pr_quad b v Hb H).
  assert (E : poly (eB b T P - 1) (eA a T P - 3 * eB b T P ^ 2 - 2 * eB b T P) (eB b T P ^ 3 + eB b T P ^ 2 - eA a T P * eB b T P) (v * P / (Rg * T)) = P ^ 2 / (Rg * T) ^ 3 * ((v - b) * (v ^ 2 + 2 * b * v - b ^ 2)) * (P - eos_pr a b T v)).
  { unfold poly, eA, eB, eos_pr. rewrite Rgas_Rg. field. repeat split; lra. }
  rewrite E. split.
  - intros ->. ring.
  - intros Z. apply Rmult_integral in Z. destruct Z as [Z|Z]; [|lra]. exfalso.
    assert (0 < P ^ 2 / (Rg * T) ^ 3 * ((v - b) * (v ^ 2 + 2 * b * v - b ^ 2))); [|lra]. apply Rmult_lt_0_compat.
    + apply Rdiv_lt_0_compat; apply pow_lt; [lra|apply RT_pos].
    + apply Rmult_lt_0_compat; lra.
Qed.
(** the chosen root *)
Hypothesis Ha : 0 <= a.
Hypothesis Hlim : b * P < 1000 * (Rg * T).
Lemma eA_nn : 0 <= eA a T P.
Proof.
  unfold eA. apply Rmult_le_pos; [apply Rmult_le_pos; lra|]. apply Rlt_le, Rinv_0_lt_compat. apply Rmult_lt_0_compat; apply pow_lt; [apply Rg_pos|exact HT].
Qed.
Lemma eB_lim : eB b T P < 1000.
Proof. unfold eB. apply Rmult_lt_reg_r with (Rg * T); [apply RT_pos|]. unfold Rdiv. rewrite Rmult_assoc, Rinv_l by (generalize RT_pos; lra). lra. Qed.
Lemma rk_chosen : forall r, cardano PI (-1) (eA a T P - eB b T P - eB b T P ^ 2) (- eA a T P * eB b T P) = Some r ->
  let z := pick (srk_lnf (eA a T P) (eB b T P)) r in let v := z * Rg * T / P in
  eB b T P < z /\ b < v /\ eos_rk a b T v = P /\ Rg * T * srk_lnf (eA a T P) (eB b T P) z = gres_rk a b T P v /\ forall u, b < u -> gres_rk a b T P v <= gres_rk a b T P u.
Proof.
  intros r Hr z v. set (A := eA a T P) in *. set (B := eB b T P) in *. assert (HB : 0 < B) by apply eB_pos.
  destruct (pick_stable (-1) (A - B - B ^ 2) (- A * B) B (L_rk A B) (fun z => / ((z - B) * z * (z + B)))) with (r := r) as (P1 & P2 & P3 & P4).
  - now apply rk_poly_B.
  - intros x Hx. now apply L_rk_d.
  - intros x Hx. apply Rinv_0_lt_compat. apply Rmult_lt_0_compat; [apply Rmult_lt_0_compat|]; lra.
  - exact Hr.
  - exists (1 + B). split; [lra|]. generalize (L_rk_1B A B HB eA_nn) eB_lim. fold B. lra.
  - rewrite <- srk_lnf_L in P1, P2, P3, P4. fold z in P1, P2, P3, P4. assert (Hv : b < v) by (apply v_gt; exact P1).
    assert (Ezv : v * P / (Rg * T) = z) by apply vz.
    split; [exact P1|]. split; [exact Hv|]. split; [|split].
    + apply eos_rk_poly; [exact Hv|]. rewrite Ezv. exact P2.
    + rewrite gres_rk_L by exact Hv. rewrite Ezv. fold A B. rewrite P3. reflexivity.
    + intros u Hu. rewrite !gres_rk_L by assumption. rewrite Ezv. fold A B. apply Rmult_le_compat_l; [apply Rlt_le, RT_pos|]. apply P4. apply z_gt. exact Hu.
Qed.
Lemma pr_chosen : forall r, cardano PI (eB b T P - 1) (eA a T P - 3 * eB b T P ^ 2 - 2 * eB b T P) (eB b T P ^ 3 + eB b T P ^ 2 - eA a T P * eB b T P) = Some r ->
  let z := pick (pr_lnf (eA a T P) (eB b T P)) r in let v := z * Rg * T / P in
  eB b T P < z /\ b < v /\ eos_pr a b T v = P /\ Rg * T * pr_lnf (eA a T P) (eB b T P) z = gres_pr a b T P v /\ forall u, b < u -> gres_pr a b T P v <= gres_pr a b T P u.
Proof.
  intros r Hr z v. set (A := eA a T P) in *. set (B := eB b T P) in *. assert (HB : 0 < B) by apply eB_pos.
  destruct (pick_stable (B - 1) (A - 3 * B ^ 2 - 2 * B) (B ^ 3 + B ^ 2 - A * B) B (L_pr A B) (fun z => / ((z - B) * (z ^ 2 + 2 * B * z - B ^ 2)))) with (r := r) as (P1 & P2 & P3 & P4).
  - now apply pr_poly_B.
  - intros x Hx. now apply L_pr_d.
  - intros x Hx. apply Rinv_0_lt_compat. apply Rmult_lt_0_compat; [lra|now apply pr_quad].
  - exact Hr.
  - exists (1 + B). split; [lra|]. generalize (L_pr_1B A B HB eA_nn) eB_lim. fold B. lra.
  - rewrite <- pr_lnf_L in P1, P2, P3, P4. fold z in P1, P2, P3, P4. assert (Hv : b < v) by (apply v_gt; exact P1).
    assert (Ezv : v * P / (Rg * T) = z) by apply vz.
    split; [exact P1|]. split; [exact Hv|]. split; [|split].
    + apply eos_pr_poly; [exact Hv|]. rewrite Ezv. exact P2.
    + rewrite gres_pr_L by exact Hv. rewrite Ezv. fold A B. rewrite P3. reflexivity.
    + intros u Hu. rewrite !gres_pr_L by assumption. rewrite Ezv. fold A B. apply Rmult_le_compat_l; [apply Rlt_le, RT_pos|]. apply P4. apply z_gt. exact Hu.
Qed.
End Vol.
