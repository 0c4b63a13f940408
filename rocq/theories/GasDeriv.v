(** Derivatives of the residual functions of the cubic equations of state. *)
From Coq Require Import List Bool Reals Lra Lia.
From Coquelicot Require Import Coquelicot.
From Verif Require Import RDeriv GasModel GasSpec GasCubic GasProofs.
Open Scope R_scope.

Lemma ln_ratio_d : forall (f g : R -> R) x f1 g1, is_derive f x f1 -> is_derive g x g1 -> 0 < f x -> 0 < g x -> is_derive (fun t => ln (f t / g t)) x (f1 / f x - g1 / g x).
Proof.
  intros f g x f1 g1 Hf Hg Pf Pg. eapply d_eq; [apply (d_ln (fun t => f t / g t)); [apply d_div; [exact Hf|exact Hg|lra]|apply Rdiv_lt_0_compat; assumption]|]. cbv beta. field. split; lra.
Qed.
Section RK.
Variables (b T P : R).
Hypothesis Hb : 0 < b.
Hypothesis HT : 0 < T.
Hypothesis HP : 0 < P.
Lemma gres_rk_P : forall a v v1, b < v P -> is_derive v P v1 -> eos_rk a b T (v P) = P -> is_derive (fun p => gres_rk a b T p (v p)) P (v P - Rgas * T / P).
Proof.
  intros a v v1 Hv D E. assert (G : 0 < Rgas) by (unfold Rgas; lra). assert (RT : 0 < Rgas * T) by (now apply Rmult_lt_0_compat). unfold gres_rk. eapply d_eq.
  - apply d_minus; [apply d_minus; [apply d_minus; [apply d_mult; [apply d_id|exact D]|apply d_const]|apply d_scal, (ln_ratio_d (fun p => p * (v p - b)) (fun _ => Rgas * T))]|apply d_scal, (ln_ratio_d (fun p => v p + b) v)].
    + apply d_mult; [apply d_id|apply d_minus; [exact D|apply d_const]].
    + apply d_const.
    + apply Rmult_lt_0_compat; lra.
    + exact RT.
    + apply d_plus; [exact D|apply d_const].
    + exact D.
    + lra.
    + lra.
  - cbv beta. transitivity (v P - Rgas * T / P + v1 * (P - eos_rk a b T (v P))); [|rewrite E; ring]. unfold eos_rk. field. repeat split; lra.
Qed.
Lemma gres_rk_T : forall a da v v1, b < v T -> is_derive a T da -> is_derive v T v1 -> eos_rk (a T) b T (v T) = P ->
  is_derive (fun t => gres_rk (a t) b t P (v t)) T (- ((hres_rk (a T) da b T P (v T) - gres_rk (a T) b T P (v T)) / T)).
Proof.
  intros a da v v1 Hv Da D E. assert (G : 0 < Rgas) by (unfold Rgas; lra). assert (RT : 0 < Rgas * T) by (now apply Rmult_lt_0_compat). unfold gres_rk at 1. eapply d_eq.
  - apply d_minus; [apply d_minus; [apply d_minus; [apply d_scal; exact D|apply d_scal, d_id]|apply d_mult; [apply d_scal, d_id|apply (ln_ratio_d (fun p => P * (v p - b)) (fun t => Rgas * t))]]|apply d_mult; [unfold Rdiv; apply d_scal_r; exact Da|apply (ln_ratio_d (fun p => v p + b) v)]].
    + apply d_scal, d_minus; [exact D|apply d_const].
    + apply d_scal, d_id.
    + apply Rmult_lt_0_compat; lra.
    + exact RT.
    + apply d_plus; [exact D|apply d_const].
    + exact D.
    + lra.
    + lra.
  - cbv beta. transitivity (- ((hres_rk (a T) da b T P (v T) - gres_rk (a T) b T P (v T)) / T) + v1 * (P - eos_rk (a T) b T (v T))); [|rewrite E; ring]. unfold hres_rk, gres_rk, eos_rk. field. repeat split; lra.
Qed.
(** a branch of volumes along which the pressure stays the same *)
Lemma rk_branch : forall a da v v1, b < v T -> is_derive a T da -> is_derive v T v1 ->
  is_derive (fun t => eos_rk (a t) b t (v t)) T ((Rgas / (v T - b) - da / (v T * (v T + b))) + (- Rgas * T / (v T - b) ^ 2 + a T * (2 * v T + b) / (v T * (v T + b)) ^ 2) * v1).
Proof.
  intros a da v v1 Hv Da D. unfold eos_rk. eapply d_eq.
  - apply d_minus; apply d_div.
    + apply d_scal, d_id.
    + apply d_minus; [exact D|apply d_const].
    + lra.
    + exact Da.
    + apply d_mult; [exact D|apply d_plus; [exact D|apply d_const]].
    + apply Rgt_not_eq, Rmult_lt_0_compat; lra.
  - cbv beta. field. repeat split; lra.
Qed.
Lemma hres_rk_T : forall a da d2a v v1, b < v T -> is_derive a T (da T) -> is_derive da T d2a -> is_derive v T v1 -> eos_rk (a T) b T (v T) = P ->
  is_derive (fun t => hres_rk (a t) (da t) b t P (v t)) T (T * d2a / b * ln ((v T + b) / v T) + T * (Rgas / (v T - b) - da T / (v T * (v T + b))) * v1 - Rgas).
Proof.
  intros a da d2a v v1 Hv Da D2 D E. unfold hres_rk. eapply d_eq.
  - apply d_minus; [apply d_minus; [apply d_scal; exact D|apply d_scal, d_id]|apply d_mult; [unfold Rdiv; apply d_scal_r, d_minus; [exact Da|apply d_mult; [apply d_id|exact D2]]|apply (ln_ratio_d (fun p => v p + b) v)]].
    + apply d_plus; [exact D|apply d_const].
    + exact D.
    + lra.
    + lra.
  - cbv beta. rewrite <- E at 1. unfold eos_rk. field. repeat split; lra.
Qed.
End RK.
Section PR.
Variables (b T P : R).
Hypothesis Hb : 0 < b.
Hypothesis HT : 0 < T.
Hypothesis HP : 0 < P.
Definition prl (v : R) : R := ln ((v + (1 + sqrt 2) * b) / (v + (1 - sqrt 2) * b)).
Lemma prl_d : forall v x v1, b < v x -> is_derive v x v1 -> is_derive (fun t => prl (v t)) x (- (2 * sqrt 2 * b) * v1 / (v x ^ 2 + 2 * b * v x - b ^ 2)).
Proof.
  intros v x v1 Hv D. eapply d_eq; [apply (d_comp prl v); [|exact D]|].
  - exact (proj1 (pr_log_d b (v x) Hb Hv)).
  - assert (Hq := pr_quad b (v x) Hb Hv). field. lra.
Qed.
Lemma prl_pos : forall v, b < v -> 0 < prl v.
Proof. intros v H. exact (proj2 (pr_log_d b v Hb H)). Qed.
Lemma gres_pr_P : forall a v v1, b < v P -> is_derive v P v1 -> eos_pr a b T (v P) = P -> is_derive (fun p => gres_pr a b T p (v p)) P (v P - Rgas * T / P).
Proof.
  intros a v v1 Hv D E. assert (G : 0 < Rgas) by (unfold Rgas; lra). assert (RT : 0 < Rgas * T) by (now apply Rmult_lt_0_compat). assert (Hq := pr_quad b (v P) Hb Hv). destruct sqrt2 as [E2 [H1 H2]]. unfold gres_pr. eapply d_eq.
  - apply d_minus; [apply d_minus; [apply d_minus; [apply d_mult; [apply d_id|exact D]|apply d_const]|apply d_scal, (ln_ratio_d (fun p => p * (v p - b)) (fun _ => Rgas * T))]|apply d_scal, (prl_d v P v1 Hv D)].
    + apply d_mult; [apply d_id|apply d_minus; [exact D|apply d_const]].
    + apply d_const.
    + apply Rmult_lt_0_compat; lra.
    + exact RT.
  - cbv beta. transitivity (v P - Rgas * T / P + v1 * (P - eos_pr a b T (v P))); [|rewrite E; ring]. unfold eos_pr. field. repeat split; lra.
Qed.
Lemma gres_pr_T : forall a da v v1, b < v T -> is_derive a T da -> is_derive v T v1 -> eos_pr (a T) b T (v T) = P ->
  is_derive (fun t => gres_pr (a t) b t P (v t)) T (- ((hres_pr (a T) da b T P (v T) - gres_pr (a T) b T P (v T)) / T)).
Proof.
  intros a da v v1 Hv Da D E. assert (G : 0 < Rgas) by (unfold Rgas; lra). assert (RT : 0 < Rgas * T) by (now apply Rmult_lt_0_compat). assert (Hq := pr_quad b (v T) Hb Hv). destruct sqrt2 as [E2 [H1 H2]]. unfold gres_pr at 1. eapply d_eq.
  - apply d_minus; [apply d_minus; [apply d_minus; [apply d_scal; exact D|apply d_scal, d_id]|apply d_mult; [apply d_scal, d_id|apply (ln_ratio_d (fun p => P * (v p - b)) (fun t => Rgas * t))]]|apply d_mult; [unfold Rdiv; apply d_scal_r; exact Da|apply (prl_d v T v1 Hv D)]].
    + apply d_scal, d_minus; [exact D|apply d_const].
    + apply d_scal, d_id.
    + apply Rmult_lt_0_compat; lra.
    + exact RT.
  - cbv beta. transitivity (- ((hres_pr (a T) da b T P (v T) - gres_pr (a T) b T P (v T)) / T) + v1 * (P - eos_pr (a T) b T (v T))); [|rewrite E; ring]. unfold hres_pr, gres_pr, eos_pr. fold (prl (v T)). field. repeat split; lra.
Qed.
Lemma pr_branch : forall a da v v1, b < v T -> is_derive a T da -> is_derive v T v1 ->
  is_derive (fun t => eos_pr (a t) b t (v t)) T ((Rgas / (v T - b) - da / (v T ^ 2 + 2 * b * v T - b ^ 2)) + (- Rgas * T / (v T - b) ^ 2 + 2 * a T * (v T + b) / (v T ^ 2 + 2 * b * v T - b ^ 2) ^ 2) * v1).
Proof.
  intros a da v v1 Hv Da D. assert (Hq := pr_quad b (v T) Hb Hv). unfold eos_pr. eapply d_eq.
  - apply d_minus; apply d_div.
    + apply d_scal, d_id.
    + apply d_minus; [exact D|apply d_const].
    + lra.
    + exact Da.
    + apply d_minus; [apply d_plus; [apply d_pow; exact D|apply d_scal; exact D]|apply d_const].
    + lra.
  - cbv beta. cbn [INR pred pow]. field. repeat split; lra.
Qed.
Lemma hres_pr_T : forall a da d2a v v1, b < v T -> is_derive a T (da T) -> is_derive da T d2a -> is_derive v T v1 -> eos_pr (a T) b T (v T) = P ->
  is_derive (fun t => hres_pr (a t) (da t) b t P (v t)) T (T * d2a / (2 * sqrt 2 * b) * prl (v T) + T * (Rgas / (v T - b) - da T / (v T ^ 2 + 2 * b * v T - b ^ 2)) * v1 - Rgas).
Proof.
  intros a da d2a v v1 Hv Da D2 D E. assert (Hq := pr_quad b (v T) Hb Hv). destruct sqrt2 as [E2 [H1 H2]]. unfold hres_pr. eapply d_eq.
  - apply d_minus; [apply d_minus; [apply d_scal; exact D|apply d_scal, d_id]|apply d_mult; [unfold Rdiv; apply d_scal_r, d_minus; [exact Da|apply d_mult; [apply d_id|exact D2]]|apply (prl_d v T v1 Hv D)]].
  - cbv beta. fold (prl (v T)). rewrite <- E at 1. unfold eos_pr. field. repeat split; lra.
Qed.
End PR.
(** *** the attraction terms *)
Lemma sqa_d : forall k Tc T, 0 < Tc -> 0 < T -> is_derive (fun t => 1 + k * (1 - sqrt (t / Tc))) T (- (1 / 2) * k / (sqrt (T / Tc) * Tc)).
Proof.
  intros k Tc T Hc HT. assert (Hr : 0 < T / Tc) by (now apply Rdiv_lt_0_compat). assert (Hs := sqrt_lt_R0 _ Hr). eapply d_eq.
  - apply d_plus; [apply d_const|apply d_scal, d_minus; [apply d_const|apply (d_sqrt (fun t => t / Tc)); [unfold Rdiv; apply d_scal_r, d_id|exact Hr]]].
  - cbv beta. field. lra.
Qed.
Lemma dsqa_d : forall k Tc T, 0 < Tc -> 0 < T -> is_derive (fun t => - (1 / 2) * k / (sqrt (t / Tc) * Tc)) T (1 / 4 * k / (T / Tc * sqrt (T / Tc) * Tc ^ 2)).
Proof.
  intros k Tc T Hc HT. assert (Hr : 0 < T / Tc) by (now apply Rdiv_lt_0_compat). assert (Hs := sqrt_lt_R0 _ Hr). eapply d_eq.
  - apply d_div; [apply d_const|apply d_scal_r, (d_sqrt (fun t => t / Tc)); [unfold Rdiv; apply d_scal_r, d_id|exact Hr]|]. apply Rgt_not_eq, Rmult_lt_0_compat; lra.
  - cbv beta. assert (Et : T / Tc = sqrt (T / Tc) * sqrt (T / Tc)) by (symmetry; apply sqrt_sqrt; lra). rewrite Et at 4. generalize dependent (sqrt (T / Tc)). intros s Hs Et. field. lra.
Qed.
