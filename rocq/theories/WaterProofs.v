(** Lemmas on the water state computed from a Helmholtz function. *)
From Coq Require Import Reals Lra.
From Coquelicot Require Import Coquelicot.
From Verif Require Import RDeriv RDiff2 WaterModel WaterSpec.
Open Scope R_scope.

Lemma isz_no : forall x, x <> 0 -> isz x = false.
Proof. intros x H. unfold isz. destruct (Req_EM_T x 0); [contradiction|reflexivity]. Qed.
Lemma isz_yes : isz 0 = true.
Proof. unfold isz. destruct (Req_EM_T 0 0); [reflexivity|now destruct n]. Qed.

Section Water.
Variables (H : R -> R -> helm) (rho : R -> R -> R) (T P : R).
Let D := rho T P.
Let s := along H rho.

Lemma pressure_d : helm2 H T D -> diff2 (fun t d => d * d * hD (H t d)) T D (w_pT (s T P)) (w_pD (s T P)).
Proof. intros [_ h]. eapply e_eq; [er|..]; cbn; fold D; ring. Qed.
Lemma rho_d : helm2 H T D -> w_pD (s T P) <> 0 -> density_of H rho T P -> diff2 rho T P (w_dT (s T P)) (w_dP (s T P)).
Proof. intros h n [c l]. exact (implicit (fun t d => d * d * hD (H t d)) rho T P _ _ (pressure_d h) n c l). Qed.

(** a function of temperature and density along the solution *)
Lemma along_d : forall (f : R -> R -> R) a b, diff2 f T D a b -> forall dT dP, diff2 rho T P dT dP -> diff2 (fun t p => f t (rho t p)) T P (a + b * dT) (b * dP).
Proof. intros f a b h dT dP r. eapply e_eq; [apply (e_comp2 f (fun t _ => t) rho T P a b 1 0 dT dP h (e_fst _ _) r)|ring|ring]. Qed.

Lemma second_d : helm2 H T D -> helm3' H T D -> w_pD (s T P) <> 0 -> w_dT (s T P) <> 0 -> density_of H rho T P ->
  exists dTT, w_dTT (s T P) = Some dTT /\ diff2 (fun t p => w_dT (s t p)) T P dTT (w_dTP (s T P)) /\ diff2 (fun t p => w_dP (s t p)) T P (w_dTP (s T P)) (w_dPP (s T P)).
Proof.
  intros h2 h3 n nT dn. assert (r := rho_d h2 n dn). destruct h2 as [_ h2]. destruct h3 as (_ & h3a & h3b).
  assert (a1 := along_d _ _ _ h2 _ _ r). assert (a2 := along_d _ _ _ h3a _ _ r). assert (a3 := along_d _ _ _ h3b _ _ r). clear h2 h3a h3b dn.
  unfold s, along, waterThermoState in *; cbn [w_pD w_dT w_dP w_dTT w_dTP w_dPP w_pT w_pDD w_pTD w_pTT] in *. fold D in n, nT |- *.
  rewrite (isz_no _ nT). eexists. split; [reflexivity|].
  set (x := 2 * D * hD (H T D) + D * D * hDD (H T D)) in *. set (y := D * D * hTD (H T D)) in *.
  assert (nY : y <> 0) by (intro e; apply nT; rewrite e; unfold Rdiv; ring).
  assert (ex : 2 * rho T P * hD (H T (rho T P)) + rho T P * rho T P * hDD (H T (rho T P)) <> 0) by exact n.
  split.
  - eapply e_eq; [er; exact ex|..]; cbv beta; fold D; fold x; fold y; field; auto.
  - eapply e_eq; [er; exact ex|..]; cbv beta; fold D; fold x; fold y; field; auto.
Qed.

(** second derivatives other than densityTT do not need densityT <> 0 *)
Lemma second_d' : helm2 H T D -> helm3' H T D -> w_pD (s T P) <> 0 -> density_of H rho T P ->
  diff2 (fun t p => w_dP (s t p)) T P (w_dTP (s T P)) (w_dPP (s T P)) /\
  diff2 (fun t p => w_dT (s t p)) T P (- (w_pTT (s T P) + 2 * w_pTD (s T P) * w_dT (s T P) + w_pDD (s T P) * w_dT (s T P) ^ 2) / w_pD (s T P)) (w_dTP (s T P)).
Proof.
  intros h2 h3 n dn. assert (r := rho_d h2 n dn). destruct h2 as [_ h2]. destruct h3 as (_ & h3a & h3b).
  assert (a1 := along_d _ _ _ h2 _ _ r). assert (a2 := along_d _ _ _ h3a _ _ r). assert (a3 := along_d _ _ _ h3b _ _ r). clear h2 h3a h3b dn.
  unfold s, along, waterThermoState in *; cbn [w_pD w_dT w_dP w_dTT w_dTP w_dPP w_pT w_pDD w_pTD w_pTT] in *. fold D in n |- *.
  set (x := 2 * D * hD (H T D) + D * D * hDD (H T D)) in *. set (y := D * D * hTD (H T D)) in *.
  assert (ex : 2 * rho T P * hD (H T (rho T P)) + rho T P * rho T P * hDD (H T (rho T P)) <> 0) by exact n.
  split.
  - eapply e_eq; [er; exact ex|..]; cbv beta; fold D; fold x; fold y; field; auto.
  - eapply e_eq; [er; exact ex|..]; cbv beta; fold D; fold x; fold y; field; auto.
Qed.

Hypothesis D0 : D <> 0.
Hypothesis T0 : T <> 0.

Lemma here : density_of H rho T P -> P = D * D * hD (H T D).
Proof. intros [_ l]. symmetry. exact (locally_2d_singleton _ _ _ l). Qed.

(** Gibbs energy, enthalpy, entropy, volume *)
Lemma energy_d : helm1 H T D -> helm2 H T D -> w_pD (s T P) <> 0 -> density_of H rho T P ->
  diff2 (fun t p => w_G (s t p)) T P (- w_S (s T P)) (w_V (s T P)) /\
  diff2 (fun t p => w_V (s t p)) T P (sAlpha (s T P) * w_V (s T P)) (- sBeta (s T P) * w_V (s T P)) /\
  diff2 (fun t p => w_S (s t p)) T P (w_cp (s T P) / T) (- (sAlpha (s T P) * w_V (s T P))) /\
  diff2 (fun t p => w_H (s t p)) T P (w_cp (s T P)) (w_V (s T P) - T * (sAlpha (s T P) * w_V (s T P))).
Proof.
  intros h1 h2 n dn. assert (r := rho_d h2 n dn). assert (e := here dn). destruct h2 as [h2a h2].
  assert (a0 := along_d _ _ _ h1 _ _ r). assert (a1 := along_d _ _ _ h2a _ _ r). clear h1 h2a h2 dn.
  unfold s, along, waterThermoState, sAlpha, sBeta in *; cbn [w_pD w_d w_dT w_dP w_dTT w_dTP w_dPP w_pT w_pDD w_pTD w_pTT w_G w_S w_V w_H w_U w_A w_cp w_cv] in *. fold D in n |- *.
  assert (D0' : rho T P <> 0) by exact D0.
  assert (N : 2 * hD (H T D) + D * hDD (H T D) <> 0) by (intro z; apply n; replace (2 * D * hD (H T D) + D * D * hDD (H T D)) with (D * (2 * hD (H T D) + D * hDD (H T D))) by ring; rewrite z; ring).
  repeat match goal with |- _ /\ _ => split end.
  - eapply e_eq; [er; exact D0'|..]; cbv beta; fold D; rewrite e; field; auto.
  - eapply e_eq; [er; exact D0'|..]; cbv beta; fold D; field; auto.
  - eapply e_eq; [er|..]; cbv beta; fold D; field; auto.
  - eapply e_eq; [er; exact D0'|..]; cbv beta; fold D; try rewrite e at 1; field; auto.
Qed.

(** the heat capacity at constant volume *)
Lemma cv_d : helm1 H T D -> helm2 H T D -> is_derive (fun t : R => w_U (waterThermoState t P D (H t D))) T (w_cv (s T P)) /\
  is_derive (fun t : R => w_S (waterThermoState t P D (H t D))) T (w_cv (s T P) / T).
Proof.
  intros h1 [h2 _]. assert (a := e_1 _ _ _ _ _ h1). assert (b := e_1 _ _ _ _ _ h2). cbv beta in a, b.
  split; cbn; fold D; (eapply d_eq; [|]).
  - apply (d_plus (fun t : R => h0 (H t D)) (fun t : R => t * - hT (H t D))); [exact a|]. apply (d_mult (fun t : R => t) (fun t : R => - hT (H t D))); [apply d_id|]. apply (d_opp (fun t : R => hT (H t D))). exact b.
  - cbv beta. ring.
  - apply (d_opp (fun t : R => hT (H t D))). exact b.
  - field. exact T0.
Qed.

Lemma cp_cv : w_pD (s T P) <> 0 -> sBeta (s T P) <> 0 /\ w_cp (s T P) - w_cv (s T P) = T * w_V (s T P) * sAlpha (s T P) ^ 2 / sBeta (s T P).
Proof.
  unfold s, along, waterThermoState, sAlpha, sBeta; cbn [w_pD w_d w_dT w_dP w_dTT w_dTP w_dPP w_pT w_pDD w_pTD w_pTT w_G w_S w_V w_H w_U w_A w_cp w_cv]. fold D. intros n.
  set (x := 2 * D * hD (H T D) + D * D * hDD (H T D)) in *. assert (1 / x <> 0) by (unfold Rdiv; rewrite Rmult_1_l; now apply Rinv_neq_0_compat). split.
  - unfold Rdiv at 1. apply Rmult_integral_contrapositive_currified; [exact H0|now apply Rinv_neq_0_compat].
  - field. auto.
Qed.
Lemma cp_ge : 0 < T -> 0 < w_pD (s T P) -> w_cv (s T P) <= w_cp (s T P).
Proof.
  unfold s, along, waterThermoState; cbn [w_pD w_cp w_cv]. fold D. intros t n. set (x := 2 * D * hD (H T D) + D * D * hDD (H T D)) in *.
  replace (T / (D * D) * (D * D * hTD (H T D)) * (D * D * hTD (H T D)) / x) with ((T / (D * D) / x) * ((D * D * hTD (H T D)) * (D * D * hTD (H T D)))) by (assert (x <> 0) by lra; field; auto).
  assert (0 <= (T / (D * D) / x) * ((D * D * hTD (H T D)) * (D * D * hTD (H T D)))); [|lra]. apply Rmult_le_pos; [|apply Rle_0_sqr].
  left. apply Rdiv_lt_0_compat; [apply Rdiv_lt_0_compat; [exact t|]|exact n]. assert (Q := Rsqr_pos_lt D D0). exact Q.
Qed.
(** algebraic relations *)
Lemma legendre : density_of H rho T P -> let x := s T P in
  w_G x = w_A x + P * w_V x /\ w_H x = w_G x + T * w_S x /\ w_U x = w_A x + T * w_S x /\ w_H x = w_U x + P * w_V x /\ w_V x * w_d x = 1.
Proof. intros _. cbn. fold D. repeat split; field; exact D0. Qed.
(** thermal expansion *)
Lemma alpha_d : helm2 H T D -> helm3' H T D -> w_pD (s T P) <> 0 -> w_dT (s T P) <> 0 -> density_of H rho T P ->
  exists a, sdAldT (s T P) = Some a /\ is_derive (fun t : R => sAlpha (s t P)) T a.
Proof.
  intros h2 h3 n nT dn. assert (r := rho_d h2 n dn). destruct (second_d h2 h3 n nT dn) as (x & e & q & _).
  unfold sdAldT. rewrite e. eexists. split; [reflexivity|].
  apply e_1 in q. apply e_1 in r. cbv beta in q, r. unfold sAlpha. change (fun t : R => - w_dT (s t P) / w_d (s t P)) with (fun t : R => - w_dT (s t P) / rho t P).
  change (w_d (s T P)) with D. eapply d_eq; [apply (d_div (fun t : R => - w_dT (s t P)) (fun t : R => rho t P)); [apply (d_opp (fun t : R => w_dT (s t P))); exact q|exact r|exact D0]|].
  cbv beta. fold D. field. exact D0.
Qed.
End Water.
