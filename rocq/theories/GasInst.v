(** Peng-Robinson 1978 and Peng-Robinson-Stryjek-Vera as instances; where they fail; numbers for examples. *)
From Coq Require Import List Bool Reals Lra Lia.
From Coquelicot Require Import Coquelicot.
From Verif Require Import RDeriv GasModel GasSpec GasCubic GasProofs GasDeriv GasMore GasPhase.
Open Scope R_scope.

Lemma dec : forall n d x : R, d <> 0 -> x * d = n -> x = n / d.
Proof. intros n d x H <-. field. exact H. Qed.
Lemma pr_kappa_eq : forall w, pr_kappa w = k_pr w.
Proof. intros w. unfold pr_kappa, k_pr. replace 0.491 with (491 / 1000) by lra. destruct (Rle_dec w (491 / 1000)); lra. Qed.
Lemma pr_a_eq : forall Tc Pc w T, e_a (pr_ab Tc Pc w T) = a_pr Tc Pc w T.
Proof. intros. unfold pr_ab, a_pr, alpha, pr_ac. cbn [e_a]. rewrite Rgas_Rg, pr_kappa_eq. replace 0.457235529 with (457235529 / 1000000000) by lra. ring. Qed.
Lemma pr_b_eq : forall Tc Pc w T, e_b (pr_ab Tc Pc w T) = b_pr Tc Pc.
Proof. intros. unfold pr_ab, b_pr. cbn [e_b]. rewrite Rgas_Rg. lra. Qed.
Lemma b_pr_pos : forall Tc Pc, 0 < Tc -> 0 < Pc -> 0 < b_pr Tc Pc.
Proof. intros. unfold b_pr, Rgas. apply Rdiv_lt_0_compat; lra. Qed.
Lemma a_pr_nn : forall Tc Pc w T, 0 < Tc -> 0 < Pc -> 0 <= a_pr Tc Pc w T.
Proof. intros. unfold a_pr. apply scaled_sq, ac_pos; lra. Qed.
Lemma pr_He : forall Tc Pc w t, 0 < Tc -> 0 < Pc -> 0 < t -> e_b (pr_ab Tc Pc w t) = b_pr Tc Pc /\ 0 <= e_a (pr_ab Tc Pc w t).
Proof. intros. rewrite pr_a_eq, pr_b_eq. split; [reflexivity|now apply a_pr_nn]. Qed.
(** the factor (sqrt(alph)-1)/(1-sqrt(Tred))*sqrt(Tred)/sqrt(alph) *)
Lemma kk_true : forall ac k Tc T kk, 0 < ac -> 0 < Tc -> 0 < T -> let sqa := 1 + k * (1 - sqrt (T / Tc)) in 0 < sqa -> pr_kk ac Tc T (sqa ^ 2 * ac) = Some kk ->
  kk * (sqa ^ 2 * ac) = - T * (2 * ac * (sqa * (- (1 / 2) * k / (sqrt (T / Tc) * Tc)))).
Proof.
  intros ac k Tc T kk Hac Hc HT sqa Hs. unfold pr_kk. replace (sqa ^ 2 * ac / ac) with (sqa ^ 2) by (field; lra). rewrite sqrt_pow2 by lra.
  destruct (Req_EM_T (1 - sqrt (T / Tc)) 0) as [|N]; [discriminate|]. intros [= <-]. assert (Hr : 0 < T / Tc) by (now apply Rdiv_lt_0_compat). assert (Hq := sqrt_lt_R0 _ Hr).
  assert (Et : T = sqrt (T / Tc) * sqrt (T / Tc) * Tc) by (rewrite sqrt_sqrt by lra; field; lra).
  replace (sqa - 1) with (k * (1 - sqrt (T / Tc))) by (unfold sqa; ring). unfold sqa in *. set (s := sqrt (T / Tc)) in *. clearbody s. rewrite Et. field. repeat split; lra.
Qed.
Lemma pr_ac_pos : forall Tc Pc, 0 < Tc -> 0 < Pc -> 0 < pr_ac Tc Pc.
Proof. intros. unfold pr_ac. rewrite <- Rgas_Rg. apply ac_pos; lra. Qed.
Lemma sqa_near : forall k Tc T, 0 < Tc -> 0 < T -> 0 < 1 + k * (1 - sqrt (T / Tc)) -> locally T (fun t => 0 < t /\ 0 < 1 + k * (1 - sqrt (t / Tc))).
Proof. intros k Tc T Hc HT H. apply near_both; [now apply near_gt|]. apply (near_cont (fun t => 1 + k * (1 - sqrt (t / Tc)))); [|exact H]. eexists. now apply sqa_d. Qed.
Lemma pr_Hd : forall Tc Pc w T, 0 < Tc -> 0 < Pc -> 0 < T -> 0 < 1 + k_pr w * (1 - sqrt (T / Tc)) ->
  locally T (fun t => is_derive (fun t => e_a (pr_ab Tc Pc w t)) t (e_da (pr_ab Tc Pc w t)) /\ forall kk, pr_kk (pr_ac Tc Pc) Tc t (e_a (pr_ab Tc Pc w t)) = Some kk -> kk * e_a (pr_ab Tc Pc w t) = - t * e_da (pr_ab Tc Pc w t)).
Proof.
  intros Tc Pc w T Hc Hp HT H. generalize (sqa_near _ _ _ Hc HT H). apply filter_imp. intros t [Ht Hs]. rewrite <- pr_kappa_eq in Hs. split.
  - exact (proj1 (attr_d (pr_ac Tc Pc) (pr_kappa w) Tc t Hc Ht)).
  - intros kk. exact (kk_true (pr_ac Tc Pc) (pr_kappa w) Tc t kk (pr_ac_pos _ _ Hc Hp) Hc Ht Hs).
Qed.
Lemma pr_d2 : forall Tc Pc w T, 0 < Tc -> 0 < T -> is_derive (fun t => e_da (pr_ab Tc Pc w t)) T (e_d2a (pr_ab Tc Pc w T)).
Proof. intros Tc Pc w T Hc HT. exact (proj2 (attr_d (pr_ac Tc Pc) (pr_kappa w) Tc T Hc HT)). Qed.
(** *** Peng-Robinson *)
Definition stable (gres : R -> R) (b v : R) : Prop := b < v /\ forall u, b < u -> gres v <= gres u.
Lemma pr78_volume : forall Tc Pc w T P f, 0 < Tc -> 0 < Pc -> 0 < T -> 0 < P -> b_pr Tc Pc * P < 1000 * (Rgas * T) -> pr78_pure PI Tc Pc w T P = Some f ->
  let a := a_pr Tc Pc w T in let b := b_pr Tc Pc in
  b < f_v f /\ eos_pr a b T (f_v f) = P /\ (forall u, b < u -> gres_pr a b T P (f_v f) <= gres_pr a b T P u) /\ f_g f = gres_pr a b T P (f_v f) /\ Rgas * T * ln (f_phi f) = f_g f /\ f_g f = f_h f - T * f_s f.
Proof.
  intros Tc Pc w T P f Hc Hp HT HP Hl E a b.
  destruct (pr_vals (pr_ac Tc Pc) Tc b (pr_ab Tc Pc w) (b_pr_pos _ _ Hc Hp) (fun t Ht => pr_He Tc Pc w t Hc Hp Ht) T P f HT HP Hl E) as (V1 & V2 & V3 & V4 & _ & V5 & V6 & _). rewrite pr_a_eq in *. fold a in V2, V3, V4.
  split; [exact V1|]. split; [exact V2|]. split; [exact V3|]. split; [exact V4|]. split; [exact V6|]. rewrite V5. field. lra.
Qed.
Lemma pr78_slopes : forall Tc Pc w T P, 0 < Tc -> 0 < Pc -> 0 < T -> 0 < P -> b_pr Tc Pc * P < 1000 * (Rgas * T) -> T <> Tc -> 0 < 1 + k_pr w * (1 - sqrt (T / Tc)) ->
  let a := a_pr Tc Pc w T in let b := b_pr Tc Pc in
  regular (pr_a2 b T P) (pr_a1 a b T P) (pr_a0 a b T P) -> one_phase (eos_pr a b T) (gres_pr a b T P) b P ->
  exists F : R -> R -> fug, locally T (fun t => pr78_pure PI Tc Pc w t P = Some (F t P)) /\ locally P (fun p => pr78_pure PI Tc Pc w T p = Some (F T p)) /\
  is_derive (fun p => f_g (F T p)) P (f_v (F T P) - Rgas * T / P) /\ is_derive (fun t => f_g (F t P)) T (- f_s (F T P)) /\ is_derive (fun t => f_h (F t P)) T (f_c (F T P)).
Proof.
  intros Tc Pc w T P Hc Hp HT HP Hl Hne Hs a b Hq Hn. assert (Hd := pr_Hd Tc Pc w T Hc Hp HT Hs). assert (D0 := proj1 (locally_singleton _ _ Hd)). cbv beta in D0. assert (Ea : e_a (pr_ab Tc Pc w T) = a) by apply pr_a_eq. rewrite <- Ea in Hq, Hn.
  exact (pr_single (pr_ac Tc Pc) Tc b (pr_ab Tc Pc w) T P _ (b_pr_pos _ _ Hc Hp) Hc (fun t Ht => pr_He Tc Pc w t Hc Hp Ht) HT HP D0 Hne Hl Hq Hn Hd (pr_d2 Tc Pc w T Hc HT)).
Qed.
(** 0/0 at the critical temperature *)
Lemma pr78_critical : forall pi Tc Pc w P, 0 < Tc -> pr78_pure pi Tc Pc w Tc P = None.
Proof.
  intros pi Tc Pc w P Hc. unfold pr78_pure, pr_pure, pr_kk. replace (Tc / Tc) with 1 by (field; lra). rewrite sqrt_1. destruct (Req_EM_T (1 - 1) 0); [|lra]. now destruct (cardano _ _ _ _).
Qed.
Lemma prsv_critical : forall pi Tc Pc w k1 k2 k3 P, 0 < Tc -> prsv_pure pi Tc Pc w k1 k2 k3 Tc P = None.
Proof.
  intros pi Tc Pc w k1 k2 k3 P Hc. unfold prsv_pure, pr_pure, pr_kk. replace (Tc / Tc) with 1 by (field; lra). rewrite sqrt_1. destruct (Req_EM_T (1 - 1) 0); [|lra]. now destruct (cardano _ _ _ _).
Qed.
(** *** Stryjek-Vera *)
Lemma sv_k0_eq : forall w Tr, sv_k0 w = k_sv w 0 0 0 Tr.
Proof. intros. unfold sv_k0, k_sv. lra. Qed.
Lemma sv_a_eq : forall Tc Pc w k1 k2 k3 T, e_a (sv_ab Tc Pc w k1 k2 k3 T) = a_sv Tc Pc w k1 k2 k3 T.
Proof.
  intros. unfold sv_ab, a_sv, alpha, sv_ac, k_sv, sv_k0. cbn [e_a]. rewrite Rgas_Rg. replace 0.457235 with (457235 / 1000000) by lra. replace 0.378893 with (378893 / 1000000) by lra.
  replace 1.4897153 with (14897153 / 10000000) by lra. replace 0.17131848 with (17131848 / 100000000) by lra. replace 0.0196554 with (196554 / 10000000) by lra. replace 0.7 with (7 / 10) by lra. destruct (Rle_dec Tc T); ring.
Qed.
Lemma sv_b_eq : forall Tc Pc w k1 k2 k3 T, e_b (sv_ab Tc Pc w k1 k2 k3 T) = b_sv Tc Pc.
Proof. intros. unfold sv_ab, b_sv. cbn [e_b]. rewrite Rgas_Rg. lra. Qed.
Lemma b_sv_pos : forall Tc Pc, 0 < Tc -> 0 < Pc -> 0 < b_sv Tc Pc.
Proof. intros. unfold b_sv, Rgas. apply Rdiv_lt_0_compat; lra. Qed.
Lemma a_sv_nn : forall Tc Pc w k1 k2 k3 T, 0 < Tc -> 0 < Pc -> 0 <= a_sv Tc Pc w k1 k2 k3 T.
Proof. intros. unfold a_sv. apply scaled_sq, ac_pos; lra. Qed.
Lemma sv_He : forall Tc Pc w k1 k2 k3 t, 0 < Tc -> 0 < Pc -> 0 < t -> e_b (sv_ab Tc Pc w k1 k2 k3 t) = b_sv Tc Pc /\ 0 <= e_a (sv_ab Tc Pc w k1 k2 k3 t).
Proof. intros. rewrite sv_a_eq, sv_b_eq. split; [reflexivity|now apply a_sv_nn]. Qed.
Lemma sv_ac_pos : forall Tc Pc, 0 < Tc -> 0 < Pc -> 0 < sv_ac Tc Pc.
Proof. intros. unfold sv_ac. rewrite <- Rgas_Rg. apply ac_pos; lra. Qed.
Lemma prsv_volume : forall Tc Pc w k1 k2 k3 T P f, 0 < Tc -> 0 < Pc -> 0 < T -> 0 < P -> b_sv Tc Pc * P < 1000 * (Rgas * T) -> prsv_pure PI Tc Pc w k1 k2 k3 T P = Some f ->
  let a := a_sv Tc Pc w k1 k2 k3 T in let b := b_sv Tc Pc in
  b < f_v f /\ eos_pr a b T (f_v f) = P /\ (forall u, b < u -> gres_pr a b T P (f_v f) <= gres_pr a b T P u) /\ f_g f = gres_pr a b T P (f_v f) /\ Rgas * T * ln (f_phi f) = f_g f /\ f_g f = f_h f - T * f_s f.
Proof.
  intros Tc Pc w k1 k2 k3 T P f Hc Hp HT HP Hl E a b.
  destruct (pr_vals (sv_ac Tc Pc) Tc b (sv_ab Tc Pc w k1 k2 k3) (b_sv_pos _ _ Hc Hp) (fun t Ht => sv_He Tc Pc w k1 k2 k3 t Hc Hp Ht) T P f HT HP Hl E) as (V1 & V2 & V3 & V4 & _ & V5 & V6 & _). rewrite sv_a_eq in *. fold a in V2, V3, V4.
  split; [exact V1|]. split; [exact V2|]. split; [exact V3|]. split; [exact V4|]. split; [exact V6|]. rewrite V5. field. lra.
Qed.
(** without the extra coefficients, or above the critical temperature *)
Definition sv0 (Tc Pc w T : R) : abpar :=
  let Tr := T / Tc in let k := sv_k0 w in let ac := sv_ac Tc Pc in
  let sqa := 1 + k * (1 - sqrt Tr) in let dsqa := - (1 / 2) * k / (sqrt Tr * Tc) in let d2sqa := 1 / 4 * k / (Tr * sqrt Tr * Tc ^ 2) in
  mkAB (sqa ^ 2 * ac) (77796 / 1000000 * Rg * Tc / Pc) (2 * ac * (sqa * dsqa)) (2 * ac * (dsqa * dsqa + sqa * d2sqa)).
Lemma sv_ab0 : forall Tc Pc w k1 k2 k3 T, 0 < Tc -> 0 < T -> Tc <= T \/ k1 = 0 /\ k2 = 0 -> sv_ab Tc Pc w k1 k2 k3 T = sv0 Tc Pc w T.
Proof.
  intros Tc Pc w k1 k2 k3 T Hc HT H. assert (Hr : 0 < T / Tc) by (now apply Rdiv_lt_0_compat). assert (Hq := sqrt_lt_R0 _ Hr). unfold sv_ab, sv0. set (s := sqrt (T / Tc)) in *. set (Tr := T / Tc) in *. set (k0 := sv_k0 w).
  assert (E : forall c3, let k := k0 + (0 + 0 * (c3 - Tr) * (1 - s)) * (1 + s) * (7 / 10 - Tr) in k = k0) by (intros; unfold k; ring).
  assert (E1 : (0 * (7 / 10 - Tr) / (2 * s * Tc) - 0 * (1 + s) / Tc) * (1 - s) - (k0 + 0 * (1 + s) * (7 / 10 - Tr)) / (2 * s * Tc) = - (1 / 2) * k0 / (s * Tc)) by (field; lra).
  assert (E2 : (- (0 * (7 / 10 - Tr)) / (4 * (Tr * s) * Tc ^ 2) - 0 / (s * Tc ^ 2)) * (1 - s) + (- 0 * (7 / 10 - Tr) / (2 * s * Tc) - 0 * (1 + s) / Tc) / (s * Tc) + (k0 + 0 * (1 + s) * (7 / 10 - Tr)) / (4 * (Tr * s) * Tc ^ 2) = 1 / 4 * k0 / (Tr * s * Tc ^ 2)) by (field; repeat split; lra).
  destruct (Rle_dec Tc T) as [L|L].
  - rewrite E1, E2. replace (k0 + (0 + 0 * (0 - Tr) * (1 - s)) * (1 + s) * (7 / 10 - Tr)) with k0 by ring. reflexivity.
  - destruct H as [H|[-> ->]]; [contradiction|]. rewrite E1, E2. replace (k0 + (0 + 0 * (k3 - Tr) * (1 - s)) * (1 + s) * (7 / 10 - Tr)) with k0 by ring. reflexivity.
Qed.
Lemma sv_near : forall Tc Pc w k1 k2 k3 T, 0 < Tc -> 0 < T -> Tc < T \/ k1 = 0 /\ k2 = 0 -> locally T (fun t => sv_ab Tc Pc w k1 k2 k3 t = sv0 Tc Pc w t).
Proof.
  intros Tc Pc w k1 k2 k3 T Hc HT [H|H].
  - generalize (near_gt _ _ H). apply filter_imp. intros t Ht. apply sv_ab0; [exact Hc|lra|left; lra].
  - generalize (near_gt _ _ HT). apply filter_imp. intros t Ht. apply sv_ab0; [exact Hc|exact Ht|now right].
Qed.
Lemma near_near : forall (x : R) (Q : R -> Prop), locally x Q -> locally x (fun t => locally t Q).
Proof. intros x Q H. now apply locally_locally. Qed.
Lemma prsv_slopes : forall Tc Pc w k1 k2 k3 T P, 0 < Tc -> 0 < Pc -> 0 < T -> 0 < P -> b_sv Tc Pc * P < 1000 * (Rgas * T) -> T <> Tc -> 0 < 1 + k_sv w 0 0 0 (T / Tc) * (1 - sqrt (T / Tc)) -> (Tc < T \/ k1 = 0 /\ k2 = 0) ->
  let a := a_sv Tc Pc w k1 k2 k3 T in let b := b_sv Tc Pc in
  regular (pr_a2 b T P) (pr_a1 a b T P) (pr_a0 a b T P) -> one_phase (eos_pr a b T) (gres_pr a b T P) b P ->
  exists F : R -> R -> fug, locally T (fun t => prsv_pure PI Tc Pc w k1 k2 k3 t P = Some (F t P)) /\ locally P (fun p => prsv_pure PI Tc Pc w k1 k2 k3 T p = Some (F T p)) /\
  is_derive (fun p => f_g (F T p)) P (f_v (F T P) - Rgas * T / P) /\ is_derive (fun t => f_g (F t P)) T (- f_s (F T P)) /\ is_derive (fun t => f_h (F t P)) T (f_c (F T P)).
Proof.
  intros Tc Pc w k1 k2 k3 T P Hc Hp HT HP Hl Hne Hs Hk a b Hq Hn. rewrite <- sv_k0_eq in Hs. assert (N := sv_near Tc Pc w k1 k2 k3 T Hc HT Hk). assert (N0 := locally_singleton _ _ N). cbv beta in N0.
  assert (Hd : locally T (fun t => is_derive (fun t => e_a (sv_ab Tc Pc w k1 k2 k3 t)) t (e_da (sv_ab Tc Pc w k1 k2 k3 t)) /\ forall kk, pr_kk (sv_ac Tc Pc) Tc t (e_a (sv_ab Tc Pc w k1 k2 k3 t)) = Some kk -> kk * e_a (sv_ab Tc Pc w k1 k2 k3 t) = - t * e_da (sv_ab Tc Pc w k1 k2 k3 t))).
  { generalize (near_both _ _ _ (sqa_near _ _ _ Hc HT Hs) (near_near _ _ N)). apply filter_imp. intros t [[Ht Hs'] Nt]. assert (Et := locally_singleton _ _ Nt). cbv beta in Et. rewrite Et. split.
    - apply is_derive_ext_loc with (fun t => e_a (sv0 Tc Pc w t)); [revert Nt; apply filter_imp; intros u ->; reflexivity|]. exact (proj1 (attr_d (sv_ac Tc Pc) (sv_k0 w) Tc t Hc Ht)).
    - intros kk. exact (kk_true (sv_ac Tc Pc) (sv_k0 w) Tc t kk (sv_ac_pos _ _ Hc Hp) Hc Ht Hs'). }
  assert (D2 : is_derive (fun t => e_da (sv_ab Tc Pc w k1 k2 k3 t)) T (e_d2a (sv_ab Tc Pc w k1 k2 k3 T))).
  { rewrite N0. apply is_derive_ext_loc with (fun t => e_da (sv0 Tc Pc w t)); [revert N; apply filter_imp; intros u ->; reflexivity|]. exact (proj2 (attr_d (sv_ac Tc Pc) (sv_k0 w) Tc T Hc HT)). }
  assert (D0 := proj1 (locally_singleton _ _ Hd)). cbv beta in D0. assert (Ea : e_a (sv_ab Tc Pc w k1 k2 k3 T) = a) by apply sv_a_eq. rewrite <- Ea in Hq, Hn.
  exact (pr_single (sv_ac Tc Pc) Tc b (sv_ab Tc Pc w k1 k2 k3) T P _ (b_sv_pos _ _ Hc Hp) Hc (fun t Ht => sv_He Tc Pc w k1 k2 k3 t Hc Hp Ht) HT HP D0 Hne Hl Hq Hn Hd D2).
Qed.
