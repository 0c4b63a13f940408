(** The state functions along an exact density, and that one exists. *)
From Coq Require Import List Bool Reals Lra.
From Coquelicot Require Import Coquelicot.
From Verif Require Import RDeriv RDiff2 RImplicit WaterModel WaterSpec HelmModel HelmJet HelmProofs GasModel StpModel StpJet StpProofs.
Import ListNotations.
Open Scope R_scope.

Section W.
Variable w : cftab.
(** r gives the density belonging to t and p (MPa), near T and p *)
Definition exact_density (r : R -> R -> R) (T p : R) : Prop :=
  continuity_2d_pt r T p /\ locally_2d (fun t q => exists g, stp_pressure w t (r t q) = Some (q, g)) T p.
Definition Fp (t d : R) : R := d * Rg * t * (1 + d * ent w p_D t d).
Definition slT (t d : R) (h : ptable) : R := d * Rg * (1 + d * p_D h) + d * Rg * t * (d * p_DT h).
Definition slD (t d : R) (h : ptable) : R := Rg * t * (1 + 2 * d * p_D h + d ^ 2 * p_DD h).
Lemma ent_at : forall t d h f, helmholtz w t d = Some h -> ent w f t d = f h.
Proof. intros t d h f E. unfold ent. now rewrite E. Qed.
Lemma Fp_diff : forall t d h, 0 < t -> helmholtz w t d = Some h -> diff2 Fp t d (slT t d h) (slD t d h).
Proof.
  intros t d h Ht E. destruct (stp_table w t d h Ht E) as (_ & _ & D & _). assert (E1 := ent_at t d h p_D E). unfold Fp. eapply e_eq; [er|cbv beta; rewrite E1; unfold slT; ring|cbv beta; rewrite E1; unfold slD; ring].
Qed.
Lemma Fp_press : forall t d h q g, 0 < t -> helmholtz w t d = Some h -> stp_pressure w t d = Some (q, g) -> Fp t d = q /\ g = slD t d h.
Proof. intros t d h q g Ht E Q. destruct (press_phi w t d q g h Ht E Q) as [-> ->]. unfold Fp. rewrite (ent_at t d h p_D E). split; [reflexivity|unfold slD; ring]. Qed.
Lemma some_press : forall t d h, 0 < t -> helmholtz w t d = Some h -> stp_pressure w t d = Some (Fp t d, slD t d h).
Proof.
  intros t d h Ht E. destruct (helm_U w t d h Ht E) as [(_ & N & _) _]. assert (Q : stp_pressure w t d = Some (pred (C w t) d * (Rg * t), dpred (C w t) d * (Rg * t))) by (apply press_some; auto).
  destruct (Fp_press t d h _ _ Ht E Q) as [-> <-]. exact Q.
Qed.
(** composition with the density keeps "near" *)
Lemma near_comp : forall (r : R -> R -> R) T p (A : R -> R -> Prop), continuity_2d_pt r T p -> locally_2d A T (r T p) -> locally_2d (fun t q => A t (r t q)) T p.
Proof.
  intros r T p A CR [e He]. destruct (CR e) as [e' He']. assert (EP : 0 < Rmin e e') by (apply Rmin_pos; apply cond_pos). assert (M1 := Rmin_l e e'). assert (M2 := Rmin_r e e').
  exists (mkposreal _ EP). cbn [pos]. intros t q Ht Hq. apply He; [lra|apply He'; lra].
Qed.
Lemma at_point : forall (A : R -> R -> Prop) x y, locally_2d A x y -> A x y.
Proof. intros A x y [e He]. apply He; rewrite Rminus_eq_0, Rabs_R0; apply cond_pos. Qed.
Lemma exact_Fp : forall r T p h, 0 < T -> helmholtz w T (r T p) = Some h -> exact_density r T p -> locally_2d (fun t q => Fp t (r t q) = q) T p.
Proof.
  intros r T p h HT E [CR L]. assert (L2 := near_comp r T p _ CR (near_some w T (r T p) h HT E)).
  assert (L0 : locally_2d (fun u _ : R => 0 < u) T p). { exists (mkposreal T HT). cbn [pos]. intros u v Hu _. apply Rabs_def2 in Hu. lra. }
  assert (L' := locally_2d_and _ _ _ _ L0 (locally_2d_and _ _ _ _ L L2)). revert L'. apply locally_2d_impl, locally_2d_forall. intros t q (Ht & [g Q] & Es). exact (proj1 (Fp_press t (r t q) _ q g Ht Es Q)).
Qed.
Definition rho_at (t d : R) : rtab := match helmholtz w t d with Some h => stp_rho t d h | None => mkRt 0 0 0 0 0 end.
Lemma dpr_sl : forall t d h, Rg * t + 2 * d * (Rg * t * p_D h) + d ^ 2 * (Rg * t * p_DD h) = slD t d h.
Proof. intros. unfold slD. ring. Qed.
Lemma dpt_sl : forall t d h, d * Rg + d ^ 2 * (Rg * (p_DT h * t + p_D h)) = slT t d h.
Proof. intros. unfold slT. ring. Qed.
Lemma rho_first : forall r T p g h, 0 < T -> exact_density r T p -> stp_pressure w T (r T p) = Some (p, g) -> g <> 0 -> helmholtz w T (r T p) = Some h ->
  diff2 r T p (rh_T (stp_rho T (r T p) h)) (rh_P (stp_rho T (r T p) h)).
Proof.
  intros r T p g h HT HE Q Ng E. destruct (Fp_press T (r T p) h p g HT E Q) as [_ Eg]. rewrite Eg in Ng.
  eapply e_eq; [apply (implicit Fp r T p _ _ (Fp_diff T (r T p) h HT E) Ng (proj1 HE) (exact_Fp r T p h HT E HE))| |];
  unfold stp_rho; cbv zeta; cbn [rh_T rh_P]; rewrite ?dpr_sl, ?dpt_sl; field; exact Ng.
Qed.
Lemma rho_second : forall r T p g h, 0 < T -> exact_density r T p -> stp_pressure w T (r T p) = Some (p, g) -> g <> 0 -> helmholtz w T (r T p) = Some h -> let k := stp_rho T (r T p) h in
  diff2 (fun t q => rh_T (rho_at t (r t q))) T p (rh_TT k) (rh_TP k) /\ diff2 (fun t q => rh_P (rho_at t (r t q))) T p (rh_TP k) (rh_PP k).
Proof.
  intros r T p g h HT HE Q Ng E. assert (R1 := rho_first r T p g h HT HE Q Ng E). destruct (Fp_press T (r T p) h p g HT E Q) as [_ Eg]. rewrite Eg in Ng. cbv zeta.
  destruct (stp_table w T (r T p) h HT E) as (_ & _ & D1 & D2 & D3 & _). assert (CR := proj1 HE).
  assert (K1 := e_comp2 (ent w p_D) (fun t _ => t) r T p _ _ _ _ _ _ D1 (e_fst T p) R1). assert (K2 := e_comp2 (ent w p_DT) (fun t _ => t) r T p _ _ _ _ _ _ D2 (e_fst T p) R1). assert (K3 := e_comp2 (ent w p_DD) (fun t _ => t) r T p _ _ _ _ _ _ D3 (e_fst T p) R1). cbv beta in K1, K2, K3.
  assert (B1 := ent_at T (r T p) h p_D E). assert (B2 := ent_at T (r T p) h p_DT E). assert (B3 := ent_at T (r T p) h p_DD E).
  assert (L2 := near_comp r T p _ CR (near_some w T (r T p) h HT E)).
  set (dp := fun t q => Rg * t + 2 * r t q * (Rg * t * ent w p_D t (r t q)) + r t q ^ 2 * (Rg * t * ent w p_DD t (r t q))).
  set (dt := fun t q => r t q * Rg + r t q ^ 2 * (Rg * (ent w p_DT t (r t q) * t + ent w p_D t (r t q)))).
  assert (NZ : dp T p <> 0) by (unfold dp; rewrite B1, B3, dpr_sl; exact Ng).
  assert (DP : dp T p = slD T (r T p) h) by (unfold dp; rewrite B1, B3, dpr_sl; reflexivity). assert (DT : dt T p = slT T (r T p) h) by (unfold dt; rewrite B1, B2, dpt_sl; reflexivity).
  assert (NZ' : Rg * T + 2 * r T p * (Rg * T * p_D h) + r T p ^ 2 * (Rg * T * p_DD h) <> 0) by (rewrite dpr_sl; exact Ng).
  assert (RG := Rg_pos).
  split.
  - apply (e_ext_loc (fun t q => -1 * (1 / dp t q) * dt t q)).
    + revert L2. apply locally_2d_impl, locally_2d_forall. intros t q Es. unfold rho_at. rewrite Es. unfold stp_rho, dp, dt. cbv zeta. cbn [rh_T]. now rewrite !(ent_at _ _ _ _ Es).
    + unfold stp_rho in R1. cbv zeta in R1. cbn [rh_T rh_P] in R1. unfold dp, dt. eapply e_eq; [er; cbv beta; try exact NZ|cbv beta|cbv beta].
      * rewrite B1, B2, B3. unfold stp_rho. cbv zeta. cbn [rh_TT rh_T rh_P INR Nat.pred pow]. revert NZ' RG HT. clear. generalize (p_D h) (p_DD h) (p_DT h) (p_DDD h) (p_DDT h) (p_DTT h) (r T p). generalize Rg. intros. field. intros Z. apply NZ'. rewrite <- Z. ring.
      * rewrite B1, B2, B3. unfold stp_rho. cbv zeta. cbn [rh_TP rh_T rh_P INR Nat.pred pow]. revert NZ' RG HT. clear. generalize (p_D h) (p_DD h) (p_DT h) (p_DDD h) (p_DDT h) (p_DTT h) (r T p). generalize Rg. intros. field. intros Z. apply NZ'. rewrite <- Z. ring.
  - apply (e_ext_loc (fun t q => 1 / dp t q)).
    + revert L2. apply locally_2d_impl, locally_2d_forall. intros t q Es. unfold rho_at. rewrite Es. unfold stp_rho, dp, dt. cbv zeta. cbn [rh_P]. now rewrite !(ent_at _ _ _ _ Es).
    + unfold stp_rho in R1. cbv zeta in R1. cbn [rh_T rh_P] in R1. unfold dp. eapply e_eq; [er; cbv beta; try exact NZ|cbv beta|cbv beta].
      * rewrite B1, B3. unfold stp_rho. cbv zeta. cbn [rh_TP rh_T rh_P INR Nat.pred pow]. revert NZ' RG HT. clear. generalize (p_D h) (p_DD h) (p_DT h) (p_DDD h) (p_DDT h) (p_DTT h) (r T p). generalize Rg. intros. field. intros Z. apply NZ'. rewrite <- Z. ring.
      * rewrite B1, B3. unfold stp_rho. cbv zeta. cbn [rh_PP rh_T rh_P INR Nat.pred pow]. revert NZ' RG HT. clear. generalize (p_D h) (p_DD h) (p_DT h) (p_DDD h) (p_DDT h) (p_DTT h) (r T p). generalize Rg. intros. field. intros Z. apply NZ'. rewrite <- Z. ring.
Qed.
(** what the code returns with that density; P in bar *)
Definition state (r : R -> R -> R) (t P : R) : fug := match helmholtz w t (r t (P / 10)) with Some h => stp_props t P (r t (P / 10)) h | None => mkFug 0 0 0 0 0 0 end.
Lemma state_slopes : forall r T P g h, 0 < T -> 0 < P -> exact_density r T (P / 10) -> 0 < r T (P / 10) -> stp_pressure w T (r T (P / 10)) = Some (P / 10, g) -> g <> 0 -> helmholtz w T (r T (P / 10)) = Some h ->
  let f := state r in
  diff2 (fun t q => f_g (f t q)) T P (- f_s (f T P)) (f_v (f T P) - Rg * T / P) /\
  diff2 (fun t q => f_s (f t q)) T P (f_c (f T P) / T) (Rg / P + rh_T (stp_rho T (r T (P / 10)) h) / (10 * r T (P / 10) ^ 2)) /\
  diff2 (fun t q => f_v (f t q)) T P (- rh_T (stp_rho T (r T (P / 10)) h) / (10 * r T (P / 10) ^ 2)) (- rh_P (stp_rho T (r T (P / 10)) h) / (100 * r T (P / 10) ^ 2)).
Proof.
  intros r T P g h HT HP HE Hr Q Ng E. assert (R1 := rho_first r T (P / 10) g h HT HE Q Ng E). assert (CR := proj1 HE). destruct (Fp_press T (r T (P / 10)) h _ g HT E Q) as [EF Eg]. rewrite Eg in Ng.
  assert (D10 : diff2 (fun _ q => q / 10) T P 0 (1 / 10)) by (eapply e_eq; [er; cbv beta; lra|cbv beta; field|cbv beta; field]).
  assert (R2 := e_comp2 r (fun t _ => t) (fun _ q => q / 10) T P _ _ _ _ _ _ R1 (e_fst T P) D10). cbv beta in R2.
  set (d := r T (P / 10)) in *.
  destruct (stp_table w T d h HT E) as (D0 & D1 & D2 & _).
  assert (K0 := e_comp2 (ent w p_0) (fun t _ => t) (fun t q => r t (q / 10)) T P _ _ _ _ _ _ D0 (e_fst T P) R2). assert (K1 := e_comp2 (ent w p_T) (fun t _ => t) (fun t q => r t (q / 10)) T P _ _ _ _ _ _ D1 (e_fst T P) R2). cbv beta in K0, K1.
  assert (B0 := ent_at T d h p_0 E). assert (B1 := ent_at T d h p_T E). assert (B2 := ent_at T d h p_D E).
  assert (L : locally_2d (fun t q => helmholtz w t (r t (q / 10)) = Some (table w t (r t (q / 10))) /\ 0 < t /\ 0 < q /\ 0 < r t (q / 10)) T P).
  { assert (LP : locally_2d (fun u v : R => 0 < u /\ 0 < v) T P) by (exact (open_pos T P (conj HT HP))).
    assert (LA := near_some w T d h HT E). assert (LB : locally_2d (fun u v : R => 0 < v) T d). { exists (mkposreal d Hr). cbn [pos]. intros u v _ Hv. apply Rabs_def2 in Hv. lra. }
    assert (CC := e_cont _ _ _ _ _ R2).
    assert (LC := near_comp (fun t q => r t (q / 10)) T P _ CC (locally_2d_and _ _ _ _ LA LB)). cbv beta in LC. revert LC. apply locally_2d_impl. revert LP. apply locally_2d_impl, locally_2d_forall. intros u v [H1 H2] [H3 H4]. repeat split; assumption. }
  assert (RG := Rg_pos). cbv zeta.
  assert (ST : state r T P = stp_props T P d h) by (unfold state; fold d; now rewrite E).
  assert (GV : forall t q k x, 0 < t -> 0 < q -> 0 < x -> f_g (stp_props t q x k) = Rg * t * (ln x + p_0 k + q / 10 / (x * Rg * t) + ln (Rg * t) - 1 - ln (q / 10))).
  { intros t q k x Ht Hq Hx. unfold stp_props. cbv zeta. cbn [f_g]. rewrite ln_div; [|apply exp_pos|lra]. rewrite ln_exp. ring. }
  assert (SV : forall t q k x, 0 < t -> 0 < q -> 0 < x -> f_s (stp_props t q x k) = - (Rg * (p_T k * t + p_0 k)) + Rg * (ln (q / 10) - ln x - ln (Rg * t))).
  { intros t q k x Ht Hq Hx. unfold stp_props. cbv zeta. cbn [f_s]. assert (0 < Rg * t) by (apply Rmult_lt_0_compat; assumption). assert (0 < x * (Rg * t)) by (apply Rmult_lt_0_compat; assumption). rewrite ln_div; [|lra|]; [|rewrite Rmult_assoc; assumption]. rewrite Rmult_assoc. rewrite ln_mult; [|assumption|assumption]. ring. }
  assert (PF : P / 10 = d * Rg * T * (1 + d * p_D h)) by (rewrite <- EF; unfold Fp; rewrite B2; reflexivity).
  assert (PF2 : P = 10 * (d * Rg * T * (1 + d * p_D h))) by lra.
  assert (NZ : Rg * T + 2 * d * (Rg * T * p_D h) + d ^ 2 * (Rg * T * p_DD h) <> 0) by (rewrite dpr_sl; exact Ng).
  assert (PZ : 0 < Rg * T) by (apply Rmult_lt_0_compat; assumption).
  assert (NP : 1 + d * p_D h <> 0). { intros Z. rewrite Z in PF. rewrite Rmult_0_r in PF. lra. }
  unfold stp_rho in R2, K0, K1. cbv zeta in R2, K0, K1. cbn [rh_T rh_P] in R2, K0, K1.
  split; [|split].
  - apply (e_ext_loc (fun t q => Rg * t * (ln (r t (q / 10)) + ent w p_0 t (r t (q / 10)) + q / 10 / (r t (q / 10) * Rg * t) + ln (Rg * t) - 1 - ln (q / 10)))).
    + revert L. apply locally_2d_impl, locally_2d_forall. intros t q (Es & Ht & Hq & Hx). unfold state. rewrite Es, (GV _ _ _ _ Ht Hq Hx), (ent_at _ _ _ _ Es). reflexivity.
    + eapply e_eq; [er; cbv beta; fold d; try assumption; try lra; try (apply Rgt_not_eq; apply Rmult_lt_0_compat; [apply Rmult_lt_0_compat|]; lra)|cbv beta|cbv beta].
      * fold d. rewrite B0, ST, SV by assumption. rewrite PF. revert RG HT Hr NP NZ. clear. generalize (ln (d * Rg * T * (1 + d * p_D h))) (ln d) (ln (Rg * T)). generalize (p_0 h) (p_D h) (p_DD h) (p_DT h) (p_T h). generalize dependent d. generalize Rg. intros. field; repeat split; try lra; intros Z; apply NZ; rewrite <- Z; ring.
      * fold d. rewrite B0, ST. unfold stp_props. cbv zeta. cbn [f_v]. replace (Rg * T / P) with (Rg * T / (10 * (P / 10))) by (f_equal; field). rewrite PF. revert RG HT Hr NP NZ. clear. generalize (ln (d * Rg * T * (1 + d * p_D h))) (ln d) (ln (Rg * T)). generalize (p_0 h) (p_D h) (p_DD h) (p_DT h) (p_T h). generalize dependent d. generalize Rg. intros. field; repeat split; try lra; intros Z; apply NZ; rewrite <- Z; ring.
  - apply (e_ext_loc (fun t q => - (Rg * (ent w p_T t (r t (q / 10)) * t + ent w p_0 t (r t (q / 10)))) + Rg * (ln (q / 10) - ln (r t (q / 10)) - ln (Rg * t)))).
    + revert L. apply locally_2d_impl, locally_2d_forall. intros t q (Es & Ht & Hq & Hx). unfold state. rewrite Es, (SV _ _ _ _ Ht Hq Hx), !(ent_at _ _ _ _ Es). reflexivity.
    + eapply e_eq; [er; cbv beta; fold d; try assumption; try lra|cbv beta|cbv beta].
      * fold d. rewrite B1, ST. unfold stp_props. cbv zeta. cbn [f_c]. rewrite PF. assert (NZ3 : 1 + 2 * d / (Rg * T) * (Rg * T * p_D h) + d ^ 2 / (Rg * T) * (Rg * T * p_DD h) <> 0). { intros Z. apply NZ. replace (Rg * T + 2 * d * (Rg * T * p_D h) + d ^ 2 * (Rg * T * p_DD h)) with (Rg * T * (1 + 2 * d / (Rg * T) * (Rg * T * p_D h) + d ^ 2 / (Rg * T) * (Rg * T * p_DD h))) by (field; lra). rewrite Z. ring. }
        revert RG HT Hr NP NZ NZ3. clear. generalize (p_0 h) (p_D h) (p_DD h) (p_DT h) (p_T h) (p_TT h). generalize dependent d. generalize Rg. intros. field; repeat split; try lra; intros Z; apply NZ; match goal with |- ?a * ?t + _ + _ = 0 => rewrite <- (Rmult_0_r (a * t)), <- Z; ring end.
      * fold d. rewrite B1. replace (Rg / P) with (Rg / (10 * (P / 10))) by (f_equal; field). rewrite PF. unfold stp_rho. cbv zeta. cbn [rh_T]. revert RG HT Hr NP NZ. clear. generalize (p_0 h) (p_D h) (p_DD h) (p_DT h) (p_T h). generalize dependent d. generalize Rg. intros. field; repeat split; try lra; intros Z; apply NZ; rewrite <- Z; ring.
  - apply (e_ext_loc (fun t q => 1 / r t (q / 10) / 10)).
    + revert L. apply locally_2d_impl, locally_2d_forall. intros t q (Es & Ht & Hq & Hx). unfold state. rewrite Es. reflexivity.
    + eapply e_eq; [er; cbv beta; fold d; try lra|cbv beta|cbv beta]; fold d; unfold stp_rho; cbv zeta; cbn [rh_T rh_P]; rewrite ?dpr_sl, ?dpt_sl; field; split; assumption || lra.
Qed.
End W.
