(** Sterner-Pitzer fluids at low density; non-trivial cases. *)
From Coq Require Import List Bool Reals Lra Psatz String Ascii.
From Coquelicot Require Import Coquelicot.
From Verif Require Import RDeriv RDiff2 RImplicit WaterModel WaterSpec HelmModel HelmJet HelmProofs GasModel StpModel StpJet StpProofs StpSlope StpFluid.
Import ListNotations.
Open Scope R_scope.

Lemma cont_pos : forall (f : R -> R) (x l : R), is_derive f x l -> 0 < f x -> locally x (fun y => 0 < f y).
Proof. intros f x l D H. assert (CC := ex_derive_continuous f x (ex_intro _ _ D)). exact (CC (fun y => 0 < y) (open_gt 0 _ H)). Qed.
Lemma cont_near : forall (f : R -> R) (x l eps : R), is_derive f x l -> 0 < eps -> locally x (fun y => Rabs (f y - f x) < eps).
Proof. intros f x l eps D H. assert (CC := ex_derive_continuous f x (ex_intro _ _ D)). apply (CC (fun y => Rabs (y - f x) < eps)). exists (mkposreal eps H). intros y Hy. exact Hy. Qed.
Section W.
Variable w : cftab.
Variable T : R.
Hypothesis HT : 0 < T.
Hypothesis H0 : helmholtz w T 0 <> None.
Lemma ent0 : ent w p_0 T 0 = 0.
Proof.
  clear H0. unfold ent. destruct (helmholtz w T 0) as [h|] eqn:E; [|reflexivity]. destruct (helm_U w T 0 h HT E) as [(_ & N & N1 & N7 & N9) ->]. unfold table, phi_of. cbn [p_0]. unfold phi_0.
  rewrite !Rmult_0_r, !exp_0. unfold pden. field. repeat split; assumption || (replace (a1 (C w T) + a2 (C w T) * 0 + a3 (C w T) * 0 ^ 2 + a4 (C w T) * 0 ^ 3 + a5 (C w T) * 0 ^ 4) with (a1 (C w T)) by ring; assumption).
Qed.
Lemma phi_form : forall d h, 0 < d -> helmholtz w T d = Some h -> 0 < 1 + d * p_D h -> f_phi (stp_props T (10 * Fp w T d) d h) = exp (p_0 h + d * p_D h) / (1 + d * p_D h).
Proof.
  intros d h Hd E Hz. assert (RG := Rg_pos). unfold stp_props. cbv zeta. cbn [f_phi]. replace (10 * Fp w T d / 10) with (Fp w T d) by field. unfold Fp. rewrite (ent_at w T d h p_D E).
  assert (P1 : 0 < d * Rg * T) by (apply Rmult_lt_0_compat; [apply Rmult_lt_0_compat|]; assumption). assert (P2 : 0 < Rg * T) by (apply Rmult_lt_0_compat; assumption).
  replace (ln d + p_0 h + d * Rg * T * (1 + d * p_D h) / (d * Rg * T) + ln (Rg * T) - 1) with ((p_0 h + d * p_D h) + (ln d + ln (Rg * T))) by (field; repeat split; lra).
  rewrite exp_plus, (exp_plus (ln d)), !exp_ln by assumption. field. repeat split; lra.
Qed.
Lemma ideal_limit : forall eps, 0 < eps -> exists del, 0 < del /\ forall d, 0 < d < del -> exists q g h, stp_pressure w T d = Some (q, g) /\ helmholtz w T d = Some h /\ 0 < q /\ 0 < g /\
  Rabs (q / (d * Rg * T) - 1) < eps /\ Rabs (f_phi (stp_props T (10 * q) d h) - 1) < eps.
Proof.
  intros eps He. destruct (helmholtz w T 0) as [h|] eqn:E; [|contradiction]. clear H0. assert (RG := Rg_pos). assert (RT : 0 < Rg * T) by (apply Rmult_lt_0_compat; assumption).
  destruct (stp_table w T 0 h HT E) as (D0 & _ & D1 & _ & D2 & _). apply e_2 in D0. apply e_2 in D1. apply e_2 in D2.
  set (A := fun d => ent w p_0 T d) in *. set (B := fun d => ent w p_D T d) in *. set (B2 := fun d => ent w p_DD T d) in *.
  assert (Dz : is_derive (fun d : R => 1 + d * B d) 0 (0 + (1 * B 0 + 0 * p_DD h))) by (apply d_plus; [apply d_const|apply d_mult; [apply d_id|exact D1]]).
  assert (Dg : is_derive (fun d : R => 1 + 2 * d * B d + d ^ 2 * B2 d) 0 (0 + (2 * 1 * B 0 + 2 * 0 * p_DD h) + (2 * 0 * B2 0 + 0 ^ 2 * p_DDD h))).
  { apply d_plus; [apply d_plus; [apply d_const|apply d_mult; [apply d_scal, d_id|exact D1]]|apply d_mult; [apply sqr_d|exact D2]]. }
  assert (Z0 : 1 + 0 * B 0 <> 0) by lra.
  assert (DK := d_div _ _ 0 _ _ (d_exp _ 0 _ (d_plus _ _ 0 _ _ D0 (d_mult _ _ 0 _ _ (d_id 0) D1))) Dz Z0). cbv beta in DK.
  assert (L1 := cont_pos _ 0 _ Dz ltac:(cbv beta; lra)). assert (L2 := cont_pos _ 0 _ Dg ltac:(cbv beta; lra)). assert (L3 := cont_near _ 0 _ eps Dz He). assert (L4 := cont_near _ 0 _ eps DK He).
  destruct (near_some w T 0 h HT E) as [e5 L5]. cbv beta in L1, L2, L3, L4.
  destruct (filter_and _ _ L1 (filter_and _ _ L2 (filter_and _ _ L3 L4))) as [e1 L].
  exists (Rmin e1 e5). split; [apply Rmin_pos; apply cond_pos|]. intros d [Hd1 Hd2]. assert (M1 := Rmin_l e1 e5). assert (M2 := Rmin_r e1 e5).
  destruct (L d) as (K1 & K2 & K3 & K4). { change (Rabs (d - 0) < e1). rewrite Rminus_0_r, Rabs_pos_eq; lra. }
  assert (Es := L5 T d ltac:(rewrite Rminus_eq_0, Rabs_R0; apply cond_pos) ltac:(rewrite Rminus_0_r, Rabs_pos_eq; lra)). set (k := table w T d) in *.
  assert (EA : A d = p_0 k) by (unfold A; apply (ent_at w T d k _ Es)). assert (EB : B d = p_D k) by (unfold B; apply (ent_at w T d k _ Es)). assert (EB2 : B2 d = p_DD k) by (unfold B2; apply (ent_at w T d k _ Es)).
  rewrite EB in K1, K2, K3, K4. rewrite EB2 in K2. rewrite EA in K4. assert (P1 : 0 < d * Rg * T) by (apply Rmult_lt_0_compat; [apply Rmult_lt_0_compat|]; assumption).
  exists (Fp w T d), (slD T d k), k. split; [now apply some_press|]. split; [exact Es|]. assert (EF : Fp w T d = d * Rg * T * (1 + d * p_D k)) by (unfold Fp; fold (B d); rewrite EB; reflexivity).
  split; [rewrite EF; now apply Rmult_lt_0_compat|]. split; [unfold slD; now apply Rmult_lt_0_compat|].
  split.
  - replace (Fp w T d / (d * Rg * T) - 1) with (1 + d * p_D k - (1 + 0 * B 0)) by (rewrite EF; field; repeat split; lra). exact K3.
  - rewrite (phi_form d k Hd1 Es K1). assert (A0 : A 0 = 0) by (unfold A; apply ent0). rewrite A0 in K4. replace (exp (0 + 0 * B 0) / (1 + 0 * B 0)) with 1 in K4 by (rewrite Rmult_0_l, !Rplus_0_r, exp_0; field). exact K4.
Qed.
End W.
(** both fluids at low density *)
Lemma h2o_at0 : forall T, 200 <= T <= 2000 -> T <> T_pole -> helmholtz cf_h2o T 0 <> None.
Proof. intros T HT N E. destruct (h2o_defined T 0 HT ltac:(lra)) as [_ [H _]]. exact (N (H E)). Qed.
Lemma co2_at0 : forall T, 200 <= T <= 2000 -> helmholtz cf_co2 T 0 <> None.
Proof. intros T HT E. destruct (co2_defined T 0 HT ltac:(lra)) as [_ [h Eh]]. rewrite Eh in E. discriminate. Qed.
(** a state of dilute carbon dioxide with its density function *)
Lemma co2_dilute : forall T, 200 <= T <= 2000 -> exists d q g h r, 0 < d /\ 0 < q /\ g <> 0 /\ stp_pressure cf_co2 T d = Some (q, g) /\ helmholtz cf_co2 T d = Some h /\ r T q = d /\ exact_density cf_co2 r T q.
Proof.
  intros T HT. destruct (ideal_limit cf_co2 T ltac:(lra) (co2_at0 T HT) 1 ltac:(lra)) as (del & Hd & K). destruct (K (del / 2) ltac:(lra)) as (q & g & h & E1 & E2 & Hq & Hg & _).
  destruct (density_exists cf_co2 T (del / 2) h q g ltac:(lra) E2 E1 ltac:(lra)) as (r & R1 & R2). exists (del / 2), q, g, h, r. split; [lra|]. split; [exact Hq|]. split; [lra|]. auto.
Qed.
Lemma co2_dilute_bar : forall T, 200 <= T <= 2000 -> exists P g h r, 0 < P /\ 0 < r T (P / 10) /\ g <> 0 /\ stp_pressure cf_co2 T (r T (P / 10)) = Some (P / 10, g) /\ helmholtz cf_co2 T (r T (P / 10)) = Some h /\ exact_density cf_co2 r T (P / 10).
Proof.
  intros T HT. destruct (co2_dilute T HT) as (d & q & g & h & r & H1 & H2 & H3 & H4 & H5 & H6 & H7). exists (10 * q), g, h, r. replace (10 * q / 10) with q by field. rewrite H6. split; [lra|]. auto.
Qed.
