(** Cases used beside the gas theorems. *)
From Coq Require Import List Bool Reals Lra Lia String.
From Coquelicot Require Import Coquelicot.
From Verif Require Import RDeriv ThermoScalarModel EngineModel GasModel GasSpec GasCubic GasProofs GasDeriv GasMore GasPhase GasInst GasWit GasApply.
Open Scope R_scope.

Lemma ln_le1 : forall x, 0 < x -> ln x <= x - 1.
Proof. intros x Hx. destruct (Req_dec x 1) as [->|N]; [rewrite ln_1; lra|]. assert (L := ln_gt (/ x) (Rinv_0_lt_compat _ Hx)). rewrite Rinv_involutive, ln_Rinv in L by lra. enough (1 - x < - ln x) by lra. apply L. intros Z. apply N. rewrite <- (Rinv_involutive x) by lra. rewrite Z. lra. Qed.
(** a hot Redlich-Kwong fluid has a positive residual Gibbs energy *)
Lemma rk_positive : forall a b T P v, 0 < b -> 0 < T -> 0 < P -> 0 <= a -> 2 * a <= b * Rgas * T -> b < v -> eos_rk a b T v = P -> 0 < gres_rk a b T P v.
Proof.
  intros a b T P v Hb HT HP Ha Hh Hv He. assert (RT : 0 < Rgas * T) by (apply Rmult_lt_0_compat; [unfold Rgas; lra|exact HT]). set (K := Rgas * T) in *. unfold gres_rk. fold K.
  assert (L1 := ln_le1 (P * (v - b) / K)). assert (X1 : 0 < P * (v - b) / K) by (apply Rdiv_lt_0_compat; [apply Rmult_lt_0_compat; lra|exact RT]).
  apply Rmult_le_compat_l with (r := K) in L1; [|lra|exact X1]. replace (K * (P * (v - b) / K - 1)) with (P * (v - b) - K) in L1 by (field; lra).
  assert (L2 := ln_le1 ((v + b) / v)). assert (X2 : 0 < (v + b) / v) by (apply Rdiv_lt_0_compat; lra).
  assert (Hab : 0 <= a / b) by (apply Rmult_le_pos; [exact Ha|left; now apply Rinv_0_lt_compat]).
  apply Rmult_le_compat_l with (r := a / b) in L2; [|exact Hab|exact X2]. replace (a / b * ((v + b) / v - 1)) with (a / v) in L2 by (field; lra).
  enough (a / v < P * b) by lra.
  apply Rmult_lt_reg_r with v; [lra|]. replace (a / v * v) with a by (field; lra). rewrite <- He. unfold eos_rk. fold K.
  apply Rmult_lt_reg_r with ((v - b) * (v + b)); [apply Rmult_lt_0_compat; lra|].
  replace ((K / (v - b) - a / (v * (v + b))) * b * v * ((v - b) * (v + b))) with (b * K * (v * (v + b)) - a * (b * (v - b))) by (field; lra).
  replace (b * Rgas * T) with (b * K) in Hh by (unfold K; ring). assert (0 < b * K) by (apply Rmult_lt_0_compat; lra).
  assert (0 < v * (v + b)) by (apply Rmult_lt_0_compat; lra). assert (0 < b * b) by (apply Rmult_lt_0_compat; lra). assert (0 < b * (v - b)) by (apply Rmult_lt_0_compat; lra).
  assert (M : 2 * a * (v * (v + b)) <= b * K * (v * (v + b))) by (apply Rmult_le_compat_r; lra).
  destruct Ha as [Ha| <-]; [|replace (0 * ((v - b) * (v + b))) with 0 by ring; assert (0 < b * K * (v * (v + b))) by (now apply Rmult_lt_0_compat); lra].

  enough (a * ((v - b) * (v + b)) + a * (b * (v - b)) < 2 * a * (v * (v + b))) by lra.
  replace (a * ((v - b) * (v + b)) + a * (b * (v - b))) with (a * (v * v + b * v - 2 * (b * b))) by ring. replace (2 * a * (v * (v + b))) with (a * (2 * (v * (v + b)))) by ring.
  apply Rmult_lt_compat_l; [exact Ha|]. assert (0 < v * v) by (apply Rmult_lt_0_compat; lra). assert (0 < b * v) by (apply Rmult_lt_0_compat; lra). lra.
Qed.
Lemma srk_volume : forall Tc Pc w T P f, 0 < Tc -> 0 < Pc -> 0 < T -> 0 < P -> b_srk Tc Pc * P < 1000 * (Rgas * T) -> srk_pure PI Tc Pc w T P = Some f ->
  let a := a_srk Tc Pc w T in let b := b_srk Tc Pc in
  b < f_v f /\ eos_rk a b T (f_v f) = P /\ (forall u, b < u -> gres_rk a b T P (f_v f) <= gres_rk a b T P u) /\
  f_g f = gres_rk a b T P (f_v f) /\ Rgas * T * ln (f_phi f) = f_g f /\ f_g f = f_h f - T * f_s f.
Proof.
  intros Tc Pc w T P f H1 H2 H3 H4 Hl E a b. destruct (srk_vals Tc Pc w T P f H1 H2 H3 H4 Hl E) as (A1 & A2 & A3 & A4 & _ & A5 & A6 & _).
  repeat split; try assumption. rewrite A5. field. lra.
Qed.
Lemma srk_undefined : forall pi Tc Pc w T P, let a := e_a (srk_ab Tc Pc w T) in let b := e_b (srk_ab Tc Pc w T) in
  srk_pure pi Tc Pc w T P = None <-> c_r (-1) (rk_a1 a b T P) (rk_a0 a b T P) = 0 /\ c_q (-1) (rk_a1 a b T P) <= 0.
Proof.
  intros pi Tc Pc w T P a b. rewrite <- (cardano_none pi). unfold srk_pure, rk_a1, rk_a0. fold a b. cbv zeta. destruct (cardano pi (-1) _ _); [split; discriminate|tauto].
Qed.
Lemma both_critical : forall pi Tc Pc w k1 k2 k3 P, 0 < Tc -> pr78_pure pi Tc Pc w Tc P = None /\ prsv_pure pi Tc Pc w k1 k2 k3 Tc P = None.
Proof. intros. split; [now apply pr78_critical|now apply prsv_critical]. Qed.
Lemma both_hot : forall a b T P, 0 < b -> 0 < T -> 0 <= a -> a <= b * Rgas * T ->
  one_phase (eos_rk a b T) (gres_rk a b T P) b P /\ one_phase (eos_pr a b T) (gres_pr a b T P) b P.
Proof. intros. split; [now apply rk_hot|now apply pr_hot]. Qed.
Lemma apply_gap_ne : forall f T p t, 0 < f_phi f -> 0 < val p -> f_g f = f_h f - T * f_s f -> f_g f <> 0 -> gap T (gas_apply f (Temperature T) p t) <> gap T t.
Proof. intros f T p t H1 H2 H3 H4. rewrite apply_gap by assumption. lra. Qed.
Lemma stp_undefined : forall formula, formula <> "CO2"%string -> formula <> "H2O"%string -> stp_code formula = None /\ cork_code formula <> None.
Proof. intros f H1 H2. unfold stp_code, cork_code. cbv zeta. destruct (string_dec f "CO2") as [E|_]; [contradiction|]. destruct (string_dec f "H2O") as [E|_]; [contradiction|]. split; [reflexivity|discriminate]. Qed.
Lemma calc_outside : forall pure Tmin T P, T < Tmin \/ 10000 <= T \/ P < 1 / 100000 \/ 100000 <= P ->
  calc_pure pure Tmin T P = Some (mkFug 1 0 0 0 (Rgas * T / P) 0).
Proof.
  intros pure Tmin T P H. unfold calc_pure. rewrite Rgas_Rg. unfold Rg. destruct (Rle_dec Tmin T), (Rlt_dec T 10000), (Rle_dec (1 / 100000) P), (Rlt_dec P 100000); cbn [andb]; try reflexivity. lra.
Qed.
(** *** literals *)
Definition c0 (x : R) : TS := ctor5 x 0 0 0 (calculated, ""%string).
Definition tps_ex : TPS := mkTPS (c0 100) (c0 0) (c0 0) (c0 50) (c0 7) (c0 1) (c0 30) (c0 30).
Definition solid_ex : Subst := mkSubst "Qtz" 0 0 0 OTHERCLASS false false "" 298 100000 (mkTPS (c0 0) (c0 0) (c0 0) (c0 0) (c0 0) (c0 2) (c0 0) (c0 0)).
Definition gas_ex : Subst := mkSubst "CO2" 0 0 0 GASFLUID true false "" 298 100000 tps_ex.
Lemma con_volume_ex : val (G (conMolVol solid_ex 500 200000000 tps_ex)) = 100 + 2 * 1999 /\ gap 500 (conMolVol solid_ex 500 200000000 tps_ex) = gap 500 tps_ex.
Proof. destruct (con_volume solid_ex 500 200000000 tps_ex) as (E1 & _ & E3 & _); [cbn; discriminate|]. split; [|exact E1]. rewrite E3. cbn [val V G s_ref solid_ex tps_ex c0 ctor5 s_refP]. lra. Qed.
Lemma ideal_gas_ex : val (G (idealGasVol gas_ex 500 200000000 tps_ex true)) < 100 + Rgas * 500 * ln 2000 /\ gap 500 (idealGasVol gas_ex 500 200000000 tps_ex true) = gap 500 tps_ex.
Proof.
  split; [|apply (ideal_gas gas_ex 500 200000000 tps_ex); [reflexivity|lra]]. assert (L := ideal_gas_low gas_ex 500 200000000 tps_ex eq_refl). cbn [val G tps_ex c0 ctor5 s_refP gas_ex] in L.
  replace (200000000 / 100000) with 2000 in L by lra. apply L; lra.
Qed.
Lemma srk_some : exists f, srk_pure PI 300 86.64 0 1200 400 = Some f.
Proof.
  destruct srk_ex as (H1 & H2 & H3). destruct (srk_single 300 86.64 0 1200 400) as (F & L & _); try lra; try assumption. exists (F 1200 400). apply (locally_singleton _ _ L).
Qed.
Lemma srk_volume_ex : exists f, srk_pure PI 300 86.64 0 1200 400 = Some f /\ b_srk 300 86.64 < f_v f /\ eos_rk (a_srk 300 86.64 0 1200) (b_srk 300 86.64) 1200 (f_v f) = 400.
Proof. destruct srk_some as [f E]. exists f. split; [exact E|]. destruct srk_ex as (H1 & _). destruct (srk_volume 300 86.64 0 1200 400 f) as (A1 & A2 & _); try lra; auto. Qed.
Lemma srk_gap_ex : exists f, srk_pure PI 300 86.64 0 1200 400 = Some f /\ forall t, gap 1200 (gas_apply f (Temperature 1200) (ctor5 400 0 0 0 (calculated, ""%string)) t) <> gap 1200 t.
Proof.
  destruct srk_some as [f E]. exists f. split; [exact E|]. intros t. destruct srk_ex as (H1 & _). destruct (srk_volume 300 86.64 0 1200 400 f) as (A1 & A2 & _ & A4 & A5 & A6); try lra; auto.
  assert (Hg : 0 < f_g f). { rewrite A4. apply rk_positive; try lra; [apply b_srk_pos; lra|apply a_srk_nn; lra|]. unfold a_srk, b_srk, alpha. replace (1200 / 300) with 4 by lra. rewrite sqrt4. unfold Rgas. lra. }
  apply apply_gap_ne; [|cbn [val ctor5]; lra|exact A6|lra]. revert E. unfold srk_pure. cbv zeta. destruct (cardano PI (-1) _ _); [|discriminate]. intros [= <-]. cbn [f_phi]. apply exp_pos.
Qed.
Lemma srk_single_ex : exists F : R -> R -> fug, locally 1200 (fun t => srk_pure PI 300 86.64 0 t 400 = Some (F t 400)) /\ is_derive (fun t => f_g (F t 400)) 1200 (- f_s (F 1200 400)).
Proof. destruct srk_ex as (H1 & H2 & H3). destruct (srk_single 300 86.64 0 1200 400) as (F & L & _ & _ & D & _); try lra; try assumption. exists F. split; assumption. Qed.
Lemma pr_single_ex : exists F : R -> R -> fug, locally 1200 (fun t => pr78_pure PI 300 77.7960739 0 t 400 = Some (F t 400)) /\ is_derive (fun t => f_g (F t 400)) 1200 (- f_s (F 1200 400)).
Proof. destruct pr_ex as (H1 & H2 & H3 & H4). destruct (pr78_slopes 300 77.7960739 0 1200 400) as (F & L & _ & _ & D & _); try lra; try assumption. exists F. split; assumption. Qed.
Lemma sv_single_ex : exists F : R -> R -> fug, locally 1200 (fun t => prsv_pure PI 300 77.796 0 1 0 0 t 400 = Some (F t 400)) /\ is_derive (fun t => f_g (F t 400)) 1200 (- f_s (F 1200 400)).
Proof. destruct sv_ex as (H1 & H2 & H3 & H4). destruct (prsv_slopes 300 77.796 0 1 0 0 1200 400) as (F & L & _ & _ & D & _); try lra; try assumption. exists F. split; assumption. Qed.
Lemma circle_ex : exists z1 z2 z3, cardano pi_code (-6) 11 (-6) = Some (z1, z2, z3).
Proof. unfold cardano. destruct (Rlt_dec _ _) as [|N]; [repeat eexists|]. exfalso. apply N. unfold c_r, c_q. lra. Qed.
