(** Water and carbon dioxide: denominators, density search, ideal limit, ranges. *)
From Coq Require Import List Bool Reals Lra Psatz String Ascii.
From Coquelicot Require Import Coquelicot.
From Verif Require Import RDeriv RDiff2 RImplicit WaterModel WaterSpec HelmModel HelmJet HelmProofs GasModel StpModel StpJet StpProofs StpSlope.
Import ListNotations.
Open Scope R_scope.

(** *** existence of the density *)
Lemma density_exists : forall w T d h p g, 0 < T -> helmholtz w T d = Some h -> stp_pressure w T d = Some (p, g) -> g <> 0 ->
  exists r : R -> R -> R, r T p = d /\ exact_density w r T p.
Proof.
  intros w T d h p g HT E Q Ng. destruct (Fp_press w T d h p g HT E Q) as [EF Eg].
  assert (L0 := near_some w T d h HT E). assert (LT : locally_2d (fun u _ : R => 0 < u) T d). { exists (mkposreal T HT). cbn [pos]. intros u v Hu _. apply Rabs_def2 in Hu. lra. }
  assert (L := locally_2d_and _ _ _ _ L0 LT).
  destruct (stp_table w T d h HT E) as (_ & _ & D1 & _ & D3 & _).
  destruct (implicit_exists (Fp w) (fun t x => slT t x (table w t x)) (fun t x => slD t x (table w t x)) T d) as (r & E1 & E2 & E3).
  - revert L. apply locally_2d_impl, locally_2d_forall. intros t x [Es Ht]. now apply Fp_diff.
  - assert (DD : diff2 (fun t x => Rg * t * (1 + 2 * x * ent w p_D t x + x ^ 2 * ent w p_DD t x)) T d (Rg * (1 + 2 * d * p_D h + d ^ 2 * p_DD h) + Rg * T * (2 * d * p_DT h + d ^ 2 * p_DDT h)) (Rg * T * (2 * p_D h + 2 * d * p_DD h + (2 * d * p_DD h + d ^ 2 * p_DDD h)))).
    { eapply e_eq; [er|cbv beta; rewrite !(ent_at w T d h _ E); cbn [INR Nat.pred pow]; ring|cbv beta; rewrite !(ent_at w T d h _ E); cbn [INR Nat.pred pow]; ring]. }
    refine (e_cont _ _ _ _ _ (e_ext_loc _ _ _ _ _ _ _ DD)). revert L0. apply locally_2d_impl, locally_2d_forall. intros t x Es. unfold slD. now rewrite !(ent_at w t x _ _ Es).
  - destruct (helm_U w T d h HT E) as [_ <-]. now rewrite <- Eg.
  - rewrite EF in E1, E2, E3. exists r. split; [exact E1|]. split; [exact E2|].
    assert (L' : locally_2d (fun t x => helmholtz w t x = Some (table w t x) /\ 0 < t) T (r T p)) by (rewrite E1; exact L).
    assert (LC := near_comp r T p _ E2 L'). cbv beta in LC. assert (L2 := locally_2d_and _ _ _ _ LC E3). revert L2. apply locally_2d_impl, locally_2d_forall. intros t q ((Es & Ht) & Eq). exists (slD t (r t q) (table w t (r t q))). rewrite <- Eq at 2. now apply some_press.
Qed.
(** *** enthalpy *)
Lemma enthalpy_slope : forall w r T P g h, 0 < T -> 0 < P -> exact_density w r T (P / 10) -> 0 < r T (P / 10) -> stp_pressure w T (r T (P / 10)) = Some (P / 10, g) -> g <> 0 -> helmholtz w T (r T (P / 10)) = Some h ->
  is_derive (fun t => f_h (state w r t P)) T (f_c (state w r T P)) /\ exists l, is_derive (fun t => f_v (state w r t P)) T l /\ is_derive (fun q => f_h (state w r T q)) P (f_v (state w r T P) - T * l).
Proof.
  intros w r T P g h HT HP HE Hr Q Ng E. destruct (state_slopes w r T P g h HT HP HE Hr Q Ng E) as (DG & DS & DV). cbv zeta in DG, DS, DV.
  assert (HH : forall t q, f_h (state w r t q) = f_g (state w r t q) + t * f_s (state w r t q)) by (intros t q; unfold state; destruct (helmholtz w t (r t (q / 10))); [reflexivity|cbn; ring]).
  assert (DH : diff2 (fun t q => f_g (state w r t q) + t * f_s (state w r t q)) T P (f_c (state w r T P)) (f_v (state w r T P) - T * (- rh_T (stp_rho T (r T (P / 10)) h) / (10 * r T (P / 10) ^ 2)))) by (eapply e_eq; [er|cbv beta; field; lra|cbv beta; field; split; lra]).
  apply (e_ext _ (fun t q => f_h (state w r t q))) in DH; [|intros u v; symmetry; apply HH]. split; [exact (e_1 _ _ _ _ _ DH)|]. eexists. split; [exact (e_1 _ _ _ _ _ DV)|]. exact (e_2 _ _ _ _ _ DH).
Qed.
(** *** identities that hold whatever the density *)
Lemma props_id : forall T P rho h, 0 < P -> let f := stp_props T P rho h in 0 < f_phi f /\ f_g f = Rg * T * ln (f_phi f) /\ f_g f = f_h f - T * f_s f /\ f_v f = 1 / (10 * rho).
Proof.
  intros T P rho h HP. unfold stp_props. cbv zeta. cbn [f_phi f_g f_h f_s f_v]. split; [apply Rdiv_lt_0_compat; [apply exp_pos|lra]|split; [ring|split; [ring|]]].
  unfold Rdiv. rewrite !Rmult_1_l. rewrite Rinv_mult. apply Rmult_comm.
Qed.
(** *** no zero denominator between 200 and 2000 K *)
Ltac inv_T T HT := generalize (Rinv_r T (Rgt_not_eq _ _ HT)); generalize (Rinv_0_lt_compat T HT); generalize (/ T).
Lemma quad_pos : forall a b c x, 0 < a -> 0 < c -> b * b < 4 * a * c -> 0 < a + b * x + c * x ^ 2.
Proof. intros a b c x Ha Hc D. assert (0 < 4 * c * (a + b * x + c * x ^ 2)). { replace (4 * c * (a + b * x + c * x ^ 2)) with ((2 * c * x + b) ^ 2 + (4 * a * c - b * b)) by ring. assert (0 <= (2 * c * x + b) ^ 2) by (apply pow2_ge_0). lra. } nra. Qed.
Lemma pden_pos : forall c rho, 0 <= rho -> 0 < a1 c -> 0 < a2 c -> 0 < a4 c -> 0 <= a5 c -> (0 <= a3 c \/ a3 c * a3 c < 4 * a2 c * a4 c) -> 0 < pden c rho.
Proof.
  intros c rho Hr H1 H2 H4 H5 H3. unfold pden. assert (P4 : 0 <= rho ^ 4) by (apply pow_le; exact Hr). assert (0 <= a5 c * rho ^ 4) by (apply Rmult_le_pos; assumption).
  assert (Q : 0 < a2 c + a3 c * rho + a4 c * rho ^ 2). { destruct H3 as [H3|H3]; [|now apply quad_pos]. assert (0 <= a3 c * rho) by (apply Rmult_le_pos; assumption). assert (0 <= a4 c * rho ^ 2) by (apply Rmult_le_pos; [lra|apply pow2_ge_0]). lra. }
  assert (0 <= rho * (a2 c + a3 c * rho + a4 c * rho ^ 2)) by (apply Rmult_le_pos; lra). replace (a1 c + a2 c * rho + a3 c * rho ^ 2 + a4 c * rho ^ 3 + a5 c * rho ^ 4) with (a1 c + rho * (a2 c + a3 c * rho + a4 c * rho ^ 2) + a5 c * rho ^ 4) by ring. lra.
Qed.
Lemma ct_h2o : forall T, 200 <= T <= 2000 -> let c := each (ct T) cf_h2o in 0 < a1 c /\ 1 / 20 <= a2 c /\ 25 <= a4 c /\ 0 <= a5 c /\ -1 / 2 <= a3 c <= 0 /\ 0 < a9 c.
Proof.
  intros T [H1 H2]. cbv zeta. unfold each, cf_h2o, ct. cbn [a1 a2 a3 a4 a5 a9 w1 w2 w3 w4 w5 w9 r_m4 r_m2 r_m1 r_0 r_1 r_2]. generalize (/ T ^ 4) (/ T ^ 2). assert (HT : 0 < T) by lra. inv_T T HT. intros i Hi E u v. assert (Ii : i <= 1 / 200) by nra. assert (X : i * (3676 / 1000000 * T - 1) ^ 2 = 3676 / 1000000 * (3676 / 1000000) * T - 2 * (3676 / 1000000) + i) by (replace (i * (3676 / 1000000 * T - 1) ^ 2) with (3676 / 1000000 * (3676 / 1000000) * T * (T * i) - 2 * (3676 / 1000000) * (T * i) + i) by ring; rewrite E; ring).
  assert (Y : 0 <= i * (3676 / 1000000 * T - 1) ^ 2) by (apply Rmult_le_pos; [lra|apply pow2_ge_0]). rewrite X in Y. clear X. repeat split; nra.
Qed.
Lemma ct_co2 : forall T, 200 <= T <= 2000 -> let c := each (ct T) cf_co2 in 0 < a1 c /\ 1 / 50 <= a2 c /\ 7 <= a4 c /\ 0 <= a5 c /\ -1 / 10 <= a3 c /\ 0 < a7 c /\ 0 < a9 c.
Proof.
  intros T [H1 H2]. cbv zeta. unfold each, cf_co2, ct. cbn [a1 a2 a3 a4 a5 a7 a9 w1 w2 w3 w4 w5 w7 w9 r_m4 r_m2 r_m1 r_0 r_1 r_2]. generalize (/ T ^ 4) (/ T ^ 2). assert (HT : 0 < T) by lra. inv_T T HT. intros i Hi E u v. assert (Ii : i <= 1 / 200) by nra. repeat split; nra.
Qed.

(** the coefficient dividing the first exponential of water vanishes at one temperature *)
Definition T_pole : R := 32768949 / 500 / (752427 / 4000).
Lemma T_pole_in : 348 < T_pole < 349.
Proof. unfold T_pole. split; lra. Qed.
Lemma a7_h2o : forall T, 0 < T -> (a7 (each (ct T) cf_h2o) = 0 <-> T = T_pole).
Proof.
  intros T HT. unfold each, cf_h2o, ct. cbn [a7 w7 r_m4 r_m2 r_m1 r_0 r_1 r_2]. unfold T_pole. generalize (/ T ^ 4) (/ T ^ 2). intros u v. replace (0 * u + 0 * v + -32768949 / 500 * / T + 752427 / 4000 + 0 * T + 0 * T ^ 2) with (752427 / 4000 * (T - 32768949 / 500 / (752427 / 4000)) * / T) by (field; lra).
  assert (I := Rinv_0_lt_compat T HT). split; intros E.
  - apply Rmult_integral in E. destruct E as [E|E]; [|exfalso; lra]. apply Rmult_integral in E. destruct E as [E|E]; exfalso + idtac; lra.
  - rewrite E. rewrite Rminus_eq_0. ring.
Qed.
Lemma h2o_pden : forall T rho, 200 <= T <= 2000 -> 0 <= rho -> 0 < pden (each (ct T) cf_h2o) rho.
Proof. intros T rho HT Hr. destruct (ct_h2o T HT) as (H1 & H2 & H4 & H5 & H3 & _). apply pden_pos; try assumption; try lra. right. nra. Qed.
Lemma co2_pden : forall T rho, 200 <= T <= 2000 -> 0 <= rho -> 0 < pden (each (ct T) cf_co2) rho.
Proof. intros T rho HT Hr. destruct (ct_co2 T HT) as (H1 & H2 & H4 & H5 & H3 & _). apply pden_pos; try assumption; try lra. destruct (Rle_dec 0 (a3 (each (ct T) cf_co2))) as [L|L]; [now left|right]. nra. Qed.
Lemma h2o_defined : forall T rho, 200 <= T <= 2000 -> 0 <= rho -> (exists q g, stp_pressure cf_h2o T rho = Some (q, g)) /\ (helmholtz cf_h2o T rho = None <-> T = T_pole).
Proof.
  intros T rho HT Hr. assert (N := h2o_pden T rho HT Hr). destruct (ct_h2o T HT) as (H1 & _ & _ & _ & _ & H9). assert (A := a7_h2o T ltac:(lra)).
  split; [eexists; eexists; apply press_some; split; [unfold C; lra|split; reflexivity]|]. unfold helmholtz, some_zero, divisors. cbn [existsb].
  destruct (Req_EM_T (pden (each (ct T) cf_h2o) rho) 0); [exfalso; lra|]. destruct (Req_EM_T (a1 (each (ct T) cf_h2o)) 0); [exfalso; lra|]. destruct (Req_EM_T (a9 (each (ct T) cf_h2o)) 0); [exfalso; lra|].
  destruct (Req_EM_T (a7 (each (ct T) cf_h2o)) 0) as [Z|Z]; cbn [orb]; [split; [intros _; now apply A|reflexivity]|split; [discriminate|intros E; exfalso; apply Z; now apply A]].
Qed.
Lemma co2_defined : forall T rho, 200 <= T <= 2000 -> 0 <= rho -> (exists q g, stp_pressure cf_co2 T rho = Some (q, g)) /\ exists h, helmholtz cf_co2 T rho = Some h.
Proof.
  intros T rho HT Hr. assert (N := co2_pden T rho HT Hr). destruct (ct_co2 T HT) as (H1 & _ & _ & _ & _ & H7 & H9).
  split; [eexists; eexists; apply press_some; split; [unfold C; lra|split; reflexivity]|]. eexists. apply helm_some. split; [|reflexivity]. unfold C. repeat split; lra.
Qed.
(** *** the search *)
Lemma clamp_in : forall lo hi x, lo <= hi -> lo <= clamp lo hi x <= hi.
Proof. intros lo hi x H. unfold clamp. cbv zeta. destruct (Rlt_dec x lo); destruct (Rlt_dec hi _); lra. Qed.
Lemma clamp_id : forall lo hi x, lo <= x <= hi -> clamp lo hi x = x.
Proof. intros lo hi x H. unfold clamp. cbv zeta. destruct (Rlt_dec x lo); [lra|]. destruct (Rlt_dec hi x); lra. Qed.
Lemma loop_post : forall press lo hi p, lo <= hi -> forall n rho rho', lo <= rho <= hi -> stp_loop press lo hi p n rho = Dfound rho' ->
  exists x q g, lo <= x <= hi /\ press x = Some (q, g) /\ g <> 0 /\ Rabs (1 - q / p) <= / 10 ^ 10 /\ rho' = clamp lo hi (x + (p - q) / g) /\ lo <= rho' <= hi.
Proof.
  intros press lo hi p LH. induction n as [|n IH]; intros rho rho' HR; cbn [stp_loop]; [discriminate|]. destruct (press rho) as [[q g]|] eqn:EP; [|discriminate]. destruct (Req_EM_T g 0) as [Z|Z]; [discriminate|]. cbv zeta.
  destruct (Rlt_dec stp_tol (Rabs (1 - q / p))) as [L|L].
  - intros E. apply (IH _ _ (clamp_in lo hi _ LH) E).
  - intros E. injection E as <-. exists rho, q, g. split; [exact HR|split; [exact EP|split; [exact Z|split; [unfold stp_tol in L; lra|split; [f_equal; field; exact Z|apply clamp_in, LH]]]]].
Qed.
Lemma loop_fixed : forall press lo hi p g n rho, p <> 0 -> lo <= rho <= hi -> press rho = Some (p, g) -> g <> 0 -> stp_loop press lo hi p (Datatypes.S n) rho = Dfound rho.
Proof.
  intros press lo hi p g n rho Hp HR EP Ng. cbn [stp_loop]. rewrite EP. destruct (Req_EM_T g 0) as [Z|_]; [contradiction|]. cbv zeta.
  assert (Z : 1 - p / p = 0) by (field; exact Hp). destruct (Rlt_dec stp_tol (Rabs (1 - p / p))) as [L|_]; [exfalso; rewrite Z, Rabs_R0 in L; unfold stp_tol in L; assert (0 < / 10 ^ 10) by (apply Rinv_0_lt_compat, pow_lt; lra); lra|].
  f_equal. replace (rho + - (p - p) / g) with rho by (field; exact Ng). now apply clamp_id.
Qed.
Lemma rho_min_max : forall top mw, 1 <= top -> 0 < mw -> 0 < rho_min mw <= rho_max top mw.
Proof.
  intros top mw Ht Hm. unfold rho_min, rho_max. assert (I := Rinv_0_lt_compat mw Hm). assert (J : 0 < / 10 ^ 20) by (apply Rinv_0_lt_compat, pow_lt; lra). assert (K : / 10 ^ 20 <= 1) by (rewrite <- Rinv_1; apply Rinv_le_contravar; [lra|]; rewrite <- (pow1 20); apply pow_incr; lra).
  unfold Rdiv. split; [apply Rmult_lt_0_compat; [|exact I]; lra|apply Rmult_le_compat_r; [lra|]; lra].
Qed.
(** *** the whole *)
Definition in_window (Tmin T P : R) : Prop := Tmin <= T < 10000 /\ 1 / 100000 <= P < 100000.
Definition in_range (T P : R) : Prop := 200 <= T <= 2000 /\ / 10 ^ 20 <= P / 10 <= 10000.
Lemma calc_in : forall formula Tmin Tc Pc T P, in_window Tmin T P -> stp_calc formula Tmin Tc Pc T P = stp_pure formula Tc Pc T P.
Proof. intros formula Tmin Tc Pc T P [[H1 H2] [H3 H4]]. unfold stp_calc. destruct (Rle_dec Tmin T); [|contradiction]. destruct (Rlt_dec T 10000); [|contradiction]. destruct (Rle_dec (1 / 100000) P); [|contradiction]. destruct (Rlt_dec P 100000); [reflexivity|contradiction]. Qed.
Lemma calc_out : forall formula Tmin Tc Pc T P, ~ in_window Tmin T P -> stp_calc formula Tmin Tc Pc T P = Sval (mkFug 1 0 0 0 (Rg * T / P) 0).
Proof.
  intros formula Tmin Tc Pc T P N. unfold stp_calc. destruct (Rle_dec Tmin T); [|reflexivity]. destruct (Rlt_dec T 10000); [|reflexivity]. destruct (Rle_dec (1 / 100000) P); [|reflexivity]. destruct (Rlt_dec P 100000); [|reflexivity]. exfalso. apply N. split; split; assumption.
Qed.
Lemma pure_out : forall formula Tc Pc T P, ~ in_range T P -> stp_pure formula Tc Pc T P = Suninit.
Proof.
  intros formula Tc Pc T P N. unfold stp_pure. destruct (stp_code formula); [|reflexivity]. cbv zeta. destruct (Rlt_dec T 200); [reflexivity|]. destruct (Rlt_dec 2000 T); [reflexivity|]. destruct (Rlt_dec (P / 10) (/ 10 ^ 20)); [reflexivity|]. destruct (Rlt_dec 10000 (P / 10)); [reflexivity|]. exfalso. apply N. unfold in_range. lra.
Qed.
Lemma pure_in : forall Tc Pc T P, in_range T P -> stp_pure "H2O" Tc Pc T P = stp_fluid cf_h2o mw_h2o 1800 (guess_h2o Tc (Pc / 10)) T P /\ stp_pure "CO2" Tc Pc T P = stp_fluid cf_co2 mw_co2 2400 (guess_co2 Tc (Pc / 10)) T P.
Proof.
  intros Tc Pc T P H. unfold in_range in H. unfold stp_pure, stp_code. cbn [string_dec]. cbv zeta. destruct (Rlt_dec T 200); [lra|]. destruct (Rlt_dec 2000 T); [lra|]. destruct (Rlt_dec (P / 10) (/ 10 ^ 20)); [lra|]. destruct (Rlt_dec 10000 (P / 10)); [lra|]. split; reflexivity.
Qed.
Lemma fluid_val : forall w mw top guess T P f, 1 <= top -> 0 < mw -> stp_fluid w mw top guess T P = Sval f ->
  exists x q g rho h, rho_min mw <= x <= rho_max top mw /\ stp_pressure w T x = Some (q, g) /\ g <> 0 /\ Rabs (1 - q / (P / 10)) <= / 10 ^ 10 /\ rho = clamp (rho_min mw) (rho_max top mw) (x + (P / 10 - q) / g) /\ rho_min mw <= rho <= rho_max top mw /\ helmholtz w T rho = Some h /\ f = stp_props T P rho h.
Proof.
  intros w mw top guess T P f Ht Hm. unfold stp_fluid, stp_density. cbv zeta. destruct (rho_min_max top mw Ht Hm) as [_ LH]. destruct (stp_loop _ _ _ _ _ _) as [rho| |] eqn:E; [|discriminate|discriminate]. destruct (helmholtz w T rho) as [h|] eqn:Eh; [|discriminate]. intros X. injection X as <-.
  destruct (loop_post _ _ _ _ LH _ _ _ (clamp_in _ _ _ LH) E) as (x & q & g & A1 & A2 & A3 & A4 & A5 & A6). exists x, q, g, rho, h. repeat split; try assumption; apply A1 || apply A6 || auto.
Qed.
Lemma pole_no_value : forall Tc Pc P, in_range T_pole P -> forall f, stp_pure "H2O" Tc Pc T_pole P <> Sval f.
Proof.
  intros Tc Pc P HR f E. rewrite (proj1 (pure_in Tc Pc T_pole P HR)) in E. destruct (fluid_val cf_h2o mw_h2o 1800 _ T_pole P f ltac:(lra) ltac:(unfold mw_h2o; lra) E) as (x & q & g & rho & h & _ & _ & _ & _ & _ & B & Eh & _).
  destruct (rho_min_max 1800 mw_h2o ltac:(lra) ltac:(unfold mw_h2o; lra)) as [M _]. assert (TP := T_pole_in). destruct (h2o_defined T_pole rho ltac:(lra) ltac:(lra)) as [_ [_ N]]. rewrite (N eq_refl) in Eh. discriminate.
Qed.
Lemma density_fixed : forall w mw top guess T p rho g, 1 <= top -> 0 < mw -> p <> 0 -> guess / 1000 / mw = rho -> rho_min mw <= rho <= rho_max top mw -> stp_pressure w T rho = Some (p, g) -> g <> 0 -> stp_density w mw top guess T p = Dfound rho.
Proof.
  intros w mw top guess T p rho g Ht Hm Hp E B Q Ng. unfold stp_density. cbv zeta. rewrite E, (clamp_id _ _ _ B). apply (loop_fixed (stp_pressure w T) (rho_min mw) (rho_max top mw) p g 998 rho Hp B Q Ng).
Qed.
Lemma density_slopes : forall w T d h p g, 0 < T -> helmholtz w T d = Some h -> stp_pressure w T d = Some (p, g) -> g <> 0 -> forall r : R -> R -> R, r T p = d -> exact_density w r T p -> let k := stp_rho T d h in
    diff2 r T p (rh_T k) (rh_P k) /\ diff2 (fun t q => rh_T (rho_at w t (r t q))) T p (rh_TT k) (rh_TP k) /\ diff2 (fun t q => rh_P (rho_at w t (r t q))) T p (rh_TP k) (rh_PP k).
Proof. intros w T d h p g HT E Q Ng r Er HE. subst d. split; [exact (rho_first w r T p g h HT HE Q Ng E)|exact (rho_second w r T p g h HT HE Q Ng E)]. Qed.
Lemma state_all : forall w r T P g h, 0 < T -> 0 < P -> exact_density w r T (P / 10) -> 0 < r T (P / 10) -> stp_pressure w T (r T (P / 10)) = Some (P / 10, g) -> g <> 0 -> helmholtz w T (r T (P / 10)) = Some h ->
  let f := state w r in f T P = stp_props T P (r T (P / 10)) h /\
  is_derive (fun q => f_g (f T q)) P (f_v (f T P) - Rg * T / P) /\ is_derive (fun t => f_g (f t P)) T (- f_s (f T P)) /\ is_derive (fun t => f_h (f t P)) T (f_c (f T P)) /\
  exists l, is_derive (fun t => f_v (f t P)) T l /\ is_derive (fun q => f_h (f T q)) P (f_v (f T P) - T * l).
Proof.
  intros w r T P g h HT HP HE Hr Q Ng E. cbv zeta. destruct (state_slopes w r T P g h HT HP HE Hr Q Ng E) as (DG & _ & _). destruct (enthalpy_slope w r T P g h HT HP HE Hr Q Ng E) as [H1 H2]. cbv zeta in DG.
  split; [unfold state; now rewrite E|]. split; [exact (e_2 _ _ _ _ _ DG)|]. split; [exact (e_1 _ _ _ _ _ DG)|]. split; [exact H1|exact H2].
Qed.
Lemma calc_result : forall formula Tmin Tc Pc T P f, in_window Tmin T P -> stp_calc formula Tmin Tc Pc T P = Sval f ->
  in_range T P /\ exists w mw top, ((formula = "H2O"%string /\ w = cf_h2o /\ mw = mw_h2o /\ top = 1800) \/ (formula = "CO2"%string /\ w = cf_co2 /\ mw = mw_co2 /\ top = 2400)) /\
  exists x q g rho h, rho_min mw <= x <= rho_max top mw /\ stp_pressure w T x = Some (q, g) /\ g <> 0 /\ Rabs (1 - q / (P / 10)) <= / 10 ^ 10 /\
    rho = clamp (rho_min mw) (rho_max top mw) (x + (P / 10 - q) / g) /\ rho_min mw <= rho <= rho_max top mw /\ helmholtz w T rho = Some h /\ f = stp_props T P rho h /\
    0 < f_phi f /\ f_g f = Rg * T * ln (f_phi f) /\ f_g f = f_h f - T * f_s f /\ f_v f = 1 / (10 * rho).
Proof.
  intros formula Tmin Tc Pc T P f HW. rewrite (calc_in _ _ _ _ _ _ HW). intros E. assert (HP : 0 < P) by (destruct HW as [_ [HW' _]]; lra).
  assert (RR : in_range T P).
  { unfold in_range. destruct (Rlt_dec T 200) as [L|L1]; [rewrite pure_out in E by (unfold in_range; intros [X _]; lra); discriminate E|]. destruct (Rlt_dec 2000 T) as [L|L2]; [rewrite pure_out in E by (unfold in_range; intros [X _]; lra); discriminate E|].
    destruct (Rlt_dec (P / 10) (/ 10 ^ 20)) as [L|L3]; [rewrite pure_out in E by (unfold in_range; intros [_ X]; lra); discriminate E|]. destruct (Rlt_dec 10000 (P / 10)) as [L|L4]; [rewrite pure_out in E by (unfold in_range; intros [_ X]; lra); discriminate E|]. lra. }
  split; [exact RR|].
  assert (FIN : forall w mw top guess, 1 <= top -> 0 < mw -> stp_fluid w mw top guess T P = Sval f -> exists x q g rho h, rho_min mw <= x <= rho_max top mw /\ stp_pressure w T x = Some (q, g) /\ g <> 0 /\ Rabs (1 - q / (P / 10)) <= / 10 ^ 10 /\
    rho = clamp (rho_min mw) (rho_max top mw) (x + (P / 10 - q) / g) /\ rho_min mw <= rho <= rho_max top mw /\ helmholtz w T rho = Some h /\ f = stp_props T P rho h /\
    0 < f_phi f /\ f_g f = Rg * T * ln (f_phi f) /\ f_g f = f_h f - T * f_s f /\ f_v f = 1 / (10 * rho)).
  { intros w mw top guess Ht Hm Ef. destruct (fluid_val w mw top guess T P f Ht Hm Ef) as (x & q & g & rho & h & A1 & A2 & A3 & A4 & A5 & A6 & A7 & A8). exists x, q, g, rho, h. assert (B := props_id T P rho h HP). cbv zeta in B. rewrite <- A8 in B. tauto. }
  destruct (string_dec formula "H2O") as [F1|F1]; [|destruct (string_dec formula "CO2") as [F2|F2]].
  - rewrite F1, (proj1 (pure_in _ _ _ _ RR)) in E. exists cf_h2o, mw_h2o, 1800. split; [left; auto|]. refine (FIN _ _ _ _ _ _ E); unfold mw_h2o; lra.
  - rewrite F2, (proj2 (pure_in _ _ _ _ RR)) in E. exists cf_co2, mw_co2, 2400. split; [right; auto|]. refine (FIN _ _ _ _ _ _ E); unfold mw_co2; lra.
  - exfalso. unfold stp_pure, stp_code in E. cbv zeta in E. destruct (string_dec formula "CO2"); [contradiction|]. destruct (string_dec formula "H2O"); [contradiction|]. discriminate E.
Qed.
Lemma calc_uninit : forall formula Tmin Tc Pc T P, in_window Tmin T P -> (~ (200 <= T <= 2000) \/ (formula <> "H2O"%string /\ formula <> "CO2"%string)) -> stp_calc formula Tmin Tc Pc T P = Suninit.
Proof.
  intros formula Tmin Tc Pc T P HW [N|[N1 N2]]; rewrite (calc_in _ _ _ _ _ _ HW).
  - apply pure_out. intros [X _]. exact (N X).
  - unfold stp_pure, stp_code. cbv zeta. destruct (string_dec formula "CO2"); [contradiction|]. destruct (string_dec formula "H2O"); [contradiction|]. reflexivity.
Qed.
