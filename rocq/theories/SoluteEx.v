(** Concrete waters meeting the hypotheses of the solute theorems, and the refutations. *)
From Coq Require Import List Bool Reals Lra Lia.
From Coquelicot Require Import Coquelicot.
From Verif Require Import RDeriv MineralModel MineralSpec GasMore GasPhase SoluteModel SoluteSpec SoluteProofs SoluteG SoluteG2 SoluteO SoluteHKF SoluteDens.
Open Scope R_scope.

(** density 900 exp (-t/1000 + q/100000), t in K, q in bar *)
Definition w_ex (t q : R) : wet := let d := 900 * exp (- t / 1000 + q / 100000) in
  mkWet d (- d / 1000) (d / 10000000000) (d / 1000000) (- d / 10000000000000) (d / 100000000000000000000).
Definition b_ex (t q : R) : born := mkBorn (- (1 / 80) - 6 / 100000 * (t - 300) - q / 1000000) (- (6 / 100000)) (- (1 / 100000000000)) 0.
Definition h_ex : hkf := mkHKF (1839 / 10000) (-22850) (32560 / 10000) (-27260) (1818 / 100) (-29810) 33060 (-261881) (-240300) 58.
Lemma w_ex_ok : forall T P, water_ok w_ex T P.
Proof.
  intros T P. unfold water_ok, w_ex. cbn [d_ d_T d_P d_TT d_TP d_PP].
  split; [|split; [|split; [|split; [|split]]]]; (eapply d_eq; [dr; lra|]); cbv beta; field.
Qed.
Lemma b_ex_ok : forall T P, born_ok b_ex T P.
Proof. intros T P. unfold born_ok, b_ex. cbn [bZ bY bQ bX]. split; [|split]; (eapply d_eq; [dr; lra|]); cbv beta; lra. Qed.
Lemma w_ex_range : 500 <= d_ (w_ex 400 300) < 1000 /\ d_T (w_ex 400 300) <> 0 /\ d_P (w_ex 400 300) <> 0.
Proof.
  unfold w_ex. cbn [d_ d_T d_P]. set (u := - (400) / 1000 + 300 / 100000). assert (A : 1 + u <= exp u) by apply exp_ineq1_le.
  assert (B : exp u < 1). { rewrite <- exp_0. apply exp_increasing. unfold u. lra. } unfold u in A at 1. lra.
Qed.
Lemma g_ex_bound : - (30 / 100) <= g_ (gval w_ex 400 300) <= 0.
Proof.
  destruct w_ex_range as ((A & B) & C & D). unfold gval. rewrite split_g by assumption. cbn [gsum g_]. rewrite corr_out by (unfold C_K; lra). cbn [g_zero g_]. rewrite Rplus_0_r. cbn [g_one g_].
  assert (N := ag_neg (400 - C_K)). assert (G := bg_big (400 - C_K)). set (r := 1 - d_ (w_ex 400 300) / 1000). assert (R1 : 0 < r <= 1 / 2) by (unfold r; lra).
  assert (E1 : 0 < Rpower r (bg (400 - C_K))) by apply exp_pos. destruct (small_pow r (bg (400 - C_K) - 1)) as [_ E2]; [lra|lra|]. rewrite Rpower_pred in E2 by lra.
  assert (E3 : Rpower r (bg (400 - C_K)) <= 1 / 8). { assert (r ^ 2 <= 1 / 4) by (cbn [pow]; nra). replace (Rpower r (bg (400 - C_K))) with (Rpower r (bg (400 - C_K)) / r * r) by (field; lra). 
    assert (0 < Rpower r (bg (400 - C_K)) / r) by (apply Rdiv_lt_0_compat; lra). nra. }
  assert (E4 : - (21 / 10) < ag (400 - C_K)) by (unfold ag, C_K; lra). nra.
Qed.
Lemma chain_ex : let f := fun t q => hkf_reak h_ex t q (omega_reak 1 false (wr h_ex) (gval w_ex t q)) (b_ex t q) in
  cons_S f 400 300 /\ cons_C f 400 300 /\ is_derive (fun t : R => mH (f t 300)) 400 (mCp (f 400 300)) /\ is_derive (fun p : R => mG (f 400 p)) 300 (mV (f 400 300) / vfac).
Proof.
  destruct w_ex_range as ((A & B) & C & D). assert (G := g_ex_bound). apply chain; try assumption; try (unfold theta, psi, rH; lra); [apply w_ex_ok|apply b_ex_ok|].
  rewrite Rabs_R1. unfold re_ref, h_ex, wr, eta, rH. assert (E : 1 * 1 / (33060 / 166027 + 1 / (3082 / 1000)) > 1) by lra. lra.
Qed.
Definition e_ex (t q : R) : elec := mkEl (33060 + t - 300 + q) 1 (1 / 100000) 0.
Lemma e_ex_ok : forall T P, omega_ok e_ex T P.
Proof. intros T P. unfold omega_ok, e_ex. cbn [o_w o_T o_P o_TT]. split; [|split]; (eapply d_eq; [dr|]); cbv beta; lra. Qed.
Lemma v_ex : mV (hkf_reak h_ex 400 300 (e_ex 400 300) (b_ex 400 300)) <> 0.
Proof. unfold hkf_reak, h_ex, e_ex, b_ex, vconst, psi, theta. cbn [mV h1 h2 h3 h4 o_w o_P bQ bZ]. lra. Qed.
Lemma vol_ex : theta < 400 /\ 0 < psi + 300 /\ omega_ok e_ex 400 300 /\ born_ok b_ex 400 300 /\ mV (hkf_reak h_ex 400 300 (e_ex 400 300) (b_ex 400 300)) <> 0 /\
  ~ cons_V (fun t p => hkf_reak h_ex t p (e_ex t p) (b_ex t p)) 400 300.
Proof.
  assert (V := v_ex). assert (H1 : theta < 400) by (unfold theta; lra). assert (H2 : 0 < psi + 300) by (unfold psi; lra). assert (H3 := e_ex_ok 400 300). assert (H4 := b_ex_ok 400 300).
  repeat (split; [assumption|]). intros C. apply V. apply (any_V hkf_reak (or_introl eq_refl) h_ex e_ex b_ex 400 300); assumption.
Qed.
Lemma V_wrong : forall code h e b T P, hkf_prop code -> theta < T -> 0 < psi + P -> omega_ok e T P -> born_ok b T P -> mV (code h T P (e T P) (b T P)) <> 0 ->
  ~ cons_V (fun t p => code h t p (e t p) (b t p)) T P.
Proof. intros code h e b T P Hc HT HP He Hb Hv C. apply Hv. now apply (any_V code Hc h e b T P). Qed.
Lemma any_cons3 : forall code h e b T P, hkf_prop code -> theta < T -> 0 < psi + P -> omega_ok e T P -> born_ok b T P ->
  let f := fun t p => code h t p (e t p) (b t p) in cons_S f T P /\ cons_C f T P /\ is_derive (fun t : R => mH (f t P)) T (mCp (f T P)) /\ is_derive (fun p : R => mG (f T p)) P (mV (f T P) / (4184004 / 4184000)).
Proof. intros code h e b T P Hc HT HP He Hb. exact (any_cons code Hc h e b T P HT HP He Hb). Qed.
Lemma u_ex : let x := hkf_gems h_ex 400 300 (e_ex 400 300) (b_ex 400 300) in mU x <> mH x - 300 * mV x.
Proof.
  intros x. destruct (any_U hkf_gems h_ex (e_ex 400 300) (b_ex 400 300) 400 300 (or_intror eq_refl)) as [[A _] _]. intros E. apply A in E.
  destruct (codes_differ h_ex (e_ex 400 300) (b_ex 400 300) 400 300) as (_ & _ & V & _); [unfold theta; lra|]. assert (W := v_ex). rewrite V in W. lra.
Qed.
Lemma U_wrong : forall code h e b T P, hkf_prop code -> let x := code h T P e b in (P * mV x <> 0 -> mU x <> mH x - P * mV x) /\ mU x = mH x - P * (4184 / 100 * mV x) /\ mA x = mU x - T * mS x.
Proof.
  intros code h e b T P Hc x. destruct (any_U code h e b T P Hc) as [A B]. split; [|split; [|exact B]]. - intros H E. now apply H, A.
  - destruct Hc as [E|E]; unfold x; rewrite E; [destruct (reak_U h (fun _ _ => e) (fun _ _ => b) T P) as [U _]|destruct (gems_U h (fun _ _ => e) (fun _ _ => b) T P) as [U _]]; rewrite U; unfold cal; lra.
Qed.
(** the reference point of an ion at 25 C, 1 bar *)
Lemma ref_ex : let x := hkf_reak h_ex Tr Pr (omega_reak 1 false (wr h_ex) g_zero) (mkBorn Zr1 Yr1 0 0) in mG x = -261881 /\ mH x = -240300 /\ mS x = 58.
Proof.
  apply (reak_ref h_ex); try reflexivity.
  - apply omega_ref; [reflexivity|]. unfold h_ex, wr, eta, rH. lra.
  - unfold omega_reak. destruct (is_zero 1 || false)%bool; [reflexivity|]. cbn [o_T g_zero g_T]. ring.
Qed.
(** the g function *)
Lemma g_ex : let w := w_ex in locally 400 (fun t => functionG t 300 (w t 300) = Some (gval w t 300)) /\ g_ok (gval w) 400 300 /\ g_ok2 (gval w) 400 300 /\ g_ (gval w 400 300) <= 0.
Proof. destruct w_ex_range as ((A & B) & C & D). destruct (functionG_ok w_ex 400 300) as (E & _ & F & G); [apply w_ex_ok|lra|assumption|assumption|]. repeat (split; [assumption|]). apply g_ex_bound. Qed.
Lemma g_ex_in : let w := w_ex in region2 (500 - C_K) 300 = true /\ g_ok (gval w) 500 300.
Proof.
  split; [apply region2_in; unfold C_K; lra|]. apply functionG_ok; [apply w_ex_ok| | |]; unfold w_ex; cbn [d_ d_T d_P]; set (u := - (500) / 1000 + 300 / 100000); assert (0 < exp u) by apply exp_pos; try lra.
  assert (exp u < 1). { rewrite <- exp_0. apply exp_increasing. unfold u. lra. } lra.
Qed.
(** density maximum at 277 K: 999 - (t - 277)^2 / 100 + q/100 *)
Definition w_max (t q : R) : wet := mkWet (990 - (t - 277) ^ 2 / 100 + q / 1000) (- (t - 277) / 50) (1 / 100000000) (- (1 / 50)) 0 0.
Lemma w_max_ex : water_ok w_max 277 1 /\ 0 < d_ (w_max 277 1) < 1000 /\ functionG 277 1 (w_max 277 1) = None.
Proof.
  split; [|split].
  - unfold water_ok, w_max. cbn [d_ d_T d_P d_TT d_TP d_PP]. split; [|split; [|split; [|split; [|split]]]]; (eapply d_eq; [dr; lra|]); cbv beta; cbn [INR pred]; field.
  - unfold w_max. cbn [d_]. lra.
  - apply functionG_fails; unfold w_max; cbn [d_ d_T d_P]; lra.
Qed.
(** gShok2 *)
Definition D_ex (k t q : R) : R := k * exp (- t / 1000 + q / 100000).
Lemma D_ex_T : forall k T P, is_derive (fun t : R => D_ex k t P) T (- D_ex k T P * (1 / 1000)).
Proof. intros. unfold D_ex. eapply d_eq; [dr; lra|]. cbv beta. field. Qed.
Lemma D_ex_P : forall k T P, is_derive (fun q : R => D_ex k T q) P (100000 * (D_ex k T P * (1 / 10000000000))).
Proof. intros. unfold D_ex. eapply d_eq; [dr; lra|]. cbv beta. field. Qed.
Lemma shok_ex : g_ok (sval (D_ex (9 / 10)) (fun _ _ => 1 / 1000) (fun _ _ => 1 / 10000000000) (fun _ _ => 0)) 400 300.
Proof.
  apply shok_ok; [apply D_ex_T|apply D_ex_P|apply d_const| |left; unfold C_K; lra]. unfold D_ex. set (u := - (400) / 1000 + 300 / 100000).
  assert (exp u < 1). { rewrite <- exp_0. apply exp_increasing. unfold u. lra. } lra.
Qed.
Lemma shok_dense_ex : let F := sval (D_ex 2) (fun _ _ => 1 / 1000) (fun _ _ => 1 / 10000000000) (fun _ _ => 0) in 1 < D_ex 2 300 1000 /\ g_P (F 300 1000) <> 0 /\ ~ g_ok F 300 1000.
Proof.
  intros F. assert (HD : 1 < D_ex 2 300 1000). { unfold D_ex. set (u := - (300) / 1000 + 1000 / 100000). assert (1 + u <= exp u) by apply exp_ineq1_le. unfold u in *. lra. }
  destruct (shok_dense (D_ex 2) (fun _ _ => 1 / 1000) (fun _ _ => 1 / 10000000000) (fun _ _ => 0) 300 1000) as [A B]; [apply D_ex_P|exact HD|lra|unfold C_K; lra|].
  fold F in A, B. split; [exact HD|]. split; [exact B|]. intros (_ & C & _). assert (E := d_unique _ _ _ _ A C). lra.
Qed.
Lemma shok_wrong : forall (D al be daT : R -> R -> R) (T P : R), is_derive (fun p : R => D T p) P (100000 * (D T P * be T P)) -> 1 < D T P -> be T P <> 0 -> T - C_K < 155 -> ~ g_ok (sval D al be daT) T P.
Proof. intros D al be daT T P H1 H2 H3 H4 (_ & C & _). destruct (shok_dense D al be daT T P H1 H2 H3 H4) as [A B]. assert (E := d_unique _ _ _ _ A C). lra. Qed.
Lemma omega_ex : let G := fun t q => mkG (- (t + q) / 10000) (- (1 / 10000)) (- (1 / 1000000000)) 0 0 0 in omega_ok (fun t q => omega_gems 2 100000 (G t q)) 400 300 /\ o_T (omega_gems 2 100000 (G 400 300)) <> 0.
Proof.
  intros G. assert (R1 : Rabs 2 = 2) by (apply Rabs_right; lra). split.
  - assert (O : omega_ok (fun t q => omega_reak 2 false 100000 (G t q)) 400 300).
    { apply omega_T; [lra| | |].
      - rewrite R1. unfold G, re_ref, eta, rH. cbn [g_]. assert (2 * 2 / (100000 / 166027 + 2 / (3082 / 1000)) > 1) by lra. lra.
      - unfold G, rH. cbn [g_]. lra.
      - unfold G. split; [|split]; cbn [g_ g_T g_P g_TT]; (eapply d_eq; [dr; lra|]); cbv beta; field. }
    unfold omega_ok in *. rewrite !omega_same. destruct O as (A & B & C). split; [|split].
    + eapply d_ext; [intros t; now rewrite omega_same|exact A].
    + eapply d_ext; [intros t; now rewrite omega_same|exact B].
    + eapply d_ext; [intros t; now rewrite omega_same|exact C].
  - rewrite omega_same. unfold omega_reak, is_zero. destruct (Req_EM_T 2 0); [lra|]. cbn [orb o_T G g_ g_T]. rewrite R1, (Rabs_right (2 * 2 * 2)) by lra. unfold re_ref, eta, rH.
    replace (2 * 2 * 2) with 8 by ring. set (re := 2 * 2 / (100000 / 166027 + 2 / (3082 / 1000)) + 2 * (- (400 + 300) / 10000)). assert (R2 : 3 < re < 31 / 10) by (unfold re; lra).
    assert (R3 : 0 < re * re < 10) by nra. assert (R4 : 8 / 10 < 8 / (re * re)). { unfold Rdiv. apply Rmult_lt_compat_l; [lra|]. apply Rinv_lt_contravar; lra. }
    set (y := 3082 / 1000 + - (400 + 300) / 10000). assert (R5 : 3 < y) by (unfold y; lra). assert (R6 : 4 < y ^ 2) by (cbn [pow]; nra).
    assert (R7 : 2 / y ^ 2 < 2 / 4). { unfold Rdiv. apply Rmult_lt_compat_l; [lra|]. apply Rinv_lt_contravar; lra. } lra.
Qed.

(** *** water of the density models: rho = exp (-t^2/2000000 + q/20000) *)
Definition dw_ex (t q : R) : dwater := mkDW (exp (- t ^ 2 / 2000000 + q / 20000)) (t / 1000000) (1 / 20000) (1 / 1000000).
Lemma dw_ex_ok : forall T P, dens_ok dw_ex T P.
Proof. intros T P. unfold dens_ok, dw_ex. cbn [w_rho w_al w_be w_daT]. split; [|split]; (eapply d_eq; [dr; lra|]); cbv beta; cbn [INR pred]; field. Qed.
Definition r_ex : dref := mkDR 300 (-100000) (-120000) 60 2 40.
Lemma L_ex : ln (w_rho (dw_ex 400 1000) / w_rho (dw_ex 300 1)) <> 0.
Proof.
  unfold dw_ex. cbn [w_rho]. unfold Rdiv at 1. rewrite ln_mult, ln_Rinv, !ln_exp; try apply exp_pos; [lra|]. apply Rinv_0_lt_compat, exp_pos.
Qed.
Lemma hp_wrong : forall r b w0 w T P, dens_ok w T P -> 0 < w_rho (w T P) -> 0 < w_rho w0 -> 0 < T < 500 -> r_T r * w_daT w0 <> 0 ->
  cons_S (fun t q => hp98 r b w0 (w t q) t q) T P <-> (r_C r - r_T r * b = 0 \/ w_rho (w T P) = w_rho w0).
Proof.
  intros r b w0 w T P Hw Hr H0 HT Hq. destruct (hp_low r b w0 w T P Hw Hr H0 (proj1 HT) Hq (proj2 HT)) as (_ & _ & D & _). cbv zeta in D.
  assert (N1 := q1 r w0 Hq). assert (N2 := q2 r w0 Hq).
  assert (K : forall x l : R, x / (r_T r * w_daT w0) * l / T = 0 <-> x = 0 \/ l = 0).
  { intros x l. split.
    - intros E. assert (F : x * l = 0). { replace (x * l) with (x / (r_T r * w_daT w0) * l / T * (r_T r * w_daT w0 * T)) by (field; repeat split; try assumption; lra). rewrite E. ring. } now apply Rmult_integral.
    - intros [->| ->]; field; repeat split; try assumption; lra. }
  assert (LL : ln (w_rho (w T P) / w_rho w0) = 0 <-> w_rho (w T P) = w_rho w0).
  { split; [|intros ->; unfold Rdiv; rewrite Rinv_r by lra; apply ln_1]. intros E. rewrite <- ln_1 in E. apply ln_inv in E; [|apply Rdiv_lt_0_compat; lra|lra]. apply Rmult_eq_reg_r with (/ w_rho w0); [|apply Rinv_neq_0_compat; lra]. rewrite Rinv_r by lra. exact E. }
  split.
  - intros C. assert (E := d_unique _ _ _ _ C D). rewrite <- LL. apply K. lra.
  - intros E. rewrite <- LL in E. apply K in E. unfold cons_S. eapply d_eq; [exact D|]. lra.
Qed.
Lemma hp_ex : dens_ok dw_ex 400 1000 /\ cons_V (fun t q => hp98 r_ex 0 (dw_ex 300 1) (dw_ex t q) t q) 400 1000 /\ ~ cons_S (fun t q => hp98 r_ex 0 (dw_ex 300 1) (dw_ex t q) t q) 400 1000.
Proof.
  assert (A := dw_ex_ok 400 1000). assert (B : 0 < w_rho (dw_ex 400 1000)) by apply exp_pos. assert (C : 0 < w_rho (dw_ex 300 1)) by apply exp_pos. assert (D : r_T r_ex * w_daT (dw_ex 300 1) <> 0) by (cbn; lra).
  split; [exact A|]. split; [apply (hp_low r_ex 0 (dw_ex 300 1) dw_ex 400 1000); try assumption; lra|]. intros E. apply hp_wrong in E; try assumption; [|lra]. destruct E as [E|E]; [cbn in E; lra|].
  apply L_ex. rewrite E. unfold Rdiv. rewrite Rinv_r by lra. apply ln_1.
Qed.
Lemma an_ex : let f := fun t q => an91 r_ex (dw_ex 300 1) (dw_ex t q) t q in cons_S f 400 1000 /\ cons_C f 400 1000 /\ ~ cons_V f 400 1000 /\ mH (f 400 1000) - mG (f 400 1000) - 400 * mS (f 400 1000) <> r_H r_ex - r_G r_ex - 300 * r_S r_ex.
Proof.
  assert (A := dw_ex_ok 400 1000). assert (B : 0 < w_rho (dw_ex 400 1000)) by apply exp_pos. assert (C : 0 < w_rho (dw_ex 300 1)) by apply exp_pos. assert (D : r_T r_ex * w_daT (dw_ex 300 1) <> 0) by (cbn; lra).
  intros f. destruct (an_cons r_ex (dw_ex 300 1) dw_ex 400 1000 A B C) as (E1 & E2 & _ & E3 & E4 & E5); [lra|exact D|]. cbv zeta in *. fold f in E1, E2, E3, E4, E5.
  split; [exact E1|]. split; [exact E2|]. split.
  - intros X. assert (E := d_unique _ _ _ _ E3 X). cbn in E. lra.
  - intros X. assert (E6 : mH (f 400 1000) - (mG (f 400 1000) + 400 * mS (f 400 1000)) = -120000 - -100000 - 300 * 60 + 400 * (40 * (300 / 1000000 - 400 / 1000000) / (300 * (1 / 1000000)))) by exact E5.
    change (mH (f 400 1000) - mG (f 400 1000) - 400 * mS (f 400 1000) = -120000 - -100000 - 300 * 60) in X. lra.
Qed.
(** and of the Akinfiev-Diamond model *)
Definition aw_ex (m t q : R) : adwater := let E := exp (t ^ 2 / 2000000 - q / 20000) in let k := 2000 * m in
  mkAW (- k * E) (k * (t / 1000000) * E) (k * (t / 1000000 + t ^ 3 / 1000000000000) * E) (-190 * t) 190 0 (exp (- t ^ 2 / 2000000 + q / 20000)) (t / 1000000) (1 / 20000) (1 / 1000000).
Lemma aw_ex_ok : forall m T P, 0 < T -> ad_water_ok (aw_ex m) T P.
Proof.
  intros m T P HT. unfold ad_water_ok, aw_ex. cbn [aw_G aw_S aw_C ai_G ai_S ai_C aw_rho aw_al aw_be aw_daT].
  split; [|split; [|split; [|split; [|split; [|split; [|split]]]]]]; try (eapply d_eq; [dr; lra|]; cbv beta; cbn [INR pred]; field; lra).
Qed.
Lemma aw_ex_V : forall m T P, is_derive (fun q : R => aw_G (aw_ex m T q)) P (m / aw_rho (aw_ex m T P) / 10).
Proof.
  intros m T P. unfold aw_ex. cbn [aw_G aw_rho]. eapply d_eq; [dr; lra|]. cbv beta. replace (exp (- T ^ 2 / 2000000 + P / 20000)) with (/ exp (T ^ 2 / 2000000 - P / 20000)).
  - assert (0 < exp (T ^ 2 / 2000000 - P / 20000)) by apply exp_pos. field. lra.
  - rewrite <- exp_Ropp. f_equal. field.
Qed.
Definition gas_at (x : R) : mprop := mkMP (-50000 - 200 * x) (-50000) 200 0 0 0 0.
Lemma ad_ex : let f := fun x q => ad_solute (mkInc 1 2 3 4 5) (ad_increments (mkAD (1 / 10) (-5) 10) x (aw_ex MW x q)) x q (gas_at x) in cons_S f 400 1000 /\ cons_C f 400 1000 /\ cons_V f 400 1000.
Proof.
  intros f. destruct (ad_consistent (mkAD (1 / 10) (-5) 10) (aw_ex MW) (mkInc 1 2 3 4 5) gas_at 400 1000) as (A & B & _ & _ & C);
   [lra|apply aw_ex_ok; lra|apply exp_pos|unfold gas_at; cbn [mG mS]; eapply d_eq; [dr|]; cbv beta; ring|unfold gas_at; cbn [mS mCp]; eapply d_eq; [dr|]; cbv beta; field|unfold gas_at; cbn [mH mCp]; apply d_const|].
  split; [exact A|]. split; [exact B|]. apply C. apply aw_ex_V.
Qed.
Lemma ad_mass_ex : let m := 18015268 / 1000000 in ad_water_ok (aw_ex m) 400 1000 /\ ~ cons_V (fun x q => ad_solute (mkInc 1 2 3 4 5) (ad_increments (mkAD (1 / 10) (-5) 10) x (aw_ex m x q)) x q (gas_at x)) 400 1000.
Proof.
  intros m. assert (A : ad_water_ok (aw_ex m) 400 1000) by (apply aw_ex_ok; lra). split; [exact A|]. apply ad_mass; [lra|exact A|apply exp_pos|apply aw_ex_V|cbn; lra].
Qed.
Lemma ad_gap_ex : let i0 := ad_increments (mkAD (1 / 10) (-5) 10) Tr (aw_ex MW Tr 1) in let s := ad_solute i0 (ad_increments (mkAD (1 / 10) (-5) 10) 400 (aw_ex MW 400 1000)) 400 1000 (gas_at 400) in mG s - (mH s - 400 * mS s) = 0.
Proof. cbv zeta. rewrite (ad_gap (mkAD (1 / 10) (-5) 10) (aw_ex MW Tr 1) (aw_ex MW 400 1000) 400 1000 (gas_at 400)). unfold gas_at. cbn [mG mH mS]. lra. Qed.
