(** Witnesses for the theorems on water. *)
From Coq Require Import List Bool ZArith Reals Lra Lia.
From Coquelicot Require Import Coquelicot.
From Verif Require Import RDeriv RDiff2 ThermoScalarModel WaterModel WaterAdModel WaterSpec WaterProofs WaterMore WaterSolve WaterFd.
Import ListNotations.
Open Scope R_scope.

(** *** a fluid with a density maximum at 4: a = q(T) ln rho, P = rho q(T) *)
Definition mq (t : R) : R := 1 + (t - 4) * (t - 4).
Definition mH (t d : R) : helm := mkHelm (mq t * ln d) (2 * (t - 4) * ln d) (mq t / d) (2 * ln d) (2 * (t - 4) / d) (- mq t / (d * d)) 0 (2 / d) (- (2 * (t - 4)) / (d * d)) (2 * mq t / (d * d * d)).
Definition mrho (t p : R) : R := p / mq t.
Lemma mq_pos : forall t, 0 < mq t.
Proof. intros t. unfold mq. assert (A := Rle_0_sqr (t - 4)). unfold Rsqr in A. lra. Qed.
Lemma mq_d : forall (T D : R), diff2 (fun t d => mq t) T D (2 * (T - 4)) 0.
Proof. intros T D. unfold mq. eapply e_eq; [er| |]; cbv beta; ring. Qed.
Lemma mH_1 : forall T D, 0 < D -> helm1 mH T D.
Proof. intros T D HD. unfold helm1, mH. cbn. eapply e_eq; [apply (e_mult (fun t d => mq t) (fun t d => ln d)); [apply mq_d|er; exact HD]| |]; cbv beta; field; lra. Qed.
Lemma mH_2 : forall T D, 0 < D -> helm2 mH T D.
Proof.
  intros T D HD. assert (D <> 0) by lra. unfold helm2, mH. cbn. split.
  - eapply e_eq; [er; exact HD| |]; cbv beta; field; lra.
  - eapply e_eq; [apply (e_div (fun t d => mq t) (fun t d => d)); [apply mq_d|er|cbv beta; assumption]| |]; cbv beta; field; lra.
Qed.
Lemma mH_3 : forall T D, 0 < D -> helm3 mH T D.
Proof.
  intros T D HD. assert (N : D <> 0) by lra. assert (N2 : D * D <> 0) by now apply Rmult_integral_contrapositive_currified. unfold helm3, mH. cbn. split; [|split].
  - eapply e_eq; [er; exact HD| |]; cbv beta; field; lra.
  - eapply e_eq; [er; exact N| |]; cbv beta; field; lra.
  - eapply e_eq; [apply (e_div (fun t d => - mq t) (fun t d => d * d)); [apply (e_opp (fun t d => mq t)); apply mq_d|er|exact N2]| |]; cbv beta; field; lra.
Qed.
Lemma helm3_weak : forall H T D, helm3 H T D -> helm3' H T D /\ helm3'' H T D.
Proof.
  intros H T D (A & B & C). split; (split; [|split]); auto.
  - exact (e_2 _ _ _ _ _ A).
  - exact (e_1 _ _ _ _ _ B).
  - exact (e_2 _ _ _ _ _ C).
Qed.
Lemma mrho_d : forall T P, diff2 mrho T P (- (P * (2 * (T - 4))) / (mq T * mq T)) (1 / mq T).
Proof. intros T P. assert (A := mq_pos T). unfold mrho. eapply e_eq; [apply (e_div (fun t p => p) (fun t p => mq t)); [er|apply mq_d|cbv beta; lra]| |]; cbv beta; field; lra. Qed.
Lemma mrho_ok : forall T P, 0 < P -> density_of mH mrho T P.
Proof.
  intros T P HP. split; [exact (e_cont _ _ _ _ _ (mrho_d T P))|]. exists (mkposreal P HP). intros u v _ Hv. cbn in Hv. assert (0 < v) by (apply Rabs_def2 in Hv; lra).
  assert (A := mq_pos u). unfold mrho, mH. cbn. field. split; lra.
Qed.
Lemma mrho_pos : forall T P, 0 < P -> 0 < mrho T P.
Proof. intros. unfold mrho. apply Rdiv_lt_0_compat; [assumption|apply mq_pos]. Qed.
Lemma m_pD : forall T P, 0 < P -> w_pD (along mH mrho T P) = mq T.
Proof. intros T P HP. assert (A := mq_pos T). assert (B := mrho_pos T P HP). unfold along. cbn. field. lra. Qed.
Lemma m_dT : forall T P, 0 < P -> w_dT (along mH mrho T P) = - (2 * (T - 4)) * mrho T P / mq T.
Proof. intros T P HP. assert (A := mq_pos T). assert (B := mrho_pos T P HP). assert (C := m_pD T P HP). unfold along in *. cbn in C |- *. rewrite C. field. lra. Qed.
Lemma m_dP : forall T P, 0 < P -> w_dP (along mH mrho T P) = 1 / mq T.
Proof. intros T P HP. assert (C := m_pD T P HP). unfold along in *. cbn in C |- *. now rewrite C. Qed.
(** at its density maximum the second derivative of the density exists and is not zero, but the program gets 0/0 *)
Lemma max_none : forall H rho T P, w_dT (along H rho T P) = 0 -> w_dTT (along H rho T P) = None /\ sdAldT (along H rho T P) = None /\ jn T (along H rho T P) = None.
Proof.
  intros H rho T P E. assert (A : w_dTT (along H rho T P) = None). { unfold along, waterThermoState in *. cbn in E |- *. rewrite E. now rewrite isz_yes. }
  split; [exact A|]. unfold sdAldT, jn. rewrite A. split; reflexivity.
Qed.
Lemma max_refuted : exists H rho T P c, 0 < T /\ 0 < P /\ 0 < rho T P /\ (forall t d, 0 < d -> helm1 H t d /\ helm2 H t d /\ helm3 H t d) /\ (forall t p, 0 < p -> density_of H rho t p) /\
  0 < w_pD (along H rho T P) /\ is_derive (fun t : R => w_dT (along H rho t P)) T c /\ c < 0 /\
  w_dTT (along H rho T P) = None /\ sdAldT (along H rho T P) = None /\ jn T (along H rho T P) = None.
Proof.
  exists mH, mrho, 4, 1000, (-2 * 1000). assert (P0 : 0 < 1000) by lra. assert (R0 := mrho_pos 4 1000 P0).
  split; [lra|]. split; [lra|]. split; [exact R0|]. split; [intros t d Hd; split; [now apply mH_1|split; [now apply mH_2|now apply mH_3]]|]. split; [intros t p Hp; now apply mrho_ok|].
  split; [rewrite m_pD by lra; apply mq_pos|]. split.
  { assert (A := second_d' mH mrho 4 1000 (mH_2 _ _ R0) (proj1 (helm3_weak _ _ _ (mH_3 _ _ R0)))). assert (N : w_pD (along mH mrho 4 1000) <> 0) by (rewrite m_pD by lra; assert (Q := mq_pos 4); lra).
    destruct (A N (mrho_ok _ _ P0)) as [_ B]. apply e_1 in B. eapply d_eq; [exact B|]. rewrite m_pD by lra. rewrite m_dT by lra. unfold along, mrho, mq. cbn. field. }
  split; [lra|]. apply max_none. rewrite m_dT by lra. unfold mrho, mq. field.
Qed.

(** *** an accepted iterate can lead far away *)
(** pressure P + 0.1 + 0.001 (d - D0) + c (d - D0)^2 *)
Definition sD0 : R := wp_Dc * (99 / 100).
Definition sp (P c d : R) : R := P + 1 / 10 + 1 / 1000 * (d - sD0) + c * (d - sD0) ^ 2.
Definition smodel (P c t d : R) : helm := mkHelm 0 0 (sp P c d / (d * d)) 0 0 ((1 / 1000 + 2 * c * (d - sD0)) / (d * d) - 2 * sp P c d / (d * d * d)) 0 0 0 0.
Lemma smodel_d : forall P c t d, d <> 0 -> is_derive (fun x : R => hD (smodel P c t x)) d (hDD (smodel P c t d)).
Proof.
  intros P c t d Hd. cbn. unfold sp. eapply d_eq; [apply (d_div (fun x : R => P + 1 / 10 + 1 / 1000 * (x - sD0) + c * (x - sD0) ^ 2) (fun x : R => x * x) d (1 / 1000 + c * (2 * (d - sD0))) (2 * d))| ].
  - auto_derive; [exact I|]. ring.
  - auto_derive; [exact I|]. ring.
  - now apply Rmult_integral_contrapositive_currified.
  - cbv beta. field. exact Hd.
Qed.
Lemma far_refuted : forall K, exists T P model D', 0 < T /\ 0 < P /\ (forall t d, d <> 0 -> is_derive (fun x : R => hD (model t x)) d (hDD (model t d))) /\
  (forall ps l v st, waterDensity T P ps l v st model = Found D') /\ 0 < D' /\ K <= Rabs (D' * D' * hD (model T D') - P).
Proof.
  intros K. exists 1000, 1, (smodel 1 (Rabs K)), (sD0 - 100). split; [lra|]. split; [lra|]. split; [intros; now apply smodel_d|].
  assert (N : sD0 <> 0) by (unfold sD0, wp_Dc; lra). split.
  - intros ps l v st. unfold waterDensity. assert (E := proj1 (proj2 (start_state 1000 1 ps l v)) ltac:(unfold wp_Tc; lra) st). fold sD0 in E. rewrite E.
    assert (F : nw_f 1 sD0 (smodel 1 (Rabs K) 1000 sD0) = 1 / 10 / wp_Pc) by (unfold nw_f; cbn; unfold sp; replace (sD0 - sD0) with 0 by ring; unfold wp_Pc; field; exact N).
    assert (DF : nw_df sD0 (smodel 1 (Rabs K) 1000 sD0) = 1 / 1000 / wp_Pc) by (unfold nw_df; cbn; unfold sp; replace (sD0 - sD0) with 0 by ring; unfold wp_Pc; field; exact N).
    assert (P0 : wp_Pc <> 0) by (unfold wp_Pc; lra).
    assert (S1 : nw_step 1 sD0 (smodel 1 (Rabs K) 1000 sD0) = Next (sD0 - 100)).
    { unfold nw_step. rewrite F, DF. rewrite isz_no by (unfold wp_Pc; lra). replace (1 / 10 / wp_Pc / (1 / 1000 / wp_Pc)) with 100 by (field; exact P0).
      replace (ltb 100 sD0) with true; [reflexivity|]. symmetry. apply ltb_t. unfold sD0, wp_Dc. lra. }
    change 100%nat with (S 99). cbn [nw_loop]. rewrite S1, F. replace (ltb (Rabs (1 / 10 / wp_Pc)) newton_tol) with true; [reflexivity|].
    symmetry. apply ltb_t. rewrite Rabs_pos_eq; unfold wp_Pc, newton_tol; lra.
  - assert (Q : 0 < sD0 - 100) by (unfold sD0, wp_Dc; lra). split; [exact Q|]. cbn. unfold sp.
    replace ((sD0 - 100) * (sD0 - 100) * ((1 + 1 / 10 + 1 / 1000 * (sD0 - 100 - sD0) + Rabs K * (sD0 - 100 - sD0) ^ 2) / ((sD0 - 100) * (sD0 - 100))) - 1) with (Rabs K * 10000) by (field; lra).
    assert (A := Rabs_pos K). rewrite Rabs_pos_eq by lra. assert (B := Rle_abs K). lra.
Qed.

(** *** the rest *)
Lemma wp_pressure_refuted : exists hgk wp T D, waterPressureWagnerPruss hgk wp T D <> D * D * hD (wp T D).
Proof.
  exists (fun _ _ => mkHelm 0 0 1 0 0 0 0 0 0 0), (fun _ _ => mkHelm 0 0 2 0 0 0 0 0 0 0), 300, 1000. unfold waterPressureWagnerPruss, waterPressure. cbn. lra.
Qed.
Lemma zd_pp_refuted : exists rho T P x, (forall t p, is_derive (fun q : R => Derive (fun r : R => rho t (r / 100000)) q) p (2 / 10000000000)) /\
  fd_PP (zd_props rho T P) = Some x /\ x = 2 / 100000.
Proof.
  exists (fun _ p => p * p), 300, 1000, (2 / 100000). split; [|split; [|reflexivity]].
  - intros t p. apply (is_derive_ext (fun q : R => 2 / 10000000000 * q)).
    + intros q. symmetry. apply is_derive_unique. auto_derive; [exact I|]. field.
    + auto_derive; [exact I|]. ring.
  - unfold zd_props, omul. cbn. unfold fd2. rewrite isz_no by lra. f_equal. field.
Qed.
Lemma fd_electro_is : forall eps TC Pb e, fd_electro eps TC Pb = Some e ->
  e_TP e = 0 /\ b_U e = 0 /\ b_N e = 0 /\ b_Z e = -1 / e_ e /\ b_Y e = e_T e / (e_ e * e_ e) /\ b_Q e = e_P e / (e_ e * e_ e) / 100000 /\
  b_X e = e_TT e / (e_ e * e_ e) - 2 * b_Y e * b_Y e * e_ e /\
  fd1 (fun t => eps t Pb) TC = Some (e_T e) /\ fd1 (fun p => eps TC p) Pb = Some (e_P e) /\ fd2 (fun t => eps t Pb) TC = Some (e_TT e) /\ fd2 (fun p => eps TC p) Pb = Some (e_PP e).
Proof.
  intros eps TC Pb e. unfold fd_electro. destruct (fd1 (fun t => eps t Pb) TC) as [a|]; [|discriminate]. destruct (fd2 (fun t => eps t Pb) TC) as [b|]; [|discriminate].
  destruct (fd1 (fun p => eps TC p) Pb) as [c|]; [|discriminate]. destruct (fd2 (fun p => eps TC p) Pb) as [d|]; [|discriminate]. intros [= <-]. cbn [e_TP b_U b_N b_Z e_ b_Y e_T b_Q e_P b_X e_TT e_PP].
  repeat match goal with |- _ /\ _ => split end; try reflexivity. unfold Rdiv. ring.
Qed.
Lemma fd_electro_zero : forall eps Pb, fd_electro eps 0 Pb = None.
Proof. intros. unfold fd_electro. now rewrite (proj1 (fd_zero _)). Qed.
(** mixed derivative missing: eps = 80 + TC Pbar / 10^6 *)
Lemma fd_mixed_refuted : exists eps TC Pb e, fd_electro eps TC Pb = Some e /\ e_ e <> 0 /\
  (forall t p, is_derive (fun s : R => Derive (fun q : R => eps s q) p) t (1 / 1000000)) /\ e_TP e = 0 /\
  (forall t p, is_derive (fun q : R => eps t (q / 100000)) p (t / 1000000 / 100000)) /\ e_P e = TC / 1000000.
Proof.
  exists (fun t p => 80 + t * p / 1000000), 25, 1. eexists. split; [|split; [|split; [|split; [|split]]]].
  - unfold fd_electro, fd1, fd2. rewrite !isz_no by lra. reflexivity.
  - cbn [e_]. lra.
  - intros t p. apply (is_derive_ext (fun s : R => s / 1000000)).
    + intros s. symmetry. apply is_derive_unique. auto_derive; [exact I|]. field.
    + auto_derive; [exact I|]. field.
  - reflexivity.
  - intros t p. auto_derive; [exact I|]. field.
  - cbn [e_P]. field.
Qed.

(** *** a state at which all hypotheses of the Johnson-Norton theorem hold *)
Definition mP : R := 87617000.
Definition me (t p : R) : electro := match jn t (along mH mrho t p) with Some e => e | None => mkEl 0 0 0 0 0 0 0 0 0 0 0 0 end.
Lemma k_ne : forall t, 290 < t < 310 -> forall i, (i < 5)%nat -> jn_k i (t / jn_Tr) <> 0.
Proof.
  intros t Ht i Hi. unfold jn_Tr. set (x := t / (29815 / 100)). assert (Hx : 97 / 100 < x < 104 / 100). { unfold x. split; [apply Rmult_lt_reg_r with (29815 / 100)|apply Rmult_lt_reg_r with (29815 / 100)]; try lra; unfold Rdiv at 2; rewrite Rmult_assoc, Rinv_l, Rmult_1_r; lra. }
  assert (N : x <> 0) by lra. unfold jn_k, jn_a1, jn_a2, jn_a3, jn_a4, jn_a5, jn_a6, jn_a7, jn_a8, jn_a9, jn_a10.
  destruct i as [|[|[|[|[|i]]]]]; [lra| | | | |lia]; intros E; apply (f_equal (fun z => z * x ^ 2)) in E; field_simplify in E; auto; nra.
Qed.
Lemma me_ok : forall t p, 290 < t < 310 -> 0 < p -> jn t (along mH mrho t p) = Some (me t p).
Proof.
  intros t p Ht Hp. unfold me. assert (Q := mq_pos t). assert (R0 := mrho_pos t p Hp). unfold jn.
  assert (A : exists y, w_dTT (along mH mrho t p) = Some y).
  { assert (B : w_dT (along mH mrho t p) <> 0). { rewrite m_dT by exact Hp. apply Rmult_integral_contrapositive_currified; [apply Rmult_integral_contrapositive_currified; lra|apply Rinv_neq_0_compat; lra]. }
    unfold along, waterThermoState in *. cbn [w_dT w_dTT] in *. rewrite (isz_no _ B). eexists. reflexivity. }
  destruct A as [y ->]. rewrite isz_no by (rewrite m_dP by exact Hp; apply Rmult_integral_contrapositive_currified; [lra|apply Rinv_neq_0_compat; lra]). cbn [orb existsb].
  rewrite !isz_no by (apply k_ne; [exact Ht|lia]). reflexivity.
Qed.
Lemma m_jn_example : let w := along mH mrho in 300 <> 0 /\ w_d (w 300 mP) = 1000 /\ 77 < e_ (me 300 mP) < 78 /\ dens_first w 300 mP /\ dens_second w 300 mP /\ locally_2d (fun t p => jn t (w t p) = Some (me t p)) 300 mP.
Proof.
  assert (P0 : 0 < mP) by (unfold mP; lra). assert (R0 := mrho_pos 300 mP P0). assert (Q := mq_pos 300). cbv zeta.
  assert (RV : mrho 300 mP = 1000) by (unfold mrho, mP, mq; field).
  assert (ND : w_pD (along mH mrho 300 mP) <> 0) by (rewrite m_pD by exact P0; lra).
  split; [lra|]. split; [exact RV|]. split; [|split; [|split]].
  - assert (E := me_ok 300 mP ltac:(lra) P0). apply jn_some in E. destruct E as (y & _ & _ & _ & ->). unfold jn_raw. cbn [e_].
    change (w_d (along mH mrho 300 mP)) with (mrho 300 mP). rewrite RV. unfold sum5, jn_k, jn_Dr, jn_Tr, jn_a1, jn_a2, jn_a3, jn_a4, jn_a5, jn_a6, jn_a7, jn_a8, jn_a9, jn_a10.
    replace (1000 / 1000) with 1 by field. rewrite !pow1. split; [apply Rminus_lt; field_simplify; lra|apply Rminus_lt; field_simplify; lra].
  - exact (rho_d mH mrho 300 mP (mH_2 _ _ R0) ND (mrho_ok _ _ P0)).
  - apply (second_d mH mrho 300 mP (mH_2 _ _ R0) (proj1 (helm3_weak _ _ _ (mH_3 _ _ R0))) ND); [|exact (mrho_ok _ _ P0)].
    rewrite m_dT by exact P0. apply Rmult_integral_contrapositive_currified; [apply Rmult_integral_contrapositive_currified; lra|apply Rinv_neq_0_compat; lra].
  - exists (mkposreal 10 ltac:(lra)). intros u v Hu Hv. cbn in Hu, Hv. apply Rabs_def2 in Hu, Hv. apply me_ok; unfold mP in Hv; lra.
Qed.
Lemma jn_zero : exists T, 447 < T < 597 /\ jn_k 4 (T / jn_Tr) = 0 /\ forall w, jn T w = None.
Proof. destruct k4_root as (T & A & B). exists T. split; [exact A|]. split; [exact B|]. intros w. apply (jn_none T w 4); [lia|exact B]. Qed.
Lemma round_trip : forall hgk wp T P ps l v st D', waterDensity T P ps l v st hgk = Found D' ->
  exists D, nw_next P (hgk T) D = Some D' /\ Rabs (waterPressureHGK hgk wp T D - P) < 22064 / 100000.
Proof. intros hgk wp T P ps l v st D' H. apply density_ok_pressure in H. destruct H as (D & A & B & _). exists D. split; [exact B|exact A]. Qed.
Lemma cp_ge' : forall H rho T P, rho T P <> 0 -> 0 < T -> 0 < w_pD (along H rho T P) -> w_cv (along H rho T P) <= w_cp (along H rho T P).
Proof. intros H rho T P A B C. apply cp_ge; auto; lra. Qed.
Lemma zd_props_is : forall rho T P, fd_T (zd_props rho T P) = fd1 (fun t => rho t P) T /\ fd_TT (zd_props rho T P) = fd2 (fun t => rho t P) T /\
  forall x, fd1 (fun p => rho T p) P = Some x -> fd_P (zd_props rho T P) = Some (x / 100000).
Proof. intros rho T P. split; [reflexivity|]. split; [reflexivity|]. intros x E. unfold zd_props. cbn [fd_P]. rewrite E. unfold omul. f_equal. field. Qed.
Lemma zd_Z_example : 0 < zd_Z (64725 / 100) 10.
Proof.
  unfold zd_Z. assert (E : zd_F (64725 / 100) / 10 ^ 2 + zd_G (64725 / 100) / 10 ^ 4 > - (1 / 10)) by (unfold zd_F, zd_G, zd_Tc; lra).
  assert (B : 1 + zd_B (64725 / 100) / 10 + zd_C (64725 / 100) / 10 ^ 2 + zd_D (64725 / 100) / 10 ^ 4 + zd_E (64725 / 100) / 10 ^ 5 > 1 / 10) by (unfold zd_B, zd_C, zd_D, zd_E, zd_Tc; lra).
  assert (X : 0 < exp (- zd_g / 10 ^ 2) <= 1). { split; [apply exp_pos|]. rewrite <- exp_0. left. apply exp_increasing. unfold zd_g. lra. }
  nra.
Qed.
Lemma cube_example : forall t, Rabs (t - 300) <= Rabs 300 / 1000 -> is_derive (fun x : R => x ^ 3) t (3 * t ^ 2) /\ is_derive (fun x : R => 3 * x ^ 2) t (6 * t) /\ is_derive (fun x : R => 6 * x) t 6 /\ Rabs 6 <= 6.
Proof.
  intros t _. split; [auto_derive; [exact I|ring]|]. split; [auto_derive; [exact I|ring]|]. split; [auto_derive; [exact I|ring]|]. rewrite Rabs_pos_eq; lra.
Qed.
