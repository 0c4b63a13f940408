(** Lemmas about the mineral equations of state. *)
From Coq Require Import List Bool Reals Lra Lia.
From Coquelicot Require Import Coquelicot.
From Verif Require Import RDeriv MineralModel MineralSpec.
Import ListNotations.
Open Scope R_scope.

(** *** the increment of Murnaghan's model *)
Section Mur.
Variable m : murpar.
Variables T P : R.
Hypothesis HT : 0 < T.
Hypothesis Hk : u_k m <> 0.
Hypothesis Hb : 1 - c15 * (T - u_T m) <> 0.
Hypothesis Hw : 0 < w4 (kap m T) P.
Lemma kap_nz : kap m T <> 0.
Proof. unfold kap. apply Rmult_integral_contrapositive_currified; assumption. Qed.
Lemma kap_d : is_derive (kap m) T (- c15 * u_k m).
Proof. unfold kap. eapply d_eq; [apply d_scal, d_minus; [apply d_const|apply d_scal, d_minus; [apply d_id|apply d_const]]|]. cbv beta. ring. Qed.
Lemma vt_d : is_derive (vt m) T (u_V m * (u_a m - 10 * u_a m * / sqrt T)).
Proof.
  unfold vt. pose proof (sqrt_lt_R0 T HT).
  eapply d_eq; [apply d_scal, d_minus; [apply d_plus; [apply d_const|apply d_scal, d_minus; [apply d_id|apply d_const]]|
    apply d_scal, d_minus; [apply d_sqrt; [apply d_id|exact HT]|apply d_const]]|]. cbv beta. field. lra.
Qed.
Lemma w_d : is_derive (fun t => w4 (kap m t) P) T (4 * (P / 1000) * c15 * u_k m / kap m T ^ 2).
Proof.
  unfold w4. pose proof kap_nz. eapply d_eq; [apply d_plus; [apply d_const|apply d_div; [apply d_const|apply kap_d|assumption]]|]. cbv beta. field. assumption.
Qed.
Lemma w_pow_d : forall y, is_derive (fun t => Rpower (w4 (kap m t) P) y) T (y * Rpower (w4 (kap m T) P) (y - 1) * (4 * (P / 1000) * c15 * u_k m / kap m T ^ 2)).
Proof. intros y. apply (d_Rpower (fun t => w4 (kap m t) P) y T); [apply w_d|exact Hw]. Qed.
Lemma mur_g_T : is_derive (fun t => mur_g m t P) T (- mur_s m T P).
Proof.
  pose proof kap_nz as K. pose proof (sqrt_lt_R0 T HT) as Hs. unfold mur_g. eapply d_eq.
  - apply d_scal_r, d_mult; [apply d_mult; [apply d_scal, vt_d|apply kap_d]|apply d_minus; [apply w_pow_d|apply d_const]].
  - cbv beta. unfold mur_s. replace (3 / 4 - 1) with (- (1 / 4)) by field.
    generalize (Rpower (w4 (kap m T) P) (3 / 4)) (Rpower (w4 (kap m T) P) (- (1 / 4))) (vt m T). intros A B V.
    unfold kap in *. field. repeat split; lra.
Qed.
Lemma mur_g_P : is_derive (fun p => mur_g m T p) P (mur_v m T P).
Proof.
  pose proof kap_nz as K. unfold mur_g. eapply d_eq.
  - apply d_scal_r, d_scal, d_minus; [|apply d_const]. apply (d_Rpower (fun p => w4 (kap m T) p)); [|exact Hw].
    unfold w4. apply d_plus; [apply d_const|]. unfold Rdiv. apply d_scal_r, d_scal, d_scal_r, d_id.
  - cbv beta. unfold mur_v. replace (3 / 4 - 1) with (- (1 / 4)) by field.
    assert (E : 1 - 4 * (P / 1000) / (kap m T + 4 * (P / 1000)) = / w4 (kap m T) P).
    { unfold w4 in *. assert (kap m T + 4 * (P / 1000) <> 0). { intros Z.
        replace (1 + 4 * (P / 1000) / kap m T) with ((kap m T + 4 * (P / 1000)) * / kap m T) in Hw by (field; assumption). rewrite Z in Hw. lra. }
      field. repeat split; try assumption. lra. }
    rewrite E. unfold Rpower at 2. rewrite ln_Rinv by exact Hw. unfold Rpower. replace (1 / 4 * - ln (w4 (kap m T) P)) with (- (1 / 4) * ln (w4 (kap m T) P)) by ring.
    field. assumption.
Qed.
Lemma mur_s_T : is_derive (fun t => mur_s m t P) T (mur_c m T P / T).
Proof.
  pose proof kap_nz as K. pose proof (sqrt_lt_R0 T HT) as Hs. unfold mur_s. eapply d_eq.
  - apply d_scal_r, d_opp, d_plus; [apply d_minus|].
    + apply d_mult; [apply d_mult|apply d_minus; [apply w_pow_d|apply d_const]].
      * unfold Rdiv. apply d_scal_r, d_scal, kap_d.
      * apply d_minus; [apply d_const|]. apply d_scal, d_inv; [apply d_sqrt; [apply d_id|exact HT]|lra].
    + apply d_mult; [unfold Rdiv; apply d_scal_r, d_scal_r, d_scal_r, vt_d|apply d_minus; [apply w_pow_d|apply d_const]].
    + apply d_mult; [|apply w_pow_d]. apply d_div; [apply d_scal_r, d_scal_r, vt_d| |exact Hb].
      apply d_minus; [apply d_const|]. apply d_scal, d_minus; [apply d_id|apply d_const].
  - cbv beta. unfold mur_c. replace (3 / 4 - 1) with (- (1 / 4)) by field. replace (- (1 / 4) - 1) with (- (5 / 4)) by field.
    generalize (Rpower (w4 (kap m T) P) (3 / 4)) (Rpower (w4 (kap m T) P) (- (1 / 4))) (Rpower (w4 (kap m T) P) (- (5 / 4))) (vt m T). intros A B C V.
    assert (Hq : T = sqrt T * sqrt T) by (symmetry; apply sqrt_sqrt; lra). unfold kap in *. set (s := sqrt T) in *. set (z := 1 - c15 * (T - u_T m)) in *. clearbody s z. 
    assert (T * s <> 0) by (apply Rmult_integral_contrapositive_currified; lra).
    clear Hw K. rewrite Hq in *. field. repeat split; lra || assumption.
Qed.
End Mur.

(** *** the whole function *)
Lemma neqb_true : forall x y, neqb x y = true <-> x <> y.
Proof. intros x y. unfold neqb. destruct (Req_EM_T x y); split; intros; try discriminate; try contradiction; auto. Qed.
Lemma away : forall x y : R, x <> y -> locally x (fun t => t <> y).
Proof.
  intros x y H. assert (He : 0 < Rabs (x - y)) by (apply Rabs_pos_lt; lra). exists (mkposreal _ He). intros t Ht ->.
  unfold ball in Ht; cbn in Ht. unfold AbsRing_ball, abs, minus, plus, opp in Ht; cbn in Ht. rewrite Rabs_minus_sym in Ht. unfold Rminus in Ht. lra.
Qed.
Lemma all_loc : forall (x : R) (Q : R -> Prop), (forall t, Q t) -> locally x Q.
Proof. intros x Q H. exists (mkposreal 1 Rlt_0_1). intros t _. apply H. Qed.
(** the test holds around a point where it holds *)
Lemma ref_loc_T : forall (T P Tr Pr : R), neqb (P - Pr) 0 || neqb (T - Tr) 0 = true -> locally T (fun t => neqb (P - Pr) 0 || neqb (t - Tr) 0 = true).
Proof.
  intros T P Tr Pr H. apply orb_true_iff in H. destruct H as [H|H].
  - apply all_loc. intros t. now rewrite H.
  - apply neqb_true in H. assert (Hn : T <> Tr) by lra. generalize (away T Tr Hn). apply filter_imp. intros t Ht. apply orb_true_iff. right. apply neqb_true. lra.
Qed.
Lemma ref_loc_P : forall (T P Tr Pr : R), neqb (P - Pr) 0 || neqb (T - Tr) 0 = true -> locally P (fun p => neqb (p - Pr) 0 || neqb (T - Tr) 0 = true).
Proof.
  intros T P Tr Pr H. apply orb_true_iff in H. destruct H as [H|H].
  - apply neqb_true in H. assert (Hn : P <> Pr) by lra. generalize (away P Pr Hn). apply filter_imp. intros t Ht. apply orb_true_iff. left. apply neqb_true. lra.
  - apply all_loc. intros t. rewrite H. apply orb_true_r.
Qed.
Lemma on_loc_T : forall m T P, mur_on m T P = true -> locally T (fun t => mur_on m t P = true).
Proof.
  intros m T P H. unfold mur_on in *. rewrite !andb_true_iff in H. destruct H as [[[H1 H2] H3] H4]. generalize (ref_loc_T _ _ _ _ H1). apply filter_imp.
  intros t Ht. now rewrite Ht, H2, H3, H4.
Qed.
Lemma on_loc_P : forall m T P, mur_on m T P = true -> locally P (fun p => mur_on m T p = true).
Proof.
  intros m T P H. unfold mur_on in *. rewrite !andb_true_iff in H. destruct H as [[[H1 H2] H3] H4]. generalize (ref_loc_P _ _ _ _ H1). apply filter_imp.
  intros t Ht. now rewrite Ht, H2, H3, H4.
Qed.
Lemma gtb_nz : forall x, gtb (Rabs x) (/ 1000000000) = true -> x <> 0.
Proof.
  intros x H ->. unfold gtb in H. destruct (Rlt_dec _ _) as [H'|]; [|discriminate]. rewrite Rabs_R0 in H'.
  assert (0 < / 1000000000) by (apply Rinv_0_lt_compat; lra). lra.
Qed.
Lemma murnaghan_consistent : forall m f T P, 0 < T -> mur_on m T P = true -> 1 - c15 * (T - u_T m) <> 0 -> 0 < w4 (kap m T) P ->
  consistent f T P -> consistent (fun t p => murnaghan m t p (f t p)) T P /\ cons_U (fun t p => murnaghan m t p (f t p)) T P.
Proof.
  intros m f T P HT Hon Hb Hw (F1 & F2 & F3 & F4).
  assert (Hk : u_k m <> 0). { unfold mur_on in Hon. rewrite !andb_true_iff in Hon. apply gtb_nz. tauto. }
  assert (E : forall t p, mur_on m t p = true -> murnaghan m t p (f t p) = with_UA (mG (f t p) + mur_g m t p) (mH (f t p) + mur_h m t p) (mS (f t p) + mur_s m t p) (mV (f t p) + mur_v m t p) (mCp (f t p) + mur_c m t p) t p).
  { intros t p H. unfold murnaghan. now rewrite H. }
  assert (LT : locally T (fun t => murnaghan m t P (f t P) = with_UA (mG (f t P) + mur_g m t P) (mH (f t P) + mur_h m t P) (mS (f t P) + mur_s m t P) (mV (f t P) + mur_v m t P) (mCp (f t P) + mur_c m t P) t P)).
  { generalize (on_loc_T m T P Hon). apply filter_imp. intros t. apply E. }
  assert (LP : locally P (fun p => murnaghan m T p (f T p) = with_UA (mG (f T p) + mur_g m T p) (mH (f T p) + mur_h m T p) (mS (f T p) + mur_s m T p) (mV (f T p) + mur_v m T p) (mCp (f T p) + mur_c m T p) T p)).
  { generalize (on_loc_P m T P Hon). apply filter_imp. intros t. apply E. }
  split; [|unfold cons_U; rewrite (E T P Hon); split; reflexivity]. split; [|split; [|split]].
  - unfold cons_S. rewrite (E T P Hon). cbn [with_UA mS]. apply is_derive_ext_loc with (fun t => mG (f t P) + mur_g m t P).
    + revert LT. apply filter_imp. intros t ->. reflexivity.
    + eapply d_eq; [apply d_plus; [exact F1|now apply mur_g_T]|]. cbv beta. ring.
  - unfold cons_V. rewrite (E T P Hon). cbn [with_UA mV]. apply is_derive_ext_loc with (fun p => mG (f T p) + mur_g m T p).
    + revert LP. apply filter_imp. intros t ->. reflexivity.
    + apply d_plus; [exact F2|now apply mur_g_P].
  - unfold cons_H in *. rewrite (E T P Hon). cbn [with_UA mH mG mS]. rewrite F3. unfold mur_h. ring.
  - unfold cons_C. rewrite (E T P Hon). cbn [with_UA mCp]. apply is_derive_ext_loc with (fun t => mS (f t P) + mur_s m t P).
    + revert LT. apply filter_imp. intros t ->. reflexivity.
    + eapply d_eq; [apply d_plus; [exact F4|now apply mur_s_T]|]. cbv beta. field. lra.
Qed.

(** *** Landau *)
Lemma Rpower_m1 : forall x y, 0 < x -> Rpower x (y - 1) = Rpower x y / x.
Proof. intros x y H. unfold Rminus. rewrite Rpower_plus, Rpower_Ropp, Rpower_1 by exact H. reflexivity. Qed.
Definition mur_of (l : lanpar) : murpar := mkMur (l_V l * q298 l ^ 2) (l_k l) (l_a l) (l_T l) 0.
Lemma kap_of : forall l T, kap (mur_of l) T = lkT l T. Proof. reflexivity. Qed.
Lemma livdp_of : forall l T P, livdp l T P = mur_g (mur_of l) T P.
Proof. intros. unfold livdp, mur_g. rewrite kap_of. unfold lvb, vt, mur_of; cbn [u_V u_a u_T]. field. Qed.
Lemma lidv_of : forall l T P, lidv l T P = - mur_s (mur_of l) T P.
Proof. intros. unfold lidv, mur_s. rewrite kap_of. unfold lvb, vt, mur_of; cbn [u_V u_a u_T u_k]. ring. Qed.
Lemma root4_pos : forall x, 0 < x -> root4 x = Rpower x (1 / 4).
Proof. intros x H. unfold root4. destruct (Rlt_dec 0 x); [reflexivity|contradiction]. Qed.
Lemma root4_4 : forall x, 0 < x -> root4 x ^ 4 = x.
Proof. intros x H. rewrite root4_pos by exact H. rewrite <- Rpower_pow by apply exp_pos. rewrite Rpower_mult. replace (1 / 4 * INR 4) with 1 by (cbn; lra). now apply Rpower_1. Qed.
Lemma root4_gt : forall x, 0 < x -> 0 < root4 x.
Proof. intros x H. rewrite root4_pos by exact H. apply exp_pos. Qed.
Section Lan.
Variable l : lanpar.
Variables T P : R.
Hypothesis HT : 0 < T.
Definition qpart (t : R) : R := smax l * ((t - tcr l P) * qq l t P ^ 2 + tcr l P * qq l t P ^ 6 / 3).
Lemma qq_d : T < tcr l P -> is_derive (fun t => qq l t P) T (- / (4 * tcr l P * qq l T P ^ 3)) /\ 0 < qq l T P /\ qq l T P ^ 4 = 1 - T / tcr l P.
Proof.
  intros Hc. set (c := tcr l P) in *. assert (Hc0 : 0 < c) by lra.
  assert (Hx : 0 < 1 - T / c). { apply Rmult_lt_reg_r with c; [exact Hc0|]. replace ((1 - T / c) * c) with (c - T) by (field; lra). lra. }
  assert (Eq : qq l T P = root4 (1 - T / c)). { unfold qq. fold c. destruct (Rlt_dec T c); [reflexivity|contradiction]. }
  assert (Hp := root4_gt _ Hx). assert (H4 := root4_4 _ Hx). rewrite Eq. split; [|split; [exact Hp|exact H4]].
  apply is_derive_ext_loc with (fun t => Rpower (1 - t / c) (1 / 4)).
  - assert (He : 0 < c - T) by lra. exists (mkposreal _ He). intros t Ht. unfold ball in Ht; cbn in Ht. unfold AbsRing_ball, abs, minus, plus, opp in Ht; cbn in Ht.
    apply Rabs_def2 in Ht. assert (Htc : t < c) by lra. unfold qq. fold c. destruct (Rlt_dec t c); [|contradiction]. rewrite root4_pos; [reflexivity|].
    apply Rmult_lt_reg_r with c; [exact Hc0|]. replace ((1 - t / c) * c) with (c - t) by (field; lra). lra.
  - eapply d_eq; [apply (d_Rpower (fun t => 1 - t / c)); [apply d_minus; [apply d_const|unfold Rdiv; apply d_scal_r, d_id]|exact Hx]|].
    cbv beta. rewrite Rpower_m1 by exact Hx. rewrite <- root4_pos by exact Hx.
    set (q := root4 (1 - T / c)) in *. clearbody q. rewrite <- H4. field. lra.
Qed.
Lemma qpart_d : T <> tcr l P -> is_derive qpart T (smax l * qq l T P ^ 2).
Proof.
  intros Hn. destruct (Rlt_dec T (tcr l P)) as [Hc|Hc].
  - destruct (qq_d Hc) as (D & Hp & H4). unfold qpart. eapply d_eq.
    + apply d_scal, d_plus; [apply d_mult; [apply d_minus; [apply d_id|apply d_const]|apply d_pow, D]|].
      unfold Rdiv. apply d_scal_r, d_scal, d_pow, D.
    + cbv beta. cbn [INR pred pow]. set (q := qq l T P) in *. set (c := tcr l P) in *. clearbody q c. clear D. 
      assert (Et : T = c * (1 - q ^ 4)) by (rewrite H4; field; lra).
      replace (T - c) with (- c * q ^ 4) by (rewrite Et; ring). field. lra.
  - assert (Hg : tcr l P < T) by lra. apply is_derive_ext_loc with (fun _ => 0).
    + assert (He : 0 < T - tcr l P) by lra. exists (mkposreal _ He). intros t Ht. unfold ball in Ht; cbn in Ht. unfold AbsRing_ball, abs, minus, plus, opp in Ht; cbn in Ht.
      apply Rabs_def2 in Ht. unfold qpart, qq. destruct (Rlt_dec t (tcr l P)); [lra|]. cbn. lra.
    + unfold qq. destruct (Rlt_dec T (tcr l P)); [contradiction|]. eapply d_eq; [apply d_const|]. cbn. ring.
Qed.
Lemma qsq_d : T <> tcr l P -> is_derive (fun t => smax l * qq l t P ^ 2) T (- (lan_c l T P / T)).
Proof.
  intros Hn. unfold lan_c. destruct (Rlt_dec T (tcr l P)) as [Hc|Hc].
  - destruct (qq_d Hc) as (D & Hp & H4). eapply d_eq; [apply d_scal, d_pow, D|]. cbv beta. cbn [INR pred pow].
    assert (Es : sqrt (tcr l P) * sqrt (tcr l P - T) = tcr l P * qq l T P ^ 2).
    { rewrite <- sqrt_mult by lra. apply sqrt_lem_1; try nra. transitivity (tcr l P * tcr l P * qq l T P ^ 4); [ring|]. rewrite H4. field. lra. }
    replace (2 * sqrt (tcr l P) * sqrt (tcr l P - T)) with (2 * (tcr l P * qq l T P ^ 2)) by (rewrite <- Es; ring). field. repeat split; lra.
  - apply is_derive_ext_loc with (fun _ => 0).
    + assert (He : 0 < T - tcr l P) by lra. exists (mkposreal _ He). intros t Ht. unfold ball in Ht; cbn in Ht. unfold AbsRing_ball, abs, minus, plus, opp in Ht; cbn in Ht.
      apply Rabs_def2 in Ht. unfold qq. destruct (Rlt_dec t (tcr l P)); [lra|]. cbn. ring.
    + eapply d_eq; [apply d_const|]. field. lra.
Qed.
Hypothesis Hk : l_k l <> 0.
Hypothesis Hb : 1 - c15 * (T - l_T l) <> 0.
Hypothesis Hw : 0 < w4 (lkT l T) P.
Lemma lan_g_T : T <> tcr l P -> is_derive (fun t => lan_g l t P) T (- lan_s l T P).
Proof.
  intros Hn. unfold lan_g. eapply d_eq.
  - apply d_plus; [apply d_plus; [apply d_minus; [apply d_const|apply d_scal_r, d_scal_r, d_id]|]|exact (qpart_d Hn)].
    apply (d_ext (fun t => mur_g (mur_of l) t P)); [intros; symmetry; apply livdp_of|]. apply mur_g_T; assumption.
  - cbv beta. unfold lan_s. rewrite lidv_of. ring.
Qed.
Lemma lan_GHS : lan_h l T P = lan_g l T P + T * lan_s l T P.
Proof. unfold lan_h, lan_g, lan_s. field. Qed.
End Lan.
Lemma landau_S : forall l f T P, 0 < T -> T <> tcr l P -> l_k l <> 0 -> 1 - c15 * (T - l_T l) <> 0 -> 0 < w4 (lkT l T) P ->
  cons_S f T P -> cons_H f T P ->
  cons_S (fun t p => landau l t p (f t p)) T P /\ cons_H (fun t p => landau l t p (f t p)) T P /\ cons_U (fun t p => landau l t p (f t p)) T P.
Proof.
  intros l f T P HT Hn Hk Hb Hw F1 F2. split; [|split; [|split; reflexivity]].
  - unfold cons_S, landau. cbn [with_UA mG mS]. eapply d_eq; [apply d_plus; [exact F1|now apply lan_g_T]|]. cbv beta. ring.
  - unfold cons_H, landau in *. cbn [with_UA mH mG mS]. rewrite F2, lan_GHS. ring.
Qed.
Lemma landau_V0 : forall l f T P, 0 < T -> T <> tcr l P -> l_k l <> 0 -> 1 - c15 * (T - l_T l) <> 0 -> 0 < w4 (lkT l T) P -> l_V l = 0 ->
  (forall p, mV (f T p) = 0) -> consistent f T P -> consistent (fun t p => landau l t p (f t p)) T P.
Proof.
  intros l f T P HT Hn Hk Hb Hw HV Hf (F1 & F2 & F3 & F4). destruct (landau_S l f T P HT Hn Hk Hb Hw F1 F3) as (A & B & _).
  assert (Evb : forall t, lvb l t = 0) by (intros; unfold lvb; rewrite HV; ring).
  assert (Ei : forall t p, livdp l t p = 0) by (intros; unfold livdp; rewrite Evb; field).
  assert (Ed : forall t p, lidv l t p = 0) by (intros; unfold lidv; rewrite Evb, HV; unfold Rdiv; ring).
  assert (Ec : forall p, tcr l p = tcr l P) by (intros; unfold tcr; destruct (Req_EM_T (l_V l) 0); [reflexivity|contradiction]).
  split; [exact A|]. split; [|split; [exact B|]].
  - unfold cons_V, landau. cbn [with_UA mG mV]. eapply d_eq.
    + apply d_plus; [exact F2|]. apply (d_ext (fun _ => lan_g l T P)); [|apply d_const].
      intros p. unfold lan_g. rewrite !Ei. unfold qq. rewrite (Ec p). reflexivity.
    + rewrite Hf. unfold lan_v. rewrite Evb, HV.
      assert (Eq : dqq l T P = 0). { unfold dqq. destruct (Rlt_dec T (tcr l P)); [|reflexivity]. rewrite HV. unfold Rdiv. ring. }
      rewrite Eq. unfold Rdiv. ring.
  - unfold cons_C, landau. cbn [with_UA mS mCp]. eapply d_eq.
    + apply d_plus; [exact F4|]. apply (d_ext (fun t => smax l * q298 l ^ 2 - smax l * qq l t P ^ 2)).
      * intros t. unfold lan_s. rewrite Ed. ring.
      * apply d_minus; [apply d_const|now apply qsq_d].
    + cbv beta. field. lra.
Qed.

(** *** Berman *)
Lemma berman_parts : forall b T P t, mG (berman b T P t) = mG t + ber_g b T P /\ mH (berman b T P t) = mH t + ber_h b T P /\
  mS (berman b T P t) = mS t + ber_s b T P /\ mV (berman b T P t) = ber_v b T P /\ mCp (berman b T P t) = mCp t.
Proof.
  intros b T P t. unfold berman. destruct (neqb (P - b_P b) 0 || neqb (T - b_T b) 0) eqn:E; [cbn; auto|].
  apply orb_false_iff in E. destruct E as [E1 E2]. unfold neqb in *. destruct (Req_EM_T (P - b_P b) 0) as [Hp|]; [|discriminate]. destruct (Req_EM_T (T - b_T b) 0) as [Ht|]; [|discriminate].
  cbn [mG mH mS mV mCp]. unfold ber_g, ber_h, ber_s, ber_v, ber_VT, ber_VP. rewrite Hp, Ht. repeat split; field.
Qed.
Lemma berman_consistent : forall b f T P, 0 < T -> b_1 b = 0 -> b_2 b = 0 -> mV (f T P) = 0 -> consistent f T P -> consistent (fun t p => berman b t p (f t p)) T P.
Proof.
  intros b f T P HT H1 H2 HV (F1 & F2 & F3 & F4).
  assert (Q := fun t p => berman_parts b t p (f t p)). split; [|split; [|split]].
  - unfold cons_S. destruct (Q T P) as (_ & _ & -> & _). apply (d_ext (fun t => mG (f t P) + ber_g b t P)); [intros t; symmetry; apply Q|].
    eapply d_eq; [apply d_plus; [exact F1|]|].
    + unfold ber_g, ber_VP. rewrite H1, H2. auto_derive; [exact I|reflexivity].
    + unfold ber_s, ber_VP. rewrite H1, H2. field.
  - unfold cons_V. destruct (Q T P) as (_ & _ & _ & -> & _). apply (d_ext (fun p => mG (f T p) + ber_g b T p)); [intros t; symmetry; apply Q|].
    eapply d_eq; [apply d_plus; [exact F2|]|].
    + unfold ber_g, ber_VP. rewrite H1, H2. auto_derive; [exact I|reflexivity].
    + rewrite HV. unfold ber_v, ber_VT, ber_VP. rewrite H1, H2. field.
  - unfold cons_H in *. destruct (Q T P) as (-> & -> & -> & _). rewrite F3. unfold ber_g, ber_h, ber_s, ber_VP. rewrite H1, H2. field.
  - unfold cons_C. destruct (Q T P) as (_ & _ & _ & _ & ->). apply (d_ext (fun t => mS (f t P) + ber_s b t P)); [intros t; symmetry; apply Q|].
    eapply d_eq; [apply d_plus; [exact F4|]|].
    + unfold ber_s, ber_VP. rewrite H1, H2. auto_derive; [exact I|reflexivity].
    + field. lra.
Qed.
