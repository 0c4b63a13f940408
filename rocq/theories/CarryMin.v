(** Berman, Murnaghan, Landau: what the results carry. *)
From Coq Require Import Bool Reals Lra Lia String.
From Coquelicot Require Import Coquelicot.
From Verif Require Import ThermoScalarModel ThermoScalarSpec ThermoScalarProofs MineralModel MineralProofs CarryModel CarrySpec CarryPf.
Open Scope R_scope.

Lemma withUA_carries : forall g h s v c G H S0 V C T P, carries g G T P -> carries h H T P -> carries s S0 T P -> carries v V T P -> carries c C T P ->
  carries7 (withUA g h s v c T P) (fun t p => with_UA (G t p) (H t p) (S0 t p) (V t p) (C t p) t (p / 100000)) T P.
Proof.
  intros g h s v c G H S0 V C T P Hg Hh Hs Hv Hc. unfold carries7, carries5, withUA, with_UA. cbn [tG tH tS tV tC tU tA mG mH mS mV mCp mU mA]. split; [repeat split; assumption || apply Hg || apply Hh || apply Hs || apply Hv || apply Hc|].
  split; (eapply c_ext; cycle 1; [cs|intros t p; cbv beta; ring]).
Qed.
Lemma seven_loc : forall r f g T P, locally T (fun t => f t P = g t P) -> locally P (fun p => f T p = g T p) -> carries7 r f T P -> carries7 r g T P.
Proof.
  intros r f g T P L1 L2 [[A [B [C [D E]]]] [U W]].
  assert (K : forall x h, carries x (fun t p => h (f t p)) T P -> carries x (fun t p => h (g t p)) T P).
  { intros x h. apply c_ext_loc; [revert L1|revert L2]; apply filter_imp; intros t Ht; now rewrite Ht. }
  repeat split; (apply K; assumption) || (apply (K _ mG) in A; apply (K _ mH) in B; apply (K _ mS) in C; apply (K _ mV) in D; apply (K _ mCp) in E; apply (K _ mU) in U; apply (K _ mA) in W; first [apply A|apply B|apply C|apply D|apply E|apply U|apply W]).
Qed.
Lemma bar_loc : forall (P : R) (Q : R -> Prop), locally (P / 100000) Q -> locally P (fun p => Q (p / 100000)).
Proof.
  intros P Q H. assert (C : continuous (fun p : R => p / 100000) P) by (apply (ex_derive_continuous (fun p : R => p / 100000)); auto_derive; exact I). exact (C Q H).
Qed.
Lemma val_bar : forall P, val (Pbar P) = P / 100000. Proof. intro P. cbn. unfold Rdiv. ring. Qed.

Section Berman.
Variables (b : berpar) (vst : TS) (T P : R).
Hypothesis Hv : read_value vst (b_V b).
Lemma ber_parts : carries (VP_ b vst P) (fun t p => ber_VP b (p / 100000)) T P /\ carries (VT_ b vst T) (fun t p => ber_VT b t) T P /\
  carries (dT_ b T) (fun t p => t - b_T b) T P /\ carries (dP_ b P) (fun t p => p / 100000 - b_P b) T P.
Proof.
  pose proof (c_read vst (b_V b) T P Hv) as K. split; [unfold VP_, dP_, ber_VP; cs|]. split; [unfold VT_, dT_, ber_VT; cs|]. split; [unfold dT_; cs|unfold dP_; cs].
Qed.
Theorem berman_carries : forall r f, carries5 r f T P -> neqb (P / 100000 - b_P b) 0 || neqb (T - b_T b) 0 = true ->
  carries7 (bermanTS b vst T P r) (fun t p => berman b t (p / 100000) (f t p)) T P.
Proof.
  intros r f [A [B [C [D E]]]] On. destruct ber_parts as [H1 [H2 [H3 H4]]]. pose proof (c_read vst (b_V b) T P Hv) as K.
  unfold bermanTS. replace (neqb (val (dP_ b P)) 0 || neqb (val (dT_ b T)) 0) with true by (symmetry; rewrite (proj1 H4), (proj1 H3); exact On).
  apply (seven_loc _ (fun t p => with_UA (mG (f t p) + ber_g b t (p / 100000)) (mH (f t p) + ber_h b t (p / 100000)) (mS (f t p) + ber_s b t (p / 100000)) (ber_v b t (p / 100000)) (mCp (f t p)) t (p / 100000))).
  - generalize (ref_loc_T T (P / 100000) (b_T b) (b_P b) On). apply filter_imp. intros t Ht. unfold berman. rewrite Ht. reflexivity.
  - generalize (bar_loc P _ (ref_loc_P T (P / 100000) (b_T b) (b_P b) On)). apply filter_imp. intros p Hp. unfold berman. rewrite Hp. reflexivity.
  - apply (withUA_carries _ _ _ _ _ (fun t p => mG (f t p) + ber_g b t (p / 100000)) (fun t p => mH (f t p) + ber_h b t (p / 100000)) (fun t p => mS (f t p) + ber_s b t (p / 100000)) (fun t p => ber_v b t (p / 100000)) (fun t p => mCp (f t p))).
    + unfold berG_. eapply c_ext; cycle 1; [cs; lra|intros t p; cbv beta; unfold ber_g; ring].
    + unfold berH_. eapply c_ext; cycle 1; [cs; lra|intros t p; cbv beta; unfold ber_h; ring].
    + unfold berS_. eapply c_ext; cycle 1; [cs; lra|intros t p; cbv beta; unfold ber_s; ring].
    + unfold berV_. eapply c_ext; cycle 1; [cs; lra|intros t p; cbv beta; unfold ber_v; ring].
    + exact E.
Qed.
End Berman.

Lemma half_carries : forall T P, 0 < T -> carries (ts_pow_d (TK T) (1 / 2)) (fun t _ => sqrt t) T P /\ carries (ts_pow_d (TK T) (- (1 / 2))) (fun t _ => / sqrt t) T P /\ carries (ts_pow_d (TK T) (3 / 2)) (fun t _ => t * sqrt t) T P.
Proof.
  intros T P H.
  assert (L : forall (g : R -> R) c, (forall t : R, 0 < t -> Rpower t c = g t) -> carries (ts_pow_d (TK T) c) (fun t _ => g t) T P).
  { intros g c E. apply (c_ext_loc _ (fun t _ => Rpower t c)).
    - generalize (d_pos (fun t : R => t) T 1 (is_derive_id T) H). apply filter_imp. exact E.
    - apply all_loc. intro p. exact (E T H).
    - apply (c_pow c (TK T) (fun t _ => t)); [apply c_T|exact H]. }
  split; [|split].
  - apply L. intros t Ht. replace (1 / 2) with (/ 2) by lra. now apply Rpower_sqrt.
  - apply (L (fun t => / sqrt t)). intros t Ht. rewrite Rpower_Ropp. f_equal. replace (1 / 2) with (/ 2) by lra. now apply Rpower_sqrt.
  - apply (L (fun t => t * sqrt t)). intros t Ht. replace (3 / 2) with (1 + / 2) by lra. rewrite Rpower_plus, Rpower_1, Rpower_sqrt by assumption. reflexivity.
Qed.
Section Mur.
Variables (m : murpar) (vst : TS) (T P : R).
Hypothesis Hv : read_value vst (u_V m).
Hypothesis HT : 0 < T.
Hypothesis Hk : u_k m <> 0.
Hypothesis Hs : 1 - c15 * (T - u_T m) <> 0.
Hypothesis Hw : 0 < w4 (kap m T) (P / 100000).
Lemma kap_nz : kap m T <> 0. Proof. unfold kap. now apply Rmult_integral_contrapositive_currified. Qed.
Lemma sum_nz : kap m T + 4 * (P / 100000 / 1000) <> 0.
Proof. intro E. apply (Rlt_irrefl 0). replace 0 with (w4 (kap m T) (P / 100000)) at 2; [exact Hw|]. unfold w4. replace (4 * (P / 100000 / 1000)) with (- kap m T) by lra. field. exact kap_nz. Qed.
Lemma m_dT : carries (dTm m T) (fun t p => t - u_T m) T P. Proof. unfold dTm; cs. Qed.
Lemma m_kb : carries (kb P) (fun t p => p / 100000 / 1000) T P. Proof. unfold kb; cs; lra. Qed.
Lemma m_slack : carries (slack m T) (fun t p => 1 - c15 * (t - u_T m)) T P. Proof. pose proof m_dT. unfold slack; cs. Qed.
Lemma m_kap : carries (kapT m T) (fun t p => kap m t) T P. Proof. pose proof m_slack. unfold kapT, kap; cs. Qed.
Lemma m_vt : carries (vtT m vst T) (fun t p => vt m t) T P.
Proof. pose proof m_dT. pose proof (c_read vst (u_V m) T P Hv). destruct (half_carries T P HT) as [K _]. unfold vtT, vt; cs. Qed.
Lemma m_w4 : carries (w4T m T P) (fun t p => w4 (kap m t) (p / 100000)) T P.
Proof. pose proof m_kap. pose proof m_kb. unfold w4T, w4; cs. exact kap_nz. Qed.
Lemma m_p : forall c, carries (ts_pow_d (w4T m T P) c) (fun t p => Rpower (w4 (kap m t) (p / 100000)) c) T P.
Proof. intro c. apply c_pow; [exact m_w4|exact Hw]. Qed.
Lemma m_p34 : carries (p34 m T P) (fun t p => Rpower (w4 (kap m t) (p / 100000)) (3 / 4) - 1) T P.
Proof. pose proof (m_p (3 / 4)). unfold p34; cs. Qed.
Lemma m_g : carries (dgT m vst T P) (fun t p => mur_g m t (p / 100000)) T P.
Proof. pose proof m_vt. pose proof m_kap. pose proof m_p34. unfold dgT, mur_g; cs. Qed.
Lemma m_s : carries (dsT m vst T P) (fun t p => mur_s m t (p / 100000)) T P.
Proof.
  pose proof m_vt. pose proof m_kap. pose proof m_p34. pose proof m_kb. pose proof m_slack. pose proof (m_p (- (1 / 4))). destruct (half_carries T P HT) as [_ [K _]]. pose proof (c_read vst (u_V m) T P Hv).
  unfold dsT, mur_s; cs; lra || exact Hs.
Qed.
Lemma m_h : carries (dhT m vst T P) (fun t p => mur_h m t (p / 100000)) T P.
Proof. pose proof m_g. pose proof m_s. unfold dhT, mur_h; cs. Qed.
Lemma m_v : carries (dvT m vst T P) (fun t p => mur_v m t (p / 100000)) T P.
Proof.
  pose proof m_vt. pose proof m_kap. pose proof m_kb. unfold dvT, mur_v. eapply c_mul; [eassumption|]. apply c_pow.
  - cs. exact sum_nz.
  - replace (1 - 4 * (P / 100000 / 1000) / (kap m T + 4 * (P / 100000 / 1000))) with (/ w4 (kap m T) (P / 100000)); [now apply Rinv_0_lt_compat|].
    unfold w4. pose proof sum_nz. pose proof kap_nz. field; repeat split; lra.
Qed.
Lemma m_c : carries (dcpT m vst T P) (fun t p => mur_c m t (p / 100000)) T P.
Proof.
  pose proof m_vt. pose proof m_kap. pose proof m_p34. pose proof m_kb. pose proof m_slack. pose proof (m_p (- (1 / 4))). pose proof (m_p (- (5 / 4))). destruct (half_carries T P HT) as [K1 [K2 K3]]. pose proof (c_read vst (u_V m) T P Hv).
  pose proof (sqrt_lt_R0 T HT) as Sq.
  assert (A : carries (aT m T) (fun t p => u_a m - 10 * u_a m / sqrt t) T P) by (unfold aT; cs; lra).
  assert (B : carries (ts_pow_d (kb P) 2) (fun t p => (p / 100000 / 1000) ^ 2) T P) by (apply c_pown; [lia|cbn; lra|assumption]).
  assert (C : carries (ts_pow_d (slack m T) 3) (fun t p => (1 - c15 * (t - u_T m)) ^ 3) T P) by (apply c_pown; [lia|cbn; lra|assumption]).
  unfold dcpT, mur_c; cs.
  - apply Rmult_integral_contrapositive_currified; lra.
  - exact Hs.
  - apply Rmult_integral_contrapositive_currified; [now apply pow_nonzero|exact Hk].
Qed.
Lemma mur_test : (neqb (val (ts_sub_d (Pbar P) (u_P m))) 0 || neqb (val (dTm m T)) 0) && gtb (Rabs (val vst)) (/ 1000000000) && gtb (Rabs (u_a m)) (/ 1000000000) && gtb (Rabs (u_k m)) (/ 1000000000) = mur_on m T (P / 100000).
Proof.
  unfold mur_on. rewrite (proj1 Hv), (proj1 m_dT). replace (val (ts_sub_d (Pbar P) (u_P m))) with (P / 100000 - u_P m); [reflexivity|]. unfold ts_sub_d, ctor5. cbn [val]. now rewrite val_bar.
Qed.
Theorem murnaghan_carries : forall r f, carries5 r f T P -> mur_on m T (P / 100000) = true ->
  carries7 (murnaghanTS m vst T P r) (fun t p => murnaghan m t (p / 100000) (f t p)) T P.
Proof.
  intros r f [A [B [C [D E]]]] On. unfold murnaghanTS. rewrite mur_test, On.
  apply (seven_loc _ (fun t p => with_UA (mG (f t p) + mur_g m t (p / 100000)) (mH (f t p) + mur_h m t (p / 100000)) (mS (f t p) + mur_s m t (p / 100000)) (mV (f t p) + mur_v m t (p / 100000)) (mCp (f t p) + mur_c m t (p / 100000)) t (p / 100000))).
  - generalize (on_loc_T m T (P / 100000) On). apply filter_imp. intros t Ht. unfold murnaghan. rewrite Ht. reflexivity.
  - generalize (bar_loc P _ (on_loc_P m T (P / 100000) On)). apply filter_imp. intros p Hp. unfold murnaghan. rewrite Hp. reflexivity.
  - pose proof m_g. pose proof m_h. pose proof m_s. pose proof m_v. pose proof m_c.
    apply (withUA_carries _ _ _ _ _ (fun t p => mG (f t p) + mur_g m t (p / 100000)) (fun t p => mH (f t p) + mur_h m t (p / 100000)) (fun t p => mS (f t p) + mur_s m t (p / 100000)) (fun t p => mV (f t p) + mur_v m t (p / 100000)) (fun t p => mCp (f t p) + mur_c m t (p / 100000))); cs.
Qed.
End Mur.
(** one of the parameters too small: constant volume *)
Lemma mur_small : forall m T P, Rabs (u_V m) <= / 1000000000 \/ Rabs (u_a m) <= / 1000000000 \/ Rabs (u_k m) <= / 1000000000 -> mur_on m T P = false.
Proof.
  intros m T P H. unfold mur_on. destruct (_ || _); [|reflexivity]. cbn [andb]. unfold gtb.
  destruct H as [H|[H|H]]; repeat match goal with |- context [Rlt_dec ?a ?b] => destruct (Rlt_dec a b); [|reflexivity] || (cbn [andb]; try reflexivity) end; cbn; try reflexivity; lra.
Qed.
Theorem murnaghan_constant_carries : forall m vst T P r f, read_value vst (u_V m) -> carries5 r f T P ->
  Rabs (u_V m) <= / 1000000000 \/ Rabs (u_a m) <= / 1000000000 \/ Rabs (u_k m) <= / 1000000000 ->
  carries7 (murnaghanTS m vst T P r) (fun t p => murnaghan m t (p / 100000) (f t p)) T P.
Proof.
  intros m vst T P r f Hv [A [B [C [D E]]]] Off. unfold murnaghanTS. rewrite (mur_test m vst T P Hv), (mur_small m T _ Off). pose proof (c_read vst (u_V m) T P Hv) as K.
  apply (seven_loc _ (fun t p => with_UA (mG (f t p) + u_V m * (p / 100000 - u_P m)) (mH (f t p) + u_V m * (p / 100000 - u_P m)) (mS (f t p)) (u_V m) (mCp (f t p)) t (p / 100000))).
  - apply all_loc. intro t. unfold murnaghan. now rewrite (mur_small m t _ Off).
  - apply all_loc. intro p. unfold murnaghan. now rewrite (mur_small m T _ Off).
  - apply (withUA_carries _ _ _ _ _ (fun t p => mG (f t p) + u_V m * (p / 100000 - u_P m)) (fun t p => mH (f t p) + u_V m * (p / 100000 - u_P m)) (fun t p => mS (f t p)) (fun t p => u_V m) (fun t p => mCp (f t p))); cs.
Qed.
