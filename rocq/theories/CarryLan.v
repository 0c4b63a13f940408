(** Landau, the gas wrappers and applyPressure: what the results carry. *)
From Coq Require Import Bool Reals Lra Lia String.
From Coquelicot Require Import Coquelicot.
From Verif Require Import ThermoScalarModel ThermoScalarSpec ThermoScalarProofs MineralModel MineralProofs CarryModel CarrySpec CarryPf CarryMin.
Open Scope R_scope.

Lemma smax_p : forall l, 0 < smax l.
Proof. intro l. unfold smax. destruct (Rle_dec (l_S l) 0); [apply Rinv_0_lt_compat, pow_lt; lra|lra]. Qed.
Section Lan.
Variables (l : lanpar) (T P : R).
Hypothesis HT : 0 < T.
Hypothesis Hne : T <> tcr l (P / 100000).
Hypothesis Hk : l_k l <> 0.
Hypothesis Hs : 1 - c15 * (T - l_T l) <> 0.
Hypothesis Hw : 0 < w4 (lkT l T) (P / 100000).
Lemma l_tcr : carries (tcrT l P) (fun t p => tcr l (p / 100000)) T P.
Proof. unfold tcrT, tcr. destruct (Req_EM_T (l_V l) 0); cs. Qed.
Lemma below_eq : below l T P = if Rlt_dec T (tcr l (P / 100000)) then true else false.
Proof. unfold below. rewrite (proj1 l_tcr). reflexivity. Qed.
Lemma lkT_nz : lkT l T <> 0. Proof. unfold lkT. now apply Rmult_integral_contrapositive_currified. Qed.
Lemma l_dT : carries (dTl l T) (fun t p => t - l_T l) T P. Proof. unfold dTl; cs. Qed.
Lemma l_kb : carries (kbl P) (fun t p => p / 100000 / 1000) T P. Proof. unfold kbl; cs; lra. Qed.
Lemma l_slack : carries (slackl l T) (fun t p => 1 - c15 * (t - l_T l)) T P. Proof. pose proof l_dT. unfold slackl; cs. Qed.
Lemma l_kT : carries (kTl l T) (fun t p => lkT l t) T P. Proof. pose proof l_slack. unfold kTl, lkT; cs. Qed.
Lemma l_vb : carries (vbl l T) (fun t p => lvb l t) T P. Proof. pose proof l_dT. unfold vbl, lvb; cs. exact HT. Qed.
Lemma l_w4 : carries (w4l l T P) (fun t p => w4 (lkT l t) (p / 100000)) T P. Proof. pose proof l_kT. pose proof l_kb. unfold w4l, w4; cs. exact lkT_nz. Qed.
Lemma l_p : forall c, carries (ts_pow_d (w4l l T P) c) (fun t p => Rpower (w4 (lkT l t) (p / 100000)) c) T P.
Proof. intro c. apply c_pow; [exact l_w4|exact Hw]. Qed.
Lemma l_p34 : carries (p34l l T P) (fun t p => Rpower (w4 (lkT l t) (p / 100000)) (3 / 4) - 1) T P. Proof. pose proof (l_p (3 / 4)). unfold p34l; cs. Qed.
Lemma l_ivdp : carries (ivdpl l T P) (fun t p => livdp l t (p / 100000)) T P. Proof. pose proof l_vb. pose proof l_kT. pose proof l_p34. unfold ivdpl, livdp; cs; lra. Qed.
Lemma l_idv : carries (idvl l T P) (fun t p => lidv l t (p / 100000)) T P.
Proof.
  pose proof l_vb. pose proof l_kT. pose proof l_p34. pose proof l_kb. pose proof l_slack. pose proof (l_p (- (1 / 4))). destruct (half_carries T P HT) as [_ [K _]].
  unfold idvl, lidv; cs; lra || exact Hs.
Qed.
Lemma lt_loc : forall b : bool, (if Rlt_dec T (tcr l (P / 100000)) then true else false) = b ->
  locally T (fun t => (if Rlt_dec t (tcr l (P / 100000)) then true else false) = b) /\ locally P (fun p => (if Rlt_dec T (tcr l (p / 100000)) then true else false) = b).
Proof.
  intros b E.
  assert (D1 : is_derive (fun t : R => tcr l (P / 100000) - t) T (-1)) by (auto_derive; [exact I|ring]).
  assert (D2 : is_derive (fun p : R => tcr l (p / 100000) - T) P (ddp (tcrT l P) - 0)) by (apply (is_derive_minus (fun p : R => tcr l (p / 100000)) (fun _ : R => T)); [exact (proj2 (proj2 l_tcr))|exact (is_derive_const (K:=R_AbsRing) (V:=R_NormedModule) T P)]).
  destruct (Rlt_dec T (tcr l (P / 100000))) as [H|H]; subst b.
  - split.
    + assert (Q : 0 < tcr l (P / 100000) - T) by lra. generalize (d_pos _ T _ D1 Q). apply filter_imp. intros t Ht. destruct (Rlt_dec t (tcr l (P / 100000))); [reflexivity|lra].
    + assert (Q : 0 < tcr l (P / 100000) - T) by lra. generalize (d_pos _ P _ D2 Q). apply filter_imp. intros p Hp. destruct (Rlt_dec T (tcr l (p / 100000))); [reflexivity|lra].
  - assert (Q : 0 < - (tcr l (P / 100000) - T)) by lra. split.
    + assert (D1' : is_derive (fun t : R => - (tcr l (P / 100000) - t)) T (- -1)) by (apply (is_derive_opp (fun t : R => tcr l (P / 100000) - t)); exact D1).
      generalize (d_pos _ T _ D1' Q). apply filter_imp. intros t Ht. destruct (Rlt_dec t (tcr l (P / 100000))); [lra|reflexivity].
    + assert (D2' : is_derive (fun p : R => - (tcr l (p / 100000) - T)) P (- (ddp (tcrT l P) - 0))) by (apply (is_derive_opp (fun p : R => tcr l (p / 100000) - T)); exact D2).
      generalize (d_pos _ P _ D2' Q). apply filter_imp. intros p Hp. destruct (Rlt_dec T (tcr l (p / 100000))); [lra|reflexivity].
Qed.
(** functions that look at the branch *)
Lemma branch : forall x (f g : R -> R -> R), (if Rlt_dec T (tcr l (P / 100000)) then carries x f T P else carries x g T P) ->
  carries x (fun t p => if Rlt_dec t (tcr l (p / 100000)) then f t p else g t p) T P.
Proof.
  intros x f g H. destruct (lt_loc _ eq_refl) as [L1 L2]. destruct (Rlt_dec T (tcr l (P / 100000))) as [N|N]; (eapply c_ext_loc; [| |exact H]);
    [revert L1|revert L2|revert L1|revert L2]; apply filter_imp; intros t Ht; cbv beta; destruct (Rlt_dec _ _); discriminate || reflexivity.
Qed.
Lemma l_qq : carries (qqT l T P) (fun t p => qq l t (p / 100000)) T P /\ carries (dqqT l T P) (fun t p => dqq l t (p / 100000)) T P.
Proof.
  pose proof l_tcr as K. unfold qqT, dqqT. rewrite below_eq. unfold qq, dqq. split; apply branch; (destruct (Rlt_dec T (tcr l (P / 100000))) as [H|H]; [|apply c_assign]).
  - assert (Q : 0 < 1 - T / tcr l (P / 100000)) by (assert (T / tcr l (P / 100000) < 1); [apply (Rmult_lt_reg_r (tcr l (P / 100000))); [lra|]; unfold Rdiv; rewrite Rmult_assoc, Rinv_l by lra; lra|lra]).
    assert (C : carries (d_sub_ts 1 (ts_div (TK T) (tcrT l P))) (fun t p => 1 - t / tcr l (p / 100000)) T P) by (cs; lra).
    destruct (c_loc _ _ T P C Q) as [L1 L2]. apply (c_ext_loc _ (fun t p => Rpower (1 - t / tcr l (p / 100000)) (1 / 4))).
    + revert L1. apply filter_imp. intros t Ht. unfold root4. destruct (Rlt_dec 0 _); [reflexivity|contradiction].
    + revert L2. apply filter_imp. intros t Ht. unfold root4. destruct (Rlt_dec 0 _); [reflexivity|contradiction].
    + apply c_pow; assumption.
  - assert (Q : 0 < 1 + T / tcr l (P / 100000)) by (assert (0 < T / tcr l (P / 100000)) by (apply Rdiv_lt_0_compat; lra); lra).
    assert (C : carries (d_add_ts 1 (ts_div (TK T) (tcrT l P))) (fun t p => 1 + t / tcr l (p / 100000)) T P) by (cs; lra).
    pose proof (c_pow (3 / 4) _ _ T P C Q) as C1. assert (C2 : carries (ts_pow_d (tcrT l P) 2) (fun t p => tcr l (p / 100000) ^ 2) T P) by (apply c_pown; [lia|cbn; lra|exact K]).
    eapply c_ext; cycle 1; [cs|intros t p; cbv beta; reflexivity].
    pose proof (smax_p l). assert (0 < Rpower (1 + T / tcr l (P / 100000)) (3 / 4)) by apply exp_pos. assert (0 < tcr l (P / 100000) ^ 2) by (apply pow_lt; lra). cbv beta.
    apply Rgt_not_eq. repeat apply Rmult_lt_0_compat; lra.
Qed.
Lemma l_c : forall c f, carries c f T P -> carries (if below l T P then ip_add c (ts_div (ts_mul_d (TK T) (smax l)) (ts_mul (d_mul_ts 2 (ts_sqrt (tcrT l P))) (ts_sqrt (ts_sub (tcrT l P) (TK T))))) else c)
  (fun t p => f t p + lan_c l t (p / 100000)) T P.
Proof.
  intros c f Hc. pose proof l_tcr as K. rewrite below_eq. unfold lan_c.
  apply (c_ext _ (fun t p => if Rlt_dec t (tcr l (p / 100000)) then f t p + t * smax l / (2 * sqrt (tcr l (p / 100000)) * sqrt (tcr l (p / 100000) - t)) else f t p)).
  - intros t p. destruct (Rlt_dec t (tcr l (p / 100000))); ring.
  - apply branch. destruct (Rlt_dec T (tcr l (P / 100000))) as [H|H]; [|exact Hc].
    assert (S1 : 0 < sqrt (tcr l (P / 100000))) by (apply sqrt_lt_R0; lra). assert (S2 : 0 < sqrt (tcr l (P / 100000) - T)) by (apply sqrt_lt_R0; lra).
    cs; try lra. apply Rgt_not_eq. repeat apply Rmult_lt_0_compat; lra.
Qed.
Theorem landau_carries : forall r f, carries5 r f T P -> carries7 (landauTS l T P r) (fun t p => landau l t (p / 100000) (f t p)) T P.
Proof.
  intros r f [A [B [C [D E]]]]. pose proof l_tcr as K. pose proof l_ivdp as K1. pose proof l_idv as K2. pose proof l_vb as K3. destruct l_qq as [Kq Kd]. pose proof (l_c _ _ E) as Kc. pose proof (smax_p l) as Sp.
  assert (G : forall g s h v, carries g (fun t p => lan_g l t (p / 100000)) T P -> carries s (fun t p => lan_s l t (p / 100000)) T P -> carries h (fun t p => lan_h l t (p / 100000)) T P -> carries v (fun t p => lan_v l t (p / 100000)) T P ->
    carries7 (withUA (ip_add (tG r) g) (ip_add (tH r) h) (ip_add (tS r) s) v (if below l T P then ip_add (tC r) (ts_div (ts_mul_d (TK T) (smax l)) (ts_mul (d_mul_ts 2 (ts_sqrt (tcrT l P))) (ts_sqrt (ts_sub (tcrT l P) (TK T))))) else tC r) T P)
    (fun t p => landau l t (p / 100000) (f t p)) T P).
  { intros g s h v Hg Hs' Hh Hv. apply (withUA_carries _ _ _ _ _ (fun t p => mG (f t p) + lan_g l t (p / 100000)) (fun t p => mH (f t p) + lan_h l t (p / 100000)) (fun t p => mS (f t p) + lan_s l t (p / 100000)) (fun t p => lan_v l t (p / 100000)) (fun t p => mCp (f t p) + lan_c l t (p / 100000))); try exact Kc; cs. }
  unfold landauTS. destruct (is0 (val (qqT l T P)) && is0 (val (dqqT l T P))) eqn:Z.
  - (* above the transition *)
    assert (N : ~ T < tcr l (P / 100000)).
    { intro H. apply andb_prop in Z. destruct Z as [Z _]. rewrite (proj1 Kq) in Z. unfold qq, is0 in Z. destruct (Rlt_dec T (tcr l (P / 100000))); [|contradiction].
      assert (Q : 0 < 1 - T / tcr l (P / 100000)) by (assert (T / tcr l (P / 100000) < 1); [apply (Rmult_lt_reg_r (tcr l (P / 100000))); [lra|]; unfold Rdiv; rewrite Rmult_assoc, Rinv_l by lra; lra|lra]).
      unfold root4 in Z. destruct (Rlt_dec 0 (1 - T / tcr l (P / 100000))); [|contradiction]. assert (0 < Rpower (1 - T / tcr l (P / 100000)) (1 / 4)) by apply exp_pos. destruct (Req_EM_T _ 0); [lra|discriminate]. }
    assert (L : locally T (fun t => qq l t (P / 100000) = 0 /\ dqq l t (P / 100000) = 0) /\ locally P (fun p => qq l T (p / 100000) = 0 /\ dqq l T (p / 100000) = 0)).
    { destruct (lt_loc false) as [L1 L2]; [destruct (Rlt_dec T (tcr l (P / 100000))); [contradiction|reflexivity]|]. split; [revert L1|revert L2]; apply filter_imp; intros t Ht; unfold qq, dqq; destruct (Rlt_dec _ _); discriminate || (split; reflexivity). }
    destruct L as [L1 L2]. cbv iota beta. apply G.
    + unfold lanG0, lan_g. eapply c_ext_loc; cycle 2; [cs; lra| |]; [revert L1|revert L2]; apply filter_imp; intros t [E1 E2]; cbv beta; rewrite E1; ring.
    + unfold lanS0, lan_s. eapply c_ext_loc; cycle 2; [cs; lra| |]; [revert L1|revert L2]; apply filter_imp; intros t [E1 E2]; cbv beta; rewrite E1; ring.
    + unfold lanH0, lan_h. eapply c_ext_loc; cycle 2; [cs; lra| |]; [revert L1|revert L2]; apply filter_imp; intros t [E1 E2]; cbv beta; rewrite E1; field.
    + unfold lanV0, lan_v. eapply c_ext_loc; cycle 2; [cs; lra| |]; [revert L1|revert L2]; apply filter_imp; intros t [E1 E2]; cbv beta; rewrite E1, E2; field; lra.
  - assert (Q2 : carries (ts_pow_d (qqT l T P) 2) (fun t p => qq l t (p / 100000) ^ 2) T P) by (apply c_pown; [lia|cbn; lra|exact Kq]).
    assert (Q3 : carries (ts_pow_d (qqT l T P) 3) (fun t p => qq l t (p / 100000) ^ 3) T P) by (apply c_pown; [lia|cbn; lra|exact Kq]).
    assert (Q6 : carries (ts_pow_d (qqT l T P) 6) (fun t p => qq l t (p / 100000) ^ 6) T P) by (apply c_pown; [lia|cbn; lra|exact Kq]).
    cbv iota beta. apply G.
    + unfold lanG_, lan_g. cs; lra.
    + unfold lanS_, lan_s. cs; lra.
    + unfold lanH_, lan_h. cs; lra.
    + unfold lanV_, lan_v. cs; lra.
Qed.
End Lan.

(** *** gases *)
(** a constant volume step carries *)
Theorem apply_carries : forall pr T P r G H S0 V C, carries (tG r) G T P -> carries (tH r) H T P -> carries (tS r) S0 T P -> carries (tV r) V T P -> carries (tC r) C T P ->
  carries7 (applyPressureTS pr T P r) (fun t p => with_UA (G t p + V t p * (p / 100000 - pr / 100000)) (H t p + V t p * (p / 100000 - pr / 100000)) (S0 t p) (V t p) (C t p) t (p / 100000)) T P.
Proof.
  intros pr T P r G H S0 V C A B C0 D E. unfold applyPressureTS. cbv zeta.
  apply (withUA_carries _ _ _ _ _ (fun t p => G t p + V t p * (p / 100000 - pr / 100000)) (fun t p => H t p + V t p * (p / 100000 - pr / 100000)) S0 V C); cs.
Qed.
(** the wrappers of the fluids: residual enthalpy and entropy and the volume come as doubles *)
Theorem gas_carried : forall Rc phi h s v T P r, ddt (tH (gasTS Rc phi h s v T P r)) = ddt (tH r) /\ ddp (tH (gasTS Rc phi h s v T P r)) = ddp (tH r) /\
  ddt (tS (gasTS Rc phi h s v T P r)) = ddt (tS r) /\ ddt (tV (gasTS Rc phi h s v T P r)) = 0 /\ ddp (tV (gasTS Rc phi h s v T P r)) = 0.
Proof. intros. repeat split. Qed.
Theorem gas_not_carried : forall Rc (phi h s v : R -> R -> R) T P r f dh, carries (tH r) (fun t p => mH (f t p)) T P -> is_derive (fun t : R => h t P) T dh -> dh <> 0 ->
  val (tH (gasTS Rc (phi T P) (h T P) (s T P) (v T P) T P r)) = mH (f T P) + h T P /\
  ~ is_derive (fun t : R => mH (f t P) + h t P) T (ddt (tH (gasTS Rc (phi T P) (h T P) (s T P) (v T P) T P r))).
Proof.
  intros Rc phi h s v T P r f dh [A [B C]] D N. split; [cbn; rewrite A; reflexivity|]. intro K. cbn in K.
  assert (K2 : is_derive (fun t : R => mH (f t P) + h t P) T (ddt (tH r) + dh)) by (apply (is_derive_plus (fun t : R => mH (f t P)) (fun t : R => h t P)); assumption).
  apply is_derive_unique in K, K2. lra.
Qed.
Theorem gas_volume_not_carried : forall Rc (phi h s v : R -> R -> R) T P r dv, is_derive (fun p : R => v T p) P dv -> dv <> 0 ->
  val (tV (gasTS Rc (phi T P) (h T P) (s T P) (v T P) T P r)) = v T P /\ ~ is_derive (fun p : R => v T p) P (ddp (tV (gasTS Rc (phi T P) (h T P) (s T P) (v T P) T P r))).
Proof. intros Rc phi h s v T P r dv D N. split; [reflexivity|]. intro K. cbn in K. apply is_derive_unique in K, D. lra. Qed.
(** the fugacity cancels out of the Gibbs energy and of its derivatives *)
Theorem gas_gibbs : forall Rc phi h s v T P r G, 0 < phi -> P <> 0 -> carries (tG r) G T P -> carries (tG (gasTS Rc phi h s v T P r)) G T P.
Proof.
  intros Rc phi h s v T P r G Hp Hn H. unfold gasTS. cbn [tG].
  assert (B : P / 100000 <> 0) by (apply Rmult_integral_contrapositive_currified; lra).
  assert (L : carries (ts_log (ts_div (d_mul_ts phi (Pbar P)) (Pbar P))) (fun t p => ln (phi * (p / 100000) / (p / 100000))) T P).
  { cs; [exact B|]. replace (phi * (P / 100000) / (P / 100000)) with phi by (field; exact Hn). exact Hp. }
    apply (c_ext_loc _ (fun t p => G t p + Rc * t * ln phi - Rc * t * ln (phi * (p / 100000) / (p / 100000)))); cycle 2.
  - clear - H L. generalize dependent (ts_log (ts_div (d_mul_ts phi (Pbar P)) (Pbar P))). intros x L. cs.
  - apply all_loc. intro t. cbv beta. replace (phi * (P / 100000) / (P / 100000)) with phi by (field; exact Hn). ring.
  - generalize (away P 0 Hn). apply filter_imp. intros p Hq. cbv beta. replace (phi * (p / 100000) / (p / 100000)) with phi by (field; exact Hq). ring.
Qed.
