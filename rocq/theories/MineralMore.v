(** Proofs about the Birch-Murnaghan model and the places where the mineral models are not consistent. *)
From Coq Require Import List Bool Reals Lra Lia.
From Coquelicot Require Import Coquelicot.
From Verif Require Import RDeriv MineralModel MineralSpec MineralProofs.
Import ListNotations.
Open Scope R_scope.

Section BMcurve.
Variables vt k kp kpp v : R.
Hypothesis Ht : 0 < vt.
Hypothesis Hv : 0 < v.
Definition yy (u : R) : R := Rpower (vt / u) (1 / 3).
Lemma y_pos : forall u, 0 < yy u. Proof. intros. apply exp_pos. Qed.
Lemma y_2 : forall u, Rpower (vt / u) (2 / 3) = yy u ^ 2.
Proof. intros u. unfold yy. rewrite <- Rpower_pow by apply exp_pos. rewrite Rpower_mult. f_equal. cbn. lra. Qed.
Lemma y_5 : forall u, Rpower (vt / u) (5 / 3) = yy u ^ 5.
Proof. intros u. unfold yy. rewrite <- Rpower_pow by apply exp_pos. rewrite Rpower_mult. f_equal. cbn. lra. Qed.
Lemma y_3 : forall u, 0 < u -> vt = u * yy u ^ 3.
Proof.
  intros u Hu. unfold yy. rewrite <- Rpower_pow by apply exp_pos. rewrite Rpower_mult. replace (1 / 3 * INR 3) with 1 by (cbn; lra).
  rewrite Rpower_1 by (apply Rdiv_lt_0_compat; assumption). field. lra.
Qed.
Lemma y_d : is_derive yy v (- yy v / (3 * v)).
Proof.
  unfold yy. assert (Hp : 0 < vt / v) by (apply Rdiv_lt_0_compat; assumption). eapply d_eq.
  - apply (d_Rpower (fun u => vt / u)); [|exact Hp]. unfold Rdiv. apply d_scal. apply (d_inv (fun u => u)); [apply d_id|lra].
  - cbv beta. rewrite Rpower_m1 by exact Hp. field. split; lra.
Qed.
Lemma bm_p_y : forall u, bm_p vt k kp kpp u =
  3 / 2 * k * (1 + 3 / 4 * (kp - 4) * (yy u ^ 2 - 1) + 3 / 8 * (143 / 9 - 7 * kp + kp * kp + kpp * k) * (yy u ^ 2 - 1) * (yy u ^ 2 - 1)) * (yy u ^ 2 - 1) * yy u ^ 5.
Proof. intros u. unfold bm_p. rewrite y_2, y_5. reflexivity. Qed.
Lemma bm_p_d : is_derive (bm_p vt k kp kpp) v (bm_dp vt k kp kpp v).
Proof.
  apply (d_ext (fun u => (fun y => 3 / 2 * k * (1 + 3 / 4 * (kp - 4) * (y ^ 2 - 1) + 3 / 8 * (143 / 9 - 7 * kp + kp * kp + kpp * k) * (y ^ 2 - 1) * (y ^ 2 - 1)) * (y ^ 2 - 1) * y ^ 5) (yy u)));
    [intros u; symmetry; apply bm_p_y|].
  eapply d_eq.
  - apply (d_comp (fun y => 3 / 2 * k * (1 + 3 / 4 * (kp - 4) * (y ^ 2 - 1) + 3 / 8 * (143 / 9 - 7 * kp + kp * kp + kpp * k) * (y ^ 2 - 1) * (y ^ 2 - 1)) * (y ^ 2 - 1) * y ^ 5)).
    + auto_derive; [exact I|reflexivity].
    + apply y_d.
  - unfold bm_dp. rewrite y_2. fold (yy v). assert (E := y_3 v Hv). generalize dependent (yy v). intros y E. rewrite E. field. lra.
Qed.
Definition pint_y (y : R) : R := -3 * k * vt * (6 * (199 - 75 * kp + 9 * kp * kp + 9 * kpp * k) * y ^ 4
     + y ^ 6 * (-668 + kp * (276 - 63 * y ^ 2) + 9 * kp * kp * (-4 + y ^ 2) + 9 * kpp * k * (-4 + y ^ 2) + 143 * y ^ 2)
     + (287 + kp * kp * (9 - 36 * y ^ 2) + 9 * kpp * k * (1 - 4 * y ^ 2) - 956 * y ^ 2 + kp * (-87 + 324 * y ^ 2))) / 128.
Lemma bm_pint_y : forall u, 0 < u -> bm_pint vt k kp kpp u = pint_y (yy u).
Proof.
  intros u Hu. unfold bm_pint. rewrite y_2. fold (yy u). assert (E := y_3 u Hu). unfold pint_y. generalize dependent (yy u). intros y E. rewrite E. field. lra.
Qed.
(** the integral of the pressure over the volume *)
Lemma bm_pint_d : is_derive (bm_pint vt k kp kpp) v (bm_p vt k kp kpp v).
Proof.
  apply (d_ext_pos (fun u => pint_y (yy u)) _ _ _ Hv); [intros u Hu; symmetry; apply (bm_pint_y u Hu)|].
  eapply d_eq.
  - apply (d_comp pint_y yy); [|apply y_d]. unfold pint_y. auto_derive; [exact I|reflexivity].
  - rewrite bm_p_y. assert (E := y_3 v Hv). generalize dependent (yy v). intros y E. rewrite E. field. lra.
Qed.
Lemma bm_pint_0 : bm_pint vt k kp kpp vt = 0.
Proof.
  unfold bm_pint. replace (vt / vt) with 1 by (field; lra). unfold Rpower. rewrite ln_1, !Rmult_0_r, exp_0. field. lra.
Qed.
Lemma bm_p_0 : bm_p vt k kp kpp vt = 0.
Proof. unfold bm_p. replace (vt / vt) with 1 by (field; lra). unfold Rpower. rewrite ln_1, !Rmult_0_r, exp_0. field. Qed.
(** along the isotherm dG = V dP *)
Lemma bm_isotherm : forall Pref, is_derive (fun u => bm_int (bm_p vt k kp kpp u) Pref vt u k kp kpp) v (v * bm_dp vt k kp kpp v).
Proof.
  intros Pref. unfold bm_int. eapply d_eq.
  - apply d_minus; [apply d_plus; [apply d_const|apply d_mult; [exact bm_p_d|apply d_id]]|exact bm_pint_d].
  - cbv beta. ring.
Qed.
End BMcurve.
(** a start that solves the equation is returned as it is *)
Lemma newton_fix : forall n P vt k kp kpp d v, bm_p vt k kp kpp v = P -> bm_newton n P vt k kp kpp d v = v.
Proof.
  intros n P vt k kp kpp d v H. destruct n as [|n]; cbn [bm_newton]; [destruct (gtb _ _); reflexivity|].
  destruct (gtb (Rabs d) (/ 10 ^ 10)); [|reflexivity].
  replace (v - (bm_p vt k kp kpp v - P) / bm_dp vt k kp kpp v / 2) with v by (rewrite H; unfold Rdiv; ring).
  replace (v - v) with 0 by ring. assert (E : gtb (Rabs 0) (/ 10 ^ 10) = false).
  { unfold gtb. rewrite Rabs_R0. destruct (Rlt_dec (/ 10 ^ 10) 0) as [L|]; [|reflexivity]. exfalso. assert (0 < / 10 ^ 10) by (apply Rinv_0_lt_compat, pow_lt; lra). lra. }
  destruct n; cbn [bm_newton]; rewrite E; reflexivity.
Qed.
(** whatever is returned before the loop is exhausted was reached by a last step of at most 1e-10 *)
Lemma newton_stop : forall n P vt k kp kpp d v, exists m u e, (m <= n)%nat /\ bm_newton n P vt k kp kpp d v = u /\
  (m = n \/ e <= / 10 ^ 10) /\ (m = O -> u = v /\ e = Rabs d) /\
  ((0 < m)%nat -> exists u0, u = u0 - (bm_p vt k kp kpp u0 - P) / bm_dp vt k kp kpp u0 / 2 /\ e = Rabs (u - u0)).
Proof.
  induction n as [|n IH]; intros P vt k kp kpp d v.
  - exists O, v, (Rabs d). cbn [bm_newton]. split; [lia|]. split; [destruct (gtb _ _); reflexivity|]. split; [now left|]. split; [auto|]. intros H. inversion H.
  - cbn [bm_newton]. destruct (gtb (Rabs d) (/ 10 ^ 10)) eqn:G.
    + set (v' := v - (bm_p vt k kp kpp v - P) / bm_dp vt k kp kpp v / 2). destruct (IH P vt k kp kpp (v' - v) v') as (m & u & e & H1 & H2 & H3 & H4 & H5).
      exists (S m), u, e. split; [lia|]. split; [exact H2|]. split; [destruct H3 as [->|H3]; [now left|now right]|]. split; [discriminate|]. intros _.
      destruct m as [|m].
      * destruct (H4 eq_refl) as [-> ->]. exists v. split; reflexivity.
      * apply H5. lia.
    + exists O, v, (Rabs d). split; [lia|]. split; [reflexivity|]. split; [right|split; [auto|intros H; inversion H]].
      unfold gtb in G. destruct (Rlt_dec (/ 10 ^ 10) (Rabs d)); [discriminate|lra].
Qed.
(** entropy of opposite sign, for any solver whose result does not depend on the start *)
Lemma bm_s_sign : forall solve b Pref Tref v0 T P dG,
  (forall P vt k kp kpp s s', solve P vt k kp kpp s = solve P vt k kp kpp s') -> bm_given b = false ->
  (forall t, T - 1 / 10 <= t <= T + 1 / 10 -> is_derive (fun t => bm_g solve b Pref Tref v0 t P) t (dG t)) ->
  exists x, T - 1 / 10 <= x <= T + 1 / 10 /\ bm_s solve b Pref Tref v0 T P = dG x.
Proof.
  intros solve b Pref Tref v0 T P dG Hs Hg HD.
  assert (E : forall t', bm_ginc solve b Pref Tref v0 T P t' = bm_g solve b Pref Tref v0 t' P).
  { intros t'. unfold bm_ginc, bm_g, bm_vinc, bm_vv, bm_kpp_inc, bm_kpp. rewrite Hg. erewrite (Hs _ _ _ _ _ _ (bm_vt b Tref v0 t' * _)). reflexivity. }
  destruct (MVT_gen (fun t => bm_g solve b Pref Tref v0 t P) (T - 1 / 10) (T + 1 / 10) dG) as (x & Hx & He).
  - intros x Hx. rewrite Rmin_left, Rmax_right in Hx by lra. apply HD. lra.
  - intros x Hx. rewrite Rmin_left, Rmax_right in Hx by lra. apply derivable_continuous_pt. exists (dG x). apply is_derive_Reals. apply HD. lra.
  - exists x. rewrite Rmin_left, Rmax_right in Hx by lra. split; [exact Hx|]. unfold bm_s. rewrite !E. rewrite He. field.
Qed.
(** the volume reported at zero pressure without thermal expansion: twice the reference volume *)
Definition bm_quiet (V0 : R) : list R := [0; 0; 0; 0; 0; 50000; 0; 4; 0].
Lemma bm_volume_twice : forall V0 Tst T t, 0 < V0 -> T <> Tst -> exists r, bm_gottschalk (bm_quiet V0) V0 Tst 0 T 0 t = BmOk r /\ mV r = mV t + 2 * V0.
Proof.
  intros V0 Tst T t HV HT. eexists. split.
  - unfold bm_gottschalk, bm_quiet. cbn [length Nat.ltb Nat.leb bm_read]. replace (neqb (T - Tst) 0) with true; [rewrite orb_true_r; reflexivity|].
    unfold neqb. destruct (Req_EM_T (T - Tst) 0); [lra|reflexivity].
  - unfold with_UA. cbn [mV]. unfold bm_vv, bm_volume.
    assert (Ev : bm_vt (mkBM 0 0 0 50000 0 4 0) Tst (V0 * 10) T = V0 * 10).
    { unfold bm_vt. cbn [g_1 g_2 g_3]. rewrite <- (Rmult_1_r (V0 * 10)) at 2. f_equal. rewrite <- exp_0. f_equal. unfold Rdiv. ring. }
    rewrite Ev. replace (- 1 / bm_k (mkBM 0 0 0 50000 0 4 0) Tst T * (0 / 10 - 0 / 10)) with 0 by (unfold Rdiv; ring). rewrite exp_0, Rmult_1_r.
    rewrite newton_fix; [field|]. rewrite bm_p_0 by lra. field.
Qed.
Lemma bm_eight : forall a1 a2 a3 a4 a5 k d kp V0 Tst Pst T P t, T <> Tst -> bm_gottschalk [a1; a2; a3; a4; a5; k; d; kp] V0 Tst Pst T P t = BmUB.
Proof.
  intros. unfold bm_gottschalk. cbn [length Nat.ltb Nat.leb bm_read]. replace (neqb (T - Tst) 0) with true; [rewrite orb_true_r; reflexivity|].
  unfold neqb. destruct (Req_EM_T (T - Tst) 0); [lra|reflexivity].
Qed.

(** *** The places where the models are not consistent *)
Definition zero_mp : R -> R -> mprop := fun _ _ => mkMP 0 0 0 0 0 0 0.
Lemma zero_consistent : forall T P, consistent zero_mp T P.
Proof.
  intros T P. split; [|split; [|split]].
  - unfold cons_S, zero_mp. cbn. eapply d_eq; [apply d_const|ring].
  - unfold cons_V, zero_mp. cbn. apply d_const.
  - unfold cons_H, zero_mp. cbn. ring.
  - unfold cons_C, zero_mp. cbn. eapply d_eq; [apply d_const|]. unfold Rdiv. ring.
Qed.
(** Murnaghan: at the reference point the function jumps *)
Lemma mur_ref_jump : forall m, u_V m <> 0 -> u_k m <> 0 -> 0 < w4 (u_k m) (u_P m) -> u_P m <> 0 ->
  mG (murnaghan m (u_T m) (u_P m) (zero_mp 0 0)) = 0 /\ mur_g m (u_T m) (u_P m) <> 0.
Proof.
  intros m HV Hk Hw HP. split.
  - unfold murnaghan, mur_on. replace (u_P m - u_P m) with 0 by ring. replace (u_T m - u_T m) with 0 by ring.
    unfold neqb. destruct (Req_EM_T 0 0); [|lra]. cbn. ring.
  - unfold mur_g, vt, kap. replace (u_T m - u_T m) with 0 by ring. replace (sqrt (u_T m) - sqrt (u_T m)) with 0 by ring.
    replace (u_k m * (1 - c15 * 0)) with (u_k m) by ring. intros E.
    assert (Hne : Rpower (w4 (u_k m) (u_P m)) (3 / 4) <> 1).
    { intros H. assert (L : ln (Rpower (w4 (u_k m) (u_P m)) (3 / 4)) = 0) by (rewrite H; apply ln_1). unfold Rpower in L. rewrite ln_exp in L.
      assert (L0 : ln (w4 (u_k m) (u_P m)) = 0) by lra. assert (Ew : w4 (u_k m) (u_P m) = 1) by (rewrite <- (exp_ln _ Hw), L0; apply exp_0).
      unfold w4 in Ew. apply HP. assert (E2 : 4 * (u_P m / 1000) / u_k m = 0) by lra. assert (E3 : u_P m = (4 * (u_P m / 1000) / u_k m) * u_k m * 250) by (field; exact Hk). rewrite E2 in E3. lra. }
    assert (Hprod : 1 / 3 * u_V m * u_k m * 1000 * (Rpower (w4 (u_k m) (u_P m)) (3 / 4) - 1) = 0) by (rewrite <- E; ring).
    apply Rmult_integral in Hprod. destruct Hprod as [Hp|Hp]; [|lra].
    apply Rmult_integral in Hp. destruct Hp as [Hp|Hp]; [|lra]. apply Rmult_integral in Hp. destruct Hp as [Hp|Hp]; [|contradiction]. apply Rmult_integral in Hp. destruct Hp; [lra|contradiction].
Qed.
(** Landau above the transition: the derivatives of the Gibbs energy and entropy increments *)
Lemma super_P : forall l T P, tcr l P < T -> locally P (fun p => tcr l p < T).
Proof.
  intros l T P H. unfold tcr in *. destruct (Req_EM_T (l_V l) 0) as [E|E]; [apply all_loc; intros; exact H|].
  set (s := l_V l / smax l) in *. assert (He : 0 < (T - (l_Tc l + s * P + C_to_K)) / (1 + Rabs s)) by (apply Rdiv_lt_0_compat; [lra|generalize (Rabs_pos s); lra]).
  exists (mkposreal _ He). intros p Hp. unfold ball in Hp; cbn in Hp. unfold AbsRing_ball, abs, minus, plus, opp in Hp; cbn in Hp.
  assert (Hs : 0 < 1 + Rabs s) by (generalize (Rabs_pos s); lra).
  assert (H1 : Rabs (p + - P) * (1 + Rabs s) < T - (l_Tc l + s * P + C_to_K)).
  { apply (Rmult_lt_compat_r (1 + Rabs s)) in Hp; [|exact Hs]. unfold Rdiv in Hp. rewrite Rmult_assoc, Rinv_l, Rmult_1_r in Hp by lra. exact Hp. }
  assert (H2 : s * (p - P) <= Rabs s * Rabs (p + - P)) by (rewrite <- Rabs_mult; apply Rle_abs).
  generalize (Rabs_pos (p + - P)). intros. nra.
Qed.
Lemma super_T : forall (c T : R), c < T -> locally T (fun t => c < t).
Proof.
  intros c T H. assert (He : 0 < T - c) by lra. exists (mkposreal _ He). intros t Ht. unfold ball in Ht; cbn in Ht. unfold AbsRing_ball, abs, minus, plus, opp in Ht; cbn in Ht.
  apply Rabs_def2 in Ht. lra.
Qed.
Lemma qq_super : forall l T P, tcr l P < T -> qq l T P = 0.
Proof. intros l T P H. unfold qq. destruct (Rlt_dec T (tcr l P)); [lra|reflexivity]. Qed.
Lemma lan_super_P : forall l T P, l_k l <> 0 -> 1 - c15 * (T - l_T l) <> 0 -> 0 < w4 (lkT l T) P -> tcr l P < T ->
  is_derive (fun p => lan_g l T p) P (mur_v (mur_of l) T P).
Proof.
  intros l T P Hk Hb Hw H. apply is_derive_ext_loc with (fun p => (lsmq l - T * smax l * q298 l ^ 2) + mur_g (mur_of l) T p).
  - generalize (super_P l T P H). apply filter_imp. intros p Hp. unfold lan_g. rewrite livdp_of, (qq_super _ _ _ Hp). cbn. unfold Rdiv. ring.
  - eapply d_eq; [apply d_plus; [apply d_const|apply mur_g_P; assumption]|]. ring.
Qed.
Lemma lan_super_T : forall l T P, 0 < T -> l_k l <> 0 -> 1 - c15 * (T - l_T l) <> 0 -> 0 < w4 (lkT l T) P -> tcr l P < T ->
  is_derive (fun t => lan_s l t P) T (mur_c (mur_of l) T P / T).
Proof.
  intros l T P HT Hk Hb Hw H. apply is_derive_ext_loc with (fun t => smax l * q298 l ^ 2 + mur_s (mur_of l) t P).
  - generalize (super_T _ T H). apply filter_imp. intros t Ht. unfold lan_s. rewrite lidv_of, (qq_super _ _ _ Ht). match goal with |- ?a = ?b => change (@eq R a b) end. ring.
  - eapply d_eq; [apply d_plus; [apply d_const|apply mur_s_T; assumption]|]. ring.
Qed.
Lemma lan_v_super : forall l T P, tcr l P < T -> lan_v l T P = lvb l T.
Proof. intros l T P H. unfold lan_v. rewrite (qq_super _ _ _ H). unfold dqq. destruct (Rlt_dec T (tcr l P)); [lra|]. cbn. unfold Rdiv. ring. Qed.
Lemma lan_c_super : forall l T P, tcr l P < T -> lan_c l T P = 0.
Proof. intros l T P H. unfold lan_c. destruct (Rlt_dec T (tcr l P)); [lra|reflexivity]. Qed.
Definition lan0 : lanpar := mkLan (12685 / 100) 1 1 1000 0 (29815 / 100).
Lemma smax0 : smax lan0 = 1.
Proof. unfold smax, lan0. cbn [l_S]. destruct (Rle_dec 1 0); lra. Qed.
Lemma lan0_super : tcr lan0 100 < 1000.
Proof. unfold tcr. rewrite smax0. unfold lan0. cbn [l_V l_Tc]. unfold C_to_K. destruct (Req_EM_T 1 0); lra. Qed.
Lemma lan0_b : 1 - c15 * (1000 - l_T lan0) <> 0. Proof. unfold lan0, c15. cbn [l_T]. lra. Qed.
Lemma lan0_k : lkT lan0 1000 = 1000 * (1 - c15 * (1000 - 29815 / 100)). Proof. reflexivity. Qed.
Lemma lan0_kp : 800 < lkT lan0 1000. Proof. rewrite lan0_k. unfold c15. lra. Qed.
Lemma lan0_w : 0 < w4 (lkT lan0 1000) 100.
Proof. unfold w4. generalize lan0_kp. intros. assert (0 < 4 * (100 / 1000) / lkT lan0 1000) by (apply Rdiv_lt_0_compat; lra). lra. Qed.
Lemma q298_0 : 0 < q298 lan0.
Proof. unfold q298, tc0, lan0. cbn [l_T l_Tc]. apply root4_gt. unfold C_to_K. lra. Qed.
Lemma lvb0 : lvb lan0 1000 = q298 lan0 ^ 2.
Proof. unfold lvb. assert (E : l_a lan0 = 0) by reflexivity. assert (E2 : l_V lan0 = 1) by reflexivity. rewrite E, E2. ring. Qed.
Lemma Rpower_lt1 : forall x y, 0 < x < 1 -> 0 < y -> Rpower x y < 1.
Proof.
  intros x y [H1 H2] Hy. unfold Rpower. rewrite <- exp_0. apply exp_increasing. assert (ln x < 0) by (rewrite <- ln_1; apply ln_increasing; assumption). nra.
Qed.
Lemma landau_V_refuted : exists l T P, 0 < T /\ T <> tcr l P /\ 0 < w4 (lkT l T) P /\ consistent zero_mp T P /\
  ~ cons_V (fun t p => landau l t p (zero_mp t p)) T P /\ ~ cons_C (fun t p => landau l t p (zero_mp t p)) T P.
Proof.
  exists lan0, 1000, 100. generalize lan0_super lan0_b lan0_w lan0_kp q298_0. intros Hs Hb Hw Hk Hq.
  assert (Hk0 : l_k lan0 <> 0) by (cbn; lra). assert (H1000 : 0 < 1000) by lra. assert (Hq2 : 0 < q298 lan0 ^ 2) by (apply pow_lt; exact Hq).
  split; [exact H1000|]. split; [intros Z; rewrite <- Z in Hs; lra|]. split; [exact Hw|]. split; [apply zero_consistent|]. split.
  - intros C. unfold cons_V, landau, zero_mp in C. cbn [with_UA mG mV] in C.
    assert (D := lan_super_P lan0 1000 100 Hk0 Hb Hw Hs).
    assert (D' : is_derive (fun p => 0 + lan_g lan0 1000 p) 100 (0 + mur_v (mur_of lan0) 1000 100)) by (apply d_plus; [apply d_const|exact D]).
    assert (E := d_unique _ _ _ _ C D'). rewrite (lan_v_super _ _ _ Hs), lvb0 in E. unfold mur_v in E. rewrite kap_of in E.
    assert (Ev : vt (mur_of lan0) 1000 = q298 lan0 ^ 2) by (rewrite <- lvb0; reflexivity). rewrite Ev in E.
    assert (L : Rpower (1 - 4 * (100 / 1000) / (lkT lan0 1000 + 4 * (100 / 1000))) (1 / 4) < 1).
    { apply Rpower_lt1; [|lra]. assert (0 < 4 * (100 / 1000) / (lkT lan0 1000 + 4 * (100 / 1000))) by (apply Rdiv_lt_0_compat; lra).
      assert (4 * (100 / 1000) / (lkT lan0 1000 + 4 * (100 / 1000)) < 1). { apply Rmult_lt_reg_r with (lkT lan0 1000 + 4 * (100 / 1000)); [lra|]. unfold Rdiv at 1. rewrite Rmult_assoc, Rinv_l; lra. }
      lra. }
    nra.
  - intros C. unfold cons_C, landau, zero_mp in C. cbn [with_UA mS mCp] in C.
    assert (D := lan_super_T lan0 1000 100 H1000 Hk0 Hb Hw Hs).
    assert (D' : is_derive (fun t => 0 + lan_s lan0 t 100) 1000 (0 + mur_c (mur_of lan0) 1000 100 / 1000)) by (apply d_plus; [apply d_const|exact D]).
    assert (E := d_unique _ _ _ _ C D'). rewrite (lan_c_super _ _ _ Hs) in E. unfold mur_c in E. rewrite kap_of in E.
    assert (Ev : vt (mur_of lan0) 1000 = q298 lan0 ^ 2) by (rewrite <- lvb0; reflexivity). rewrite Ev in E.
    assert (Ea : u_a (mur_of lan0) = 0) by reflexivity. assert (Ek : u_k (mur_of lan0) = 1000) by reflexivity. assert (Et : u_T (mur_of lan0) = 29815 / 100) by reflexivity.
    rewrite Ea, Ek, Et in E. set (W := Rpower (w4 (lkT lan0 1000) 100) (- (5 / 4))) in E. assert (HW : 0 < W) by apply exp_pos.
    set (z := 1 - c15 * (1000 - 29815 / 100)) in E. assert (Hz : 0 < z) by (unfold z, c15; lra).
    set (d := q298 lan0 ^ 2 * (100 / 1000) ^ 2 * c15 ^ 2 / (z ^ 3 * 1000) * W).
    assert (Hd : 0 < d). { unfold d. apply Rmult_lt_0_compat; [|exact HW]. apply Rdiv_lt_0_compat; [|apply Rmult_lt_0_compat; [apply pow_lt; exact Hz|lra]].
      apply Rmult_lt_0_compat; [apply Rmult_lt_0_compat; [exact Hq2|apply pow_lt; lra]|apply pow_lt; unfold c15; lra]. }
    assert (E2 : d * 1000 = 0); [|lra]. transitivity ((0 + 0) / 1000); [|field]. rewrite E. unfold d. field. repeat split; try lra. apply Rgt_not_eq, sqrt_lt_R0. lra.
Qed.
(** Berman with v1 or v2: the powers of T - Tr are replaced by Tr^2 *)
Lemma berman_v1_refuted : exists b T P, 0 < T /\ b_2 b = 0 /\ ~ cons_S (fun t p => berman b t p (zero_mp t p)) T P /\ ~ cons_V (fun t p => berman b t p (zero_mp t p)) T P /\ ~ cons_H (fun t p => berman b t p (zero_mp t p)) T P.
Proof.
  exists (mkBer 0 1 0 0 0 1 300 1), 400, 2. split; [lra|]. split; [reflexivity|].
  assert (Q := fun t p => berman_parts (mkBer 0 1 0 0 0 1 300 1) t p (zero_mp t p)). split; [|split].
  - intros C. unfold cons_S in C. destruct (Q 400 2) as (_ & _ & E & _). rewrite E in C.
    assert (D : is_derive (fun t => mG (berman (mkBer 0 1 0 0 0 1 300 1) t 2 (zero_mp t 2))) 400 0).
    { apply (d_ext (fun _ => 90001)); [|apply d_const]. intros t. destruct (Q t 2) as (-> & _). unfold ber_g, ber_VP, ts2. cbn. field. }
    generalize (d_unique _ _ _ _ C D). unfold ber_s, ber_VP, ts2. cbn. lra.
  - intros C. unfold cons_V in C. destruct (Q 400 2) as (_ & _ & _ & E & _). rewrite E in C.
    assert (D : is_derive (fun p => mG (berman (mkBer 0 1 0 0 0 1 300 1) 400 p (zero_mp 400 p))) 2 90001).
    { apply (d_ext (fun p => (p - 1) * 90001)); [|eapply d_eq; [apply d_scal_r, d_minus; [apply d_id|apply d_const]|lra]].
      intros p. destruct (Q 400 p) as (-> & _). unfold ber_g, ber_VP, ts2. cbn. field. }
    generalize (d_unique _ _ _ _ C D). unfold ber_v, ber_VT, ber_VP, ts2. cbn. lra.
  - intros C. unfold cons_H in C. destruct (Q 400 2) as (Eg & Eh & Es & _). rewrite Eg, Eh, Es in C. revert C. unfold ber_g, ber_h, ber_s, ber_VP, ts2. cbn. lra.
Qed.

(** Murnaghan's model without thermal expansion, compressibility or volume: a constant volume *)
Lemma mur_off_parts : forall m T P t, mur_on m T P = false -> mG (murnaghan m T P t) = mG t + u_V m * (P - u_P m) /\ mH (murnaghan m T P t) = mH t + u_V m * (P - u_P m) /\
  mS (murnaghan m T P t) = mS t /\ mV (murnaghan m T P t) = u_V m /\ mCp (murnaghan m T P t) = mCp t.
Proof. intros m T P t E. unfold murnaghan. rewrite E. cbn. auto. Qed.
Lemma mur_off_small : forall m T P, Rabs (u_V m) <= / 1000000000 \/ Rabs (u_a m) <= / 1000000000 \/ Rabs (u_k m) <= / 1000000000 -> mur_on m T P = false.
Proof.
  intros m T P H. assert (Gf : forall x, Rabs x <= / 1000000000 -> gtb (Rabs x) (/ 1000000000) = false) by (intros x Hx; unfold gtb; destruct (Rlt_dec (/ 1000000000) (Rabs x)); [lra|reflexivity]).
  unfold mur_on. destruct H as [H|[H|H]]; rewrite (Gf _ H); rewrite ?andb_false_r; reflexivity.
Qed.
Lemma mur_off_consistent : forall m f T P, Rabs (u_V m) <= / 1000000000 \/ Rabs (u_a m) <= / 1000000000 \/ Rabs (u_k m) <= / 1000000000 ->
  mV (f T P) = 0 -> consistent f T P ->
  consistent (fun t p => murnaghan m t p (f t p)) T P /\ cons_U (fun t p => murnaghan m t p (f t p)) T P /\ mV (murnaghan m T P (f T P)) = u_V m.
Proof.
  intros m f T P H HV (F1 & F2 & F3 & F4). assert (Off := fun t p => mur_off_small m t p H).
  assert (Q := fun t p => mur_off_parts m t p (f t p) (Off t p)). split; [split; [|split; [|split]]|split].
  - unfold cons_S. destruct (Q T P) as (_ & _ & -> & _). apply (d_ext (fun t => mG (f t P) + u_V m * (P - u_P m))); [intros t; symmetry; apply Q|].
    eapply d_eq; [apply d_plus; [exact F1|apply d_const]|]. cbv beta. ring.
  - unfold cons_V. destruct (Q T P) as (_ & _ & _ & -> & _). apply (d_ext (fun p => mG (f T p) + u_V m * (p - u_P m))); [intros t; symmetry; apply Q|].
    eapply d_eq; [apply d_plus; [exact F2|apply d_scal, d_minus; [apply d_id|apply d_const]]|]. cbv beta. rewrite HV. ring.
  - unfold cons_H in *. destruct (Q T P) as (-> & -> & -> & _). rewrite F3. ring.
  - unfold cons_C. destruct (Q T P) as (_ & _ & _ & _ & ->). apply (d_ext (fun t => mS (f t P))); [intros t; symmetry; apply Q|exact F4].
  - unfold cons_U, murnaghan. rewrite Off. cbn. auto.
  - apply Q.
Qed.
(** with all three present, only at the reference point *)
Lemma mur_ref_volume : forall m t, mV (murnaghan m (u_T m) (u_P m) t) = u_V m /\ mG (murnaghan m (u_T m) (u_P m) t) = mG t.
Proof.
  intros m t. assert (E : mur_on m (u_T m) (u_P m) = false).
  { unfold mur_on. replace (u_P m - u_P m) with 0 by ring. replace (u_T m - u_T m) with 0 by ring. unfold neqb. destruct (Req_EM_T 0 0); [reflexivity|lra]. }
  destruct (mur_off_parts m _ _ t E) as (-> & _ & _ & -> & _). split; [reflexivity|ring].
Qed.
(** Berman's entropy and heat capacity against the published Gibbs energy, with v1 *)
Lemma berman_published : forall b f T P, b_2 b = 0 -> cons_S f T P ->
  is_derive (fun t => mG (f t P) + b_V b * (P - b_P b) * (1 + b_0 b * (t - b_T b) + b_1 b * (t - b_T b) ^ 2 + b_3 b * (P - b_P b) / 2 + b_4 b * (P - b_P b) ^ 2 / 3)) T (- mS (berman b T P (f T P))) /\
  mH (berman b T P (f T P)) - mH (f T P) = b_V b * (P - b_P b) * (1 + b_0 b * (T - b_T b) + b_1 b * (T - b_T b) ^ 2 + b_3 b * (P - b_P b) / 2 + b_4 b * (P - b_P b) ^ 2 / 3)
    + T * (mS (berman b T P (f T P)) - mS (f T P)).
Proof.
  intros b f T P H2 F. destruct (berman_parts b T P (f T P)) as (_ & -> & -> & _ & _). split.
  - eapply d_eq; [apply d_plus; [exact F|auto_derive; [exact I|reflexivity]]|]. unfold ber_s, ber_VP. rewrite H2. field.
  - unfold ber_h, ber_s, ber_VP. rewrite H2. field.
Qed.
Lemma berman_published_v : forall b f T P, b_2 b = 0 -> cons_V f T P -> mV (f T P) = 0 ->
  is_derive (fun p => mG (f T p) + b_V b * (p - b_P b) * (1 + b_0 b * (T - b_T b) + b_1 b * (T - b_T b) ^ 2 + b_3 b * (p - b_P b) / 2 + b_4 b * (p - b_P b) ^ 2 / 3)) P (mV (berman b T P (f T P))).
Proof.
  intros b f T P H2 F HV. destruct (berman_parts b T P (f T P)) as (_ & _ & _ & -> & _).
  eapply d_eq; [apply d_plus; [exact F|auto_derive; [exact I|reflexivity]]|]. rewrite HV. unfold ber_v, ber_VT, ber_VP. rewrite H2. field.
Qed.
