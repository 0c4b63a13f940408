(** Property theorems: mineral equations of state (C41). *)
From Coq Require Import List Bool Reals Lra.
From Coquelicot Require Import Coquelicot.
From Verif Require Import RDeriv MineralModel MineralSpec MineralProofs MineralMore.
Import ListNotations.
Open Scope R_scope.

(** Murnaghan's correction keeps S = -dG/dT, V = dG/dP, H = G + T S and Cp = T dS/dT, and sets U = H - P V, A = U - T S *)
Theorem C41_murnaghan : forall m f T P, 0 < T -> mur_on m T P = true -> 1 - c15 * (T - u_T m) <> 0 -> 0 < w4 (kap m T) P ->
  consistent f T P -> consistent (fun t p => murnaghan m t p (f t p)) T P /\ cons_U (fun t p => murnaghan m t p (f t p)) T P.
Proof. exact murnaghan_consistent. Qed.
Print Assumptions C41_murnaghan.
Example C41_murnaghan_example :
  let m := mkMur 2 1000 (3 / 100000) 300 1 in
  consistent (fun t p => murnaghan m t p (zero_mp t p)) 500 2000 /\ 0 < mG (murnaghan m 500 2000 (zero_mp 500 2000)).
Proof.
  cbv zeta. set (m := mkMur 2 1000 (3 / 100000) 300 1).
  assert (Hon : mur_on m 500 2000 = true).
  { unfold mur_on, m. cbn [u_P u_T u_V u_a u_k]. rewrite !andb_true_iff. repeat split; unfold neqb, gtb;
    [destruct (Req_EM_T (2000 - 1) 0); [lra|reflexivity]| | |]; rewrite Rabs_right by lra; destruct (Rlt_dec _ _) as [|N]; try reflexivity; exfalso; apply N;
    apply Rmult_lt_reg_l with 1000000000; try lra; rewrite Rinv_r; lra. }
  assert (Hk : kap m 500 = 970) by (unfold kap, m, c15; cbn [u_k u_T]; lra).
  split.
  - apply C41_murnaghan; try lra; [exact Hon|unfold c15, m; cbn [u_T]; lra| |apply zero_consistent]. rewrite Hk. unfold w4. lra.
  - unfold murnaghan. rewrite Hon. cbn [with_UA mG zero_mp]. unfold mur_g. rewrite Hk. unfold vt, m. cbn [u_V u_a u_T].
    assert (S1 : sqrt 500 < 23) by (rewrite <- (sqrt_pow2 23) by lra; apply sqrt_lt_1; lra). assert (S2 := sqrt_pos 300).
    assert (W : 1 < Rpower (w4 970 2000) (3 / 4)). { rewrite <- (Rpower_O (w4 970 2000)) by (unfold w4; lra). apply Rpower_lt; unfold w4; lra. }
    assert (0 < (2 * (1 + 3 / 100000 * (500 - 300) - 20 * (3 / 100000) * (sqrt 500 - sqrt 300)))) by lra. nra.
Qed.
(** at the reference point itself the increment is left out: the Gibbs energy jumps there *)
Theorem C41_murnaghan_reference_refuted : forall m, u_V m <> 0 -> u_k m <> 0 -> 0 < w4 (u_k m) (u_P m) -> u_P m <> 0 ->
  mG (murnaghan m (u_T m) (u_P m) (zero_mp 0 0)) = 0 /\ mur_g m (u_T m) (u_P m) <> 0.
Proof. exact mur_ref_jump. Qed.
Print Assumptions C41_murnaghan_reference_refuted.
Example C41_murnaghan_reference_example : mur_g (mkMur 2 1000 (3 / 100000) 300 1) 300 1 <> 0.
Proof. apply (C41_murnaghan_reference_refuted (mkMur 2 1000 (3 / 100000) 300 1)); cbn [u_V u_k u_P]; unfold w4; lra. Qed.

(** a vanishing volume, expansion or compressibility: the phase has the constant volume of the reference state, and all relations are kept *)
Theorem C41_murnaghan_constant : forall m f T P, Rabs (u_V m) <= / 1000000000 \/ Rabs (u_a m) <= / 1000000000 \/ Rabs (u_k m) <= / 1000000000 ->
  mV (f T P) = 0 -> consistent f T P ->
  consistent (fun t p => murnaghan m t p (f t p)) T P /\ cons_U (fun t p => murnaghan m t p (f t p)) T P /\ mV (murnaghan m T P (f T P)) = u_V m.
Proof. exact mur_off_consistent. Qed.
Print Assumptions C41_murnaghan_constant.
Example C41_murnaghan_constant_example : consistent (fun t p => murnaghan (mkMur 2 1000 0 300 1) t p (zero_mp t p)) 500 2000 /\ mV (murnaghan (mkMur 2 1000 0 300 1) 500 2000 (zero_mp 500 2000)) = 2.
Proof. destruct (C41_murnaghan_constant (mkMur 2 1000 0 300 1) zero_mp 500 2000) as (A & _ & B); [right; left; cbn [u_a]; rewrite Rabs_R0; lra|reflexivity|apply zero_consistent|]. split; assumption. Qed.
(** at the reference point the volume is that of the reference state and the Gibbs energy is unchanged *)
Theorem C41_murnaghan_reference : forall m t, mV (murnaghan m (u_T m) (u_P m) t) = u_V m /\ mG (murnaghan m (u_T m) (u_P m) t) = mG t.
Proof. exact mur_ref_volume. Qed.
Print Assumptions C41_murnaghan_reference.

(** Landau's correction keeps S = -dG/dT and H = G + T S and sets U and A *)
Theorem C41_landau_partial : forall l f T P, 0 < T -> T <> tcr l P -> l_k l <> 0 -> 1 - c15 * (T - l_T l) <> 0 -> 0 < w4 (lkT l T) P ->
  cons_S f T P -> cons_H f T P ->
  cons_S (fun t p => landau l t p (f t p)) T P /\ cons_H (fun t p => landau l t p (f t p)) T P /\ cons_U (fun t p => landau l t p (f t p)) T P.
Proof. exact landau_S. Qed.
Print Assumptions C41_landau_partial.
(** without a volume of disorder all four relations are kept *)
Theorem C41_landau_entropy_only : forall l f T P, 0 < T -> T <> tcr l P -> l_k l <> 0 -> 1 - c15 * (T - l_T l) <> 0 -> 0 < w4 (lkT l T) P -> l_V l = 0 ->
  (forall p, mV (f T p) = 0) -> consistent f T P -> consistent (fun t p => landau l t p (f t p)) T P.
Proof. exact landau_V0. Qed.
Print Assumptions C41_landau_entropy_only.
(** below the transition *)
Example C41_landau_example : consistent (fun t p => landau (mkLan 500 5 0 1000 0 300) t p (zero_mp t p)) 400 1000.
Proof.
  apply C41_landau_entropy_only; try (unfold c15; cbn [l_k l_T l_V]; lra).
  - unfold tcr. cbn [l_V l_Tc]. unfold C_to_K. destruct (Req_EM_T 0 0); lra.
  - unfold w4, lkT, c15. cbn [l_k l_T]. lra.
  - reflexivity.
  - apply zero_consistent.
Qed.
(** with one the volume is not dG/dP and the heat capacity is not T dS/dT *)
Theorem C41_landau_refuted : exists l T P, 0 < T /\ T <> tcr l P /\ 0 < w4 (lkT l T) P /\ consistent zero_mp T P /\
  ~ cons_V (fun t p => landau l t p (zero_mp t p)) T P /\ ~ cons_C (fun t p => landau l t p (zero_mp t p)) T P.
Proof. exact landau_V_refuted. Qed.
Print Assumptions C41_landau_refuted.

(** Berman's correction with v1 = v2 = 0 *)
Theorem C41_berman_partial : forall b f T P, 0 < T -> b_1 b = 0 -> b_2 b = 0 -> mV (f T P) = 0 -> consistent f T P -> consistent (fun t p => berman b t p (f t p)) T P.
Proof. exact berman_consistent. Qed.
Print Assumptions C41_berman_partial.
Example C41_berman_example : let b := mkBer (3 / 100000) 0 0 (-2 / 1000000) (1 / 1000000000) 2 300 1 in
  consistent (fun t p => berman b t p (zero_mp t p)) 700 5000 /\ ber_g b 700 5000 <> 0.
Proof. cbv zeta. split; [apply C41_berman_partial; try reflexivity; [lra|apply zero_consistent]|unfold ber_g, ber_VP, ts2; cbn; lra]. Qed.
(** with v1, the entropy and the enthalpy belong to Berman's published Gibbs energy (which the reported one is not) *)
Theorem C41_berman_published_partial : forall b f T P, b_2 b = 0 -> cons_S f T P ->
  is_derive (fun t => mG (f t P) + b_V b * (P - b_P b) * (1 + b_0 b * (t - b_T b) + b_1 b * (t - b_T b) ^ 2 + b_3 b * (P - b_P b) / 2 + b_4 b * (P - b_P b) ^ 2 / 3)) T (- mS (berman b T P (f T P))) /\
  mH (berman b T P (f T P)) - mH (f T P) = b_V b * (P - b_P b) * (1 + b_0 b * (T - b_T b) + b_1 b * (T - b_T b) ^ 2 + b_3 b * (P - b_P b) / 2 + b_4 b * (P - b_P b) ^ 2 / 3)
    + T * (mS (berman b T P (f T P)) - mS (f T P)).
Proof. exact berman_published. Qed.
Print Assumptions C41_berman_published_partial.
(** and so does the volume *)
Theorem C41_berman_published_volume_partial : forall b f T P, b_2 b = 0 -> cons_V f T P -> mV (f T P) = 0 ->
  is_derive (fun p => mG (f T p) + b_V b * (p - b_P b) * (1 + b_0 b * (T - b_T b) + b_1 b * (T - b_T b) ^ 2 + b_3 b * (p - b_P b) / 2 + b_4 b * (p - b_P b) ^ 2 / 3)) P (mV (berman b T P (f T P))).
Proof. exact berman_published_v. Qed.
Print Assumptions C41_berman_published_volume_partial.
Example C41_berman_published_example : mS (berman (mkBer 0 (1 / 100000) 0 0 0 2 300 1) 700 5001 (zero_mp 700 5001)) = - 80.
Proof. unfold berman, neqb. cbn [b_P b_T]. destruct (Req_EM_T (5001 - 1) 0); [lra|]. cbn [orb with_UA mS zero_mp]. unfold ber_s, ber_VP, ts2. cbn [b_0 b_1 b_2 b_V b_P b_T]. lra. Qed.
Theorem C41_berman_refuted : exists b T P, 0 < T /\ b_2 b = 0 /\ ~ cons_S (fun t p => berman b t p (zero_mp t p)) T P /\
  ~ cons_V (fun t p => berman b t p (zero_mp t p)) T P /\ ~ cons_H (fun t p => berman b t p (zero_mp t p)) T P.
Proof. exact berman_v1_refuted. Qed.
Print Assumptions C41_berman_refuted.

(** Birch-Murnaghan: the slope used by the solver is the derivative of the equation of state *)
Theorem C41_bm_slope : forall vt k kp kpp v, 0 < vt -> 0 < v -> is_derive (bm_p vt k kp kpp) v (bm_dp vt k kp kpp v).
Proof. exact bm_p_d. Qed.
Print Assumptions C41_bm_slope.
(** along the isotherm given by the equation of state dG = V dP, and G starts from - Pref vt at zero pressure *)
Theorem C41_bm_isotherm : forall vt k kp kpp v, 0 < vt -> 0 < v -> forall Pref,
  is_derive (fun u => bm_int (bm_p vt k kp kpp u) Pref vt u k kp kpp) v (v * bm_dp vt k kp kpp v).
Proof. exact bm_isotherm. Qed.
Print Assumptions C41_bm_isotherm.
Theorem C41_bm_start : forall vt k kp kpp, 0 < vt -> bm_p vt k kp kpp vt = 0 /\ bm_pint vt k kp kpp vt = 0.
Proof. exact (fun vt k kp kpp H => conj (bm_p_0 vt k kp kpp H) (bm_pint_0 vt k kp kpp H)). Qed.
Print Assumptions C41_bm_start.
Example C41_bm_example : is_derive (fun u => bm_int (bm_p 20 50000 4 0 u) (1 / 10) 20 u 50000 4 0) 19 (19 * bm_dp 20 50000 4 0 19).
Proof. apply C41_bm_isotherm; lra. Qed.
(** the solver takes at most 50 steps, returns the value after a halved Newton step (or its start), and if it took fewer
    than 50 the last step was at most 1e-10 *)
Theorem C41_bm_solver : forall n P vt k kp kpp d v, exists m u e, (m <= n)%nat /\ bm_newton n P vt k kp kpp d v = u /\
  (m = n \/ e <= / 10 ^ 10) /\ (m = O -> u = v /\ e = Rabs d) /\
  ((0 < m)%nat -> exists u0, u = u0 - (bm_p vt k kp kpp u0 - P) / bm_dp vt k kp kpp u0 / 2 /\ e = Rabs (u - u0)).
Proof. exact newton_stop. Qed.
Print Assumptions C41_bm_solver.
(** a start that already solves the equation is returned unchanged *)
Theorem C41_bm_fixpoint : forall n P vt k kp kpp d v, bm_p vt k kp kpp v = P -> bm_newton n P vt k kp kpp d v = v.
Proof. exact newton_fix. Qed.
Print Assumptions C41_bm_fixpoint.
Example C41_bm_fixpoint_example : bm_volume 0 20 50000 4 0 20 = 20.
Proof. apply C41_bm_fixpoint. apply bm_p_0. lra. Qed.
(** the entropy increment has the sign of +dG/dT, not of -dG/dT, whatever solver that ignores its start is used *)
Theorem C41_bm_entropy_refuted : forall solve b Pref Tref v0 T P dG,
  (forall P vt k kp kpp s s', solve P vt k kp kpp s = solve P vt k kp kpp s') -> bm_given b = false ->
  (forall t, T - 1 / 10 <= t <= T + 1 / 10 -> is_derive (fun t => bm_g solve b Pref Tref v0 t P) t (dG t)) ->
  exists x, T - 1 / 10 <= x <= T + 1 / 10 /\ bm_s solve b Pref Tref v0 T P = dG x.
Proof. exact bm_s_sign. Qed.
Print Assumptions C41_bm_entropy_refuted.
(** an instance: constant bulk modulus, thermal expansion 1e-5, the solver that returns vt *)
Example C41_bm_entropy_example : let b := mkBM (1 / 100000) 0 0 50000 0 4 0 in let solve := fun _ vt _ _ _ _ => vt in
  0 < bm_s solve b 1 300 20 400 100 /\ (forall t, 0 < t -> is_derive (fun t => bm_g solve b 1 300 20 t 100) t (99 / 100000 * bm_vt b 300 20 t)).
Proof.
  cbv zeta. set (b := mkBM (1 / 100000) 0 0 50000 0 4 0). set (solve := fun _ vt _ _ _ _ : R => vt).
  assert (Ev : forall t, bm_vt b 300 20 t = 20 * exp (1 / 100000 * (t - 300))).
  { intros t. unfold bm_vt, b. cbn [g_1 g_2 g_3]. f_equal. f_equal. unfold Rdiv. ring. }
  assert (Eg : forall t, bm_g solve b 1 300 20 t 100 = 99 * bm_vt b 300 20 t).
  { intros t. unfold bm_g, bm_int, bm_vv, solve. rewrite bm_pint_0; [ring|]. rewrite Ev. generalize (exp_pos (1 / 100000 * (t - 300))). lra. }
  assert (D : forall t, is_derive (fun t => bm_g solve b 1 300 20 t 100) t (99 / 100000 * bm_vt b 300 20 t)).
  { intros t. apply (d_ext (fun t => 99 * (20 * exp (1 / 100000 * (t - 300))))); [intros s; rewrite Eg, Ev; reflexivity|]. rewrite Ev.
    eapply d_eq; [apply d_scal, d_scal, (d_exp (fun t => 1 / 100000 * (t - 300))), d_scal, d_minus; [apply d_id|apply d_const]|]. cbv beta. field. }
  split; [|intros t _; apply D].
  destruct (C41_bm_entropy_refuted solve b 1 300 20 400 100 (fun t => 99 / 100000 * bm_vt b 300 20 t)) as (x & _ & ->).
  - intros. reflexivity.
  - unfold bm_given, gtb, b. cbn [g_kpp]. rewrite Rabs_R0. destruct (Rlt_dec 0 (/ 10 ^ 20)) as [|N]; [reflexivity|]. exfalso. apply N. apply Rinv_0_lt_compat, pow_lt. lra.
  - intros t _. apply D.
  - rewrite Ev. generalize (exp_pos (1 / 100000 * (x - 300))). lra.
Qed.
(** the reference volume is added to the volume at T, P *)
Theorem C41_bm_volume_refuted : forall V0 Tst T t, 0 < V0 -> T <> Tst -> exists r, bm_gottschalk (bm_quiet V0) V0 Tst 0 T 0 t = BmOk r /\ mV r = mV t + 2 * V0.
Proof. exact bm_volume_twice. Qed.
Print Assumptions C41_bm_volume_refuted.
Example C41_bm_volume_example : exists r, bm_gottschalk (bm_quiet 2) 2 300 0 400 0 (zero_mp 400 0) = BmOk r /\ mV r = 0 + 2 * 2.
Proof. apply C41_bm_volume_refuted; lra. Qed.
(** eight coefficients pass the size test, and the ninth is read past the end of the vector *)
Theorem C41_bm_size_refuted : forall a1 a2 a3 a4 a5 k d kp V0 Tst Pst T P t, T <> Tst -> bm_gottschalk [a1; a2; a3; a4; a5; k; d; kp] V0 Tst Pst T P t = BmUB.
Proof. exact bm_eight. Qed.
Print Assumptions C41_bm_size_refuted.
Example C41_bm_size_example : bm_gottschalk [0; 0; 0; 0; 0; 50000; 0; 4] 2 300 1 400 1 (zero_mp 400 1) = BmUB.
Proof. apply C41_bm_size_refuted. lra. Qed.
