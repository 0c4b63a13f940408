(** Lemmas: a state at 653.6 K at nearly the critical density (r = 1/100, theta = 0) where the slope that dalLVS reports is not the slope of the expansion coefficient. *)
From Coq Require Import Reals Lra Psatz.
From Coquelicot Require Import Coquelicot.
From Verif Require Import RDeriv LvsModel LvsSpec LvsPf LvsTherm LvsDal LvsTab.
Open Scope R_scope.

Lemma ten : forall e, Rpower (1 / 100) e = Rpower 10 (- 2 * e).
Proof. intros e. unfold Rpower. replace (ln (1 / 100)) with (- 2 * ln 10); [f_equal; ring|]. unfold Rdiv. rewrite Rmult_1_l, ln_Rinv by lra. replace 100 with (10 * 10) by ring. rewrite ln_mult by lra. ring. Qed.
Lemma up : forall e n, - 2 * e <= INR n -> Rpower (1 / 100) e <= 10 ^ n.
Proof. intros e n h. rewrite ten, <- (Rpower_pow n 10) by lra. apply Rle_Rpower; lra. Qed.
Lemma lo : forall e n, INR n <= - 2 * e -> 10 ^ n <= Rpower (1 / 100) e.
Proof. intros e n h. rewrite ten, <- (Rpower_pow n 10) by lra. apply Rle_Rpower; lra. Qed.
Lemma up' : forall e n, INR n <= 2 * e -> Rpower (1 / 100) e <= / 10 ^ n.
Proof. intros e n h. rewrite ten, <- (Rpower_pow n 10), <- Rpower_Ropp by lra. apply Rle_Rpower; lra. Qed.
Lemma lo' : forall e n, 2 * e <= INR n -> / 10 ^ n <= Rpower (1 / 100) e.
Proof. intros e n h. rewrite ten, <- (Rpower_pow n 10), <- Rpower_Ropp by lra. apply Rle_Rpower; lra. Qed.

Notation c := co_exact.
Notation rr := (1 / 100).
Lemma s00b : 1109 / 1000 <= ex_s0 al0 <= 1110 / 1000. Proof. unfold ex_s0, ex_p2, ex_s2, ex_p4, al0. split; lra. Qed.
Lemma s01b : 246 / 1000 <= ex_s0 al1 <= 247 / 1000. Proof. unfold ex_s0, ex_p2, ex_s2, ex_p4, al1. split; lra. Qed.
Lemma p00b : 586 / 1000 <= ex_p0 al0 <= 587 / 1000. Proof. unfold ex_p0, ex_s0, ex_p2, ex_s2, ex_p4, al0. split; lra. Qed.
Lemma p01b : 103 / 1000 <= ex_p0 al1 <= 104 / 1000. Proof. unfold ex_p0, ex_s0, ex_p2, ex_s2, ex_p4, al1. split; lra. Qed.
Ltac ex := cbn [l_c l_P3 l_P2 l_P1 l_b l_k0 l_b2 l_a l_del l_k1 l_mc l_m1 l_m2 l_m3 l_s00 l_s20 l_s01 l_s21 l_p11 l_al l_p00 l_p20 l_p40 l_D1 l_ali l_bi l_p01 l_p21 l_p41 l_Tc l_rc l_Pc l_Pcon l_Ucon l_Scon l_dPcon co_exact].
Definition A1 := Rpower rr (- (325 / 1000 * (482 / 100 - 1))).
Definition A2 := Rpower rr (- (325 / 1000 * (482 / 100 - 1) - 1 / 2)).
Definition W1 := Rpower rr (- al0).
Definition W2 := Rpower rr (- al1).
Definition B1 := Rpower rr (325 / 1000).
Definition B2 := Rpower rr (825 / 1000).
Definition H0 := Rpower rr (325 / 1000 * (482 / 100)).
Definition S1 := Rpower rr (1 - al0).
Definition S2 := Rpower rr (1 - al1).
Definition Q1 := Rpower rr (2 - al0).
Definition Q2 := Rpower rr (2 - al1).
Ltac rb u l := split; [eapply Rle_trans; [|apply l; cbn [INR]; unfold al0, al1; lra]; lra|eapply Rle_trans; [apply u; cbn [INR]; unfold al0, al1; lra|]; lra].
Lemma A1b : 100 <= A1 <= 1000. Proof. unfold A1. split; [eapply Rle_trans; [|apply (lo _ 2); cbn [INR]; lra]; lra|eapply Rle_trans; [apply (up _ 3); cbn [INR]; lra|]; lra]. Qed.
Lemma A2b : 10 <= A2 <= 100. Proof. unfold A2. split; [eapply Rle_trans; [|apply (lo _ 1); cbn [INR]; lra]; lra|eapply Rle_trans; [apply (up _ 2); cbn [INR]; lra|]; lra]. Qed.
Lemma W1b : 1 <= W1 <= 10. Proof. unfold W1, al0. split; [eapply Rle_trans; [|apply (lo _ 0); cbn [INR]; lra]; lra|eapply Rle_trans; [apply (up _ 1); cbn [INR]; lra|]; lra]. Qed.
Lemma W2b : 1 / 10 <= W2 <= 1. Proof. unfold W2, al1. split; [eapply Rle_trans; [|apply (lo' _ 1); cbn [INR]; lra]; lra|eapply Rle_trans; [apply (up' _ 0); cbn [INR]; lra|]; lra]. Qed.
Lemma B1b : 1 / 10 <= B1 <= 1. Proof. unfold B1. split; [eapply Rle_trans; [|apply (lo' _ 1); cbn [INR]; lra]; lra|eapply Rle_trans; [apply (up' _ 0); cbn [INR]; lra|]; lra]. Qed.
Lemma B2b : 1 / 100 <= B2 <= 1 / 10. Proof. unfold B2. split; [eapply Rle_trans; [|apply (lo' _ 2); cbn [INR]; lra]; lra|eapply Rle_trans; [apply (up' _ 1); cbn [INR]; lra|]; lra]. Qed.
Lemma H0b : 1 / 10000 <= H0 <= 1 / 1000. Proof. unfold H0. split; [eapply Rle_trans; [|apply (lo' _ 4); cbn [INR]; lra]; lra|eapply Rle_trans; [apply (up' _ 3); cbn [INR]; lra|]; lra]. Qed.
Lemma S1b : 1 / 100 <= S1 <= 1 / 10. Proof. unfold S1, al0. split; [eapply Rle_trans; [|apply (lo' _ 2); cbn [INR]; lra]; lra|eapply Rle_trans; [apply (up' _ 1); cbn [INR]; lra|]; lra]. Qed.
Lemma S2b : 1 / 1000 <= S2 <= 1 / 100. Proof. unfold S2, al1. split; [eapply Rle_trans; [|apply (lo' _ 3); cbn [INR]; lra]; lra|eapply Rle_trans; [apply (up' _ 2); cbn [INR]; lra|]; lra]. Qed.
Lemma Q1b : 1 / 10000 <= Q1 <= 1 / 1000. Proof. unfold Q1, al0. split; [eapply Rle_trans; [|apply (lo' _ 4); cbn [INR]; lra]; lra|eapply Rle_trans; [apply (up' _ 3); cbn [INR]; lra|]; lra]. Qed.
Lemma Q2b : 1 / 100000 <= Q2 <= 1 / 10000. Proof. unfold Q2, al1. split; [eapply Rle_trans; [|apply (lo' _ 5); cbn [INR]; lra]; lra|eapply Rle_trans; [apply (up' _ 4); cbn [INR]; lra|]; lra]. Qed.

(** the quantities of thmLVS and dalLVS there *)
Notation T1 := (T_of c rr 0).
Notation D1 := (D_of c rr 0).
Notation a_ := (236666 / 10000).
Lemma f2z : f2 c rr 0 = rr. Proof. unfold f2, amu_. ring. Qed.
Lemma T1v : T1 = 647067 / 990. Proof. unfold T_of. rewrite f2z. ex. field. Qed.
Lemma st : solves c T1 D1 rr 0. Proof. apply of_solves; [ex; lra|lra|rewrite f2z; lra]. Qed.
Lemma tw : dTw c T1 = rr. Proof. unfold dTw, Tw. rewrite T1v. ex. field. Qed.
Lemma amz : amu_ c rr 0 = 0. Proof. unfold amu_. ring. Qed.
Lemma s0z : s0 c rr 0 = ex_s0 al0 * a_ * (14403 / 10000) * S1. Proof. unfold s0, sx0. ex. fold S1. ring. Qed.
Lemma s1z : s1 c rr 0 = ex_s0 al1 * a_ * (2942 / 10000) * S2. Proof. unfold s1, sx1. ex. fold S2. ring. Qed.
Lemma sb : 37 / 100 <= s0 c rr 0 + s1 c rr 0 <= 381 / 100.
Proof. rewrite s0z, s1z. pose proof s00b. pose proof s01b. pose proof S1b. pose proof S2b.
  assert (1109 / 1000 * (1 / 100) <= ex_s0 al0 * S1 <= 1110 / 1000 * (1 / 10)) by (split; apply Rmult_le_compat; lra).
  assert (246 / 1000 * (1 / 1000) <= ex_s0 al1 * S2 <= 247 / 1000 * (1 / 100)) by (split; apply Rmult_le_compat; lra). lra. Qed.
Lemma rhob : 93 / 100 <= D1 / l_rc c <= 1.
Proof.
  assert (E : D1 / l_rc c = 1 + l_c c * (s0 c rr 0 + s1 c rr 0) + l_p11 c * rr) by (unfold D_of, rhow; rewrite tw; replace (l_rc c) with (322778 / 1000) by (ex; reflexivity); field).
  rewrite E. pose proof sb. ex. lra.
Qed.
Lemma gz : gx c 0 = 1. Proof. unfold gx. ring. Qed.
Lemma wz : ww c rr 0 = 14403 / 10000 * (1 - al0) * ex_s0 al0 * W1 + 2942 / 10000 * (1 - al1) * ex_s0 al1 * W2.
Proof. unfold ww, wi, sx0, sx1, sd0, sd1. rewrite gz. ex. replace (- (al0 - 0)) with (- al0) by ring. replace (- (al0 - 1 / 2)) with (- al1) by (unfold al0, al1; lra). fold W1 W2. unfold al0, al1. field. Qed.
Lemma yz : yy c rr 0 = 0. Proof. unfold yy, yi. rewrite gz. field. Qed.
Lemma zz0 : zz c rr 0 = 14403 / 10000 * A1 + 2942 / 10000 * A2.
Proof. unfold zz, zi, gam. rewrite gz. ex. rewrite Rminus_0_r. fold A1 A2. field. Qed.
Lemma wb : 1 <= ww c rr 0 <= 145 / 10.
Proof. rewrite wz. pose proof s00b. pose proof s01b. pose proof W1b. pose proof W2b.
  assert (1109 / 1000 * 1 <= ex_s0 al0 * W1 <= 1110 / 1000 * 10) by (split; apply Rmult_le_compat; lra).
  assert (246 / 1000 * (1 / 10) <= ex_s0 al1 * W2 <= 247 / 1000 * 1) by (split; apply Rmult_le_compat; lra). unfold al0 at 1. unfold al1 at 1. unfold al0 at 2. unfold al1 at 2. lra. Qed.
Lemma MMb : 6 <= d2PdM2 c rr 0 <= 623 / 10.
Proof. unfold d2PdM2. rewrite yz, zz0. pose proof wb. pose proof A1b. pose proof A2b. ex. lra. Qed.
Lemma MTb : - 61 / 10 <= d2PdMT c rr 0 <= - 42 / 100.
Proof. unfold d2PdMT. rewrite yz. pose proof wb. ex. lra. Qed.
Lemma reg : regular c D1 rr 0.
Proof. split; [rewrite gz; lra|]. split; [pose proof MMb; lra|]. pose proof rhob as h. replace (l_rc c) with (322778 / 1000) in h by (ex; reflexivity). lra. Qed.
Lemma Pb : 1 <= Pof c T1 rr 0 / l_Pc c <= 12 / 10.
Proof.
  assert (E : Pof c T1 rr 0 / l_Pc c = Pw c T1 rr 0 * (100 / 99)) by (unfold Pof; rewrite T1v; replace (l_Pcon c) with (22046 / 647067) by (ex; reflexivity); replace (l_Pc c) with (22046 / 1000) by (ex; reflexivity); field).
  rewrite E. unfold Pw, Pw0, dPw, p0th, p1th. rewrite tw, amz. ex. fold Q1 Q2. pose proof p00b. pose proof p01b. pose proof Q1b. pose proof Q2b.
  assert (0 <= ex_p0 al0 * Q1 <= 587 / 1000 * (1 / 1000)) by (split; [apply Rmult_le_pos; lra|apply Rmult_le_compat; lra]).
  assert (0 <= ex_p0 al1 * Q2 <= 104 / 1000 * (1 / 10000)) by (split; [apply Rmult_le_pos; lra|apply Rmult_le_compat; lra]). nra.
Qed.
Lemma P0b : 6 <= dP0dT c T1 <= 7. Proof. unfold dP0dT. rewrite tw. ex. lra. Qed.
(** MM times the slope of the pressure: no division left *)
Lemma ptb : 0 <= d2PdM2 c rr 0 * pterm c D1 T1 (Pof c T1 rr 0) rr 0 <= 755.
Proof.
  unfold pterm, dPdTcd. rewrite amz. pose proof MMb. pose proof MTb. pose proof rhob. pose proof Pb. pose proof P0b. pose proof sb.
  set (m := d2PdM2 c rr 0) in *. set (t := d2PdMT c rr 0) in *. set (rho := D1 / l_rc c) in *. set (p := Pof c T1 rr 0 / l_Pc c) in *. set (q := dP0dT c T1) in *. set (s := s0 c rr 0 + s1 c rr 0) in *.
  replace (m * (p + (q + l_p11 c * (0 - rho / m) + s0 c rr 0 + s1 c rr 0 - t * rho / m))) with (m * (p + q + s) - (l_p11 c + t) * rho) by (unfold s; field; lra).
  ex. assert (6 * 7 <= m * (p + q + s) <= 623 / 10 * (12 / 10 + 7 + 381 / 100)) by (split; apply Rmult_le_compat; lra). nra.
Qed.
Definition alf := h_alpha (thmLVS c T1 D1 rr 0).
Lemma alf_eq : alf = l_Tc c / T1 ^ 2 / (D1 / l_rc c) ^ 2 * (d2PdM2 c rr 0 * pterm c D1 T1 (Pof c T1 rr 0) rr 0).
Proof.
  unfold alf. pose proof (alpha_form c (fun _ => T1) (fun _ => D1) (fun _ => rr) (fun _ => 0) exact_constants 0) as E. cbv beta in E. destruct reg as [_ [M D0]]. destruct st as [T0 _]. rewrite E by (first [exact M|lra]). unfold pterm. replace (l_rc c) with (322778 / 1000) by (ex; reflexivity). replace (l_Pc c) with (22046 / 1000) by (ex; reflexivity). field. repeat split; lra.
Qed.
Lemma alfb : 0 <= alf <= 133 / 100.
Proof.
  rewrite alf_eq. replace (l_Tc c) with (647067 / 1000) by (ex; reflexivity). pose proof ptb. pose proof rhob. set (p := d2PdM2 c rr 0 * pterm c D1 T1 (Pof c T1 rr 0) rr 0) in *. set (rho := D1 / l_rc c) in *. clearbody p rho. rewrite T1v.
  assert (8649 / 10000 <= rho ^ 2) by nra. assert (0 < / rho ^ 2 <= 10000 / 8649) by (split; [apply Rinv_0_lt_compat; lra|replace (10000 / 8649) with (/ (8649 / 10000)) by field; apply Rinv_le_contravar; lra]).
  replace (647067 / 1000 / (647067 / 990) ^ 2) with (9801 / 6470670) by field. replace (9801 / 6470670 / rho ^ 2 * p) with (9801 / 6470670 * (/ rho ^ 2 * p)) by (unfold Rdiv; ring).
  assert (0 <= / rho ^ 2 * p <= 10000 / 8649 * 755) by (split; [apply Rmult_le_pos; lra|apply Rmult_le_compat; lra]). generalize dependent (/ rho ^ 2 * p). intros g. intros. split; lra.
Qed.
(** the linear system: dr/dT *)
Notation d := (drdT c D1 T1 alf rr 0).
Lemma a01b : 146 / 1000 <= a01 c rr 0 <= 15 / 10.
Proof. unfold a01, a01_i, sd0, sd1. ex. fold B1 B2. pose proof B1b. pose proof B2b. lra. Qed.
Lemma a02b : 42 / 1000000 <= a02 c rr 0 <= 43 / 100000.
Proof. unfold a02. ex. fold H0. pose proof H0b. lra. Qed.
Lemma ar2z : ar2 c rr 0 = 1. Proof. unfold ar2. ring. Qed.
Lemma ar1b : - 62 / 10 <= ar1 c rr 0 <= 0.
Proof.
  assert (E : ar1 c rr 0 = l_a c * l_c c * ww c rr 0) by (unfold ar1, ar1_i, sx0, sx1; rewrite wz; ex; fold W1 W2; ring).
  rewrite E. pose proof wb. ex. lra.
Qed.
Lemma db : 147 / 100000 <= d <= 6 / 1000.
Proof.
  destruct (solve c rr 0 exact_constants ltac:(lra) (proj1 reg) (proj1 (proj2 reg)) D1 T1 alf) as [E1 E2]. rewrite ar2z in E2.
  pose proof a01b. pose proof a02b. pose proof ar1b. pose proof alfb. pose proof rhob.
  assert (b2 : e_b2 c T1 = 9801 / 6470670) by (unfold e_b2; rewrite T1v; ex; field).
  assert (b1 : e_b1 c D1 T1 alf = - (D1 / l_rc c * alf + l_p11 c * (9801 / 6470670))) by (unfold e_b1; rewrite T1v; replace (l_Tc c) with (647067 / 1000) by (ex; reflexivity); replace (l_rc c) with (322778 / 1000) by (ex; reflexivity); field).
  rewrite b1 in E1. rewrite b2 in E2. set (x0 := d0dT c D1 T1 alf rr 0) in *. set (dd := d) in *. set (u := a01 c rr 0) in *. set (v := a02 c rr 0) in *. set (w := ar1 c rr 0) in *. set (rho := D1 / l_rc c) in *.
  assert (0 <= rho * alf <= 133 / 100) by (split; [apply Rmult_le_pos; lra|replace (133 / 100) with (1 * (133 / 100)) by ring; apply Rmult_le_compat; lra]).
  assert (pv : l_p11 c * (9801 / 6470670) <= 1 / 1000 /\ 0 <= l_p11 c * (9801 / 6470670)) by (ex; split; lra).
  set (q := rho * alf + l_p11 c * (9801 / 6470670)) in *. assert (0 <= q <= 134 / 100) by (unfold q; lra).
  assert (E3 : dd * (u - w * v) = 9801 / 6470670 * u + q * v) by (replace dd with (9801 / 6470670 - v * x0) by lra; replace dd with (9801 / 6470670 - v * x0) in E1 by lra; nra).
  assert (0 <= - w * v <= 62 / 10 * (43 / 100000)) by (split; [apply Rmult_le_pos; lra|apply Rmult_le_compat; lra]).
  assert (0 <= q * v <= 134 / 100 * (43 / 100000)) by (split; [apply Rmult_le_pos; lra|apply Rmult_le_compat; lra]).
  set (z := - w * v) in *. replace (u - w * v) with (u + z) in E3 by (unfold z; ring). set (y := q * v) in *.
  split; apply Rmult_le_reg_r with (u + z); try lra; rewrite E3; nra.
Qed.
(** r^X for a small exponent stays below 10 *)
Lemma small : forall X, - 1 / 2 <= X -> Rpower rr X <= 10. Proof. intros X h. replace 10 with (10 ^ 1) by ring. apply up. cbn [INR]. lra. Qed.
Lemma slipA : 47 / 10 <= slip rr (cg0 c) d.
Proof.
  unfold slip, cg0. ex. pose proof db. assert (Rpower rr ((-1 - 325 / 1000 * (482 / 100 - 1)) * d) <= 10) by (apply small; lra).
  assert (10 ^ 4 <= Rpower rr (-1 - 325 / 1000 * (482 / 100 - 1))) by (apply lo; cbn [INR]; lra).
  assert (10000 * (147 / 100000) <= Rpower rr (-1 - 325 / 1000 * (482 / 100 - 1)) * d) by (apply Rmult_le_compat; lra). lra.
Qed.
Lemma slip_lo : forall e, -1 <= e <= 2 -> -10 <= slip rr e d.
Proof.
  intros e h. unfold slip. pose proof db. assert (Rpower rr ((-1 - e) * d) <= 10) by (apply small; nra).
  assert (0 <= Rpower rr (-1 - e) * d) by (apply Rmult_le_pos; [left; apply exp_pos|lra]). lra.
Qed.
Lemma slip_up : forall e, -1 <= e <= 1 / 2 -> slip rr e d <= 6.
Proof.
  intros e h. unfold slip. pose proof db. assert (0 <= Rpower rr ((-1 - e) * d)) by (left; apply exp_pos).
  assert (Rpower rr (-1 - e) <= 10 ^ 3) by (apply up; cbn [INR]; lra).
  assert (Rpower rr (-1 - e) * d <= 1000 * (6 / 1000)) by (apply Rmult_le_compat; [left; apply exp_pos|lra|lra|lra]). lra.
Qed.
Lemma qz : e_q c 0 = 1. Proof. unfold e_q. ring. Qed.
Lemma misplaced_pos : 1 / 10 <= misplaced c D1 T1 alf rr 0.
Proof.
  assert (E : misplaced c D1 T1 alf rr 0 =
    14403 / 10000 * (cg0 c * slip rr (cg0 c) d / a_ + a_ * (17762 / 1000000) ^ 2 * (al0 * ((1 - al0) * ex_s0 al0) * slip rr al0 d)) +
    2942 / 10000 * (cg1 c * slip rr (cg1 c) d / a_ + a_ * (17762 / 1000000) ^ 2 * (al1 * ((1 - al1) * ex_s0 al1) * slip rr al1 d))).
  { unfold misplaced, ui, wj, sx0, sx1, sd0, sd1. rewrite qz. generalize (cg0 c) (cg1 c). intros u0 u1. ex. field. }
  rewrite E. pose proof slipA. assert (Hc : cg0 c = 12415 / 10000) by (unfold cg0; ex; field). assert (Hd : cg1 c = 7415 / 10000) by (unfold cg1; rewrite Hc; ex; field). rewrite Hc in *. rewrite Hd.
  pose proof (slip_lo (7415 / 10000) ltac:(lra)). pose proof (slip_lo al0 ltac:(unfold al0; lra)). pose proof (slip_up al1 ltac:(unfold al1; lra)). pose proof s00b. pose proof s01b.
  set (x0 := slip rr al0 d) in *. set (x1 := slip rr al1 d) in *. set (x2 := slip rr (12415 / 10000) d) in *. set (x3 := slip rr (7415 / 10000) d) in *.
  assert (- (1110 / 1000 * 10) <= ex_s0 al0 * x0) by nra. assert (ex_s0 al1 * x1 <= 247 / 1000 * 6) by nra.
  replace (al0 * ((1 - al0) * ex_s0 al0) * x0) with (1085 / 10000 * (8915 / 10000) * (ex_s0 al0 * x0)) by (unfold al0 at 2 3; field).
  replace (al1 * ((1 - al1) * ex_s0 al1) * x1) with (- 3915 / 10000 * (13915 / 10000) * (ex_s0 al1 * x1)) by (unfold al1 at 2 3; field).
  lra.
Qed.
Lemma excess_pos : 0 < excess c D1 T1 (Pof c T1 rr 0) alf rr 0.
Proof.
  unfold excess. pose proof misplaced_pos. pose proof Pb. pose proof P0b. pose proof sb. destruct reg as [_ [_ D0]]. rewrite amz. apply Rmult_lt_0_compat; [|lra]. apply Rmult_lt_0_compat; [|lra].
  destruct st as [T0 _]. replace (l_Tc c) with (647067 / 1000) by (ex; reflexivity). replace (l_rc c) with (322778 / 1000) by (ex; reflexivity). apply Rdiv_lt_0_compat; [apply Rdiv_lt_0_compat|]; [lra|apply pow_lt; exact D0|apply pow_lt; exact T0].
Qed.
