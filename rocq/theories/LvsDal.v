(** Lemmas: the temperature derivative of the expansion coefficient. *)
From Coq Require Import Reals Lra.
From Coquelicot Require Import Coquelicot.
From Verif Require Import RDeriv LvsModel LvsSpec LvsPf LvsTherm.
Open Scope R_scope.

Section Det.
Variables (c : lvs) (r th : R).
Hypothesis K : lvs_constants c.
Hypothesis rp : 0 < r.
Hypothesis G : gx c th <> 0.
Hypothesis MM0 : d2PdM2 c r th <> 0.
(** the two functions of (r, theta) whose derivatives make the linear system *)
Definition f1 (r th : R) : R := th * (l_k0 c * Rpower r (l_b c) + l_k1 c * Rpower r (l_bi c)) + l_c c * (s0 c r th + s1 c r th).
Definition f2 (r th : R) : R := r * (1 - l_b2 c * (th * th)) - l_c c * amu_ c r th.
Lemma f1_direct : forall (rr tt : R -> R) (x r' th' : R), rr x = r -> tt x = th -> is_derive rr x r' -> is_derive tt x th' -> is_derive (fun y => f1 (rr y) (tt y)) x (ar1 c r th * r' + a01 c r th * th').
Proof.
  intros rr tt x r' th' E1 E2 Hr Ht. assert (r0 : 0 < rr x) by lra. unfold f1, s0, s1, sx0, sx1. eapply d_eq.
  - assert (Q := d_mult tt tt x _ _ Ht Ht). apply d_plus; [apply d_mult; [exact Ht|apply d_plus; apply d_scal; apply (d_Rpower rr _ x r' Hr r0)]|]. apply d_scal.
    apply d_plus; (apply d_mult; [apply d_scal_r; apply d_scal_r; apply d_plus; [apply d_const|apply d_scal; exact Q]|apply (d_Rpower rr _ x r' Hr r0)]).
  - cbv beta. rewrite E1, E2. unfold ar1, a01, ar1_i, a01_i, sx0, sx1, sd0, sd1. replace (1 - l_al c - 1) with (- l_al c) by ring. replace (1 - l_ali c - 1) with (- l_ali c) by ring. ring.
Qed.
Lemma f2_direct : forall (rr tt : R -> R) (x r' th' : R), rr x = r -> tt x = th -> is_derive rr x r' -> is_derive tt x th' -> is_derive (fun y => f2 (rr y) (tt y)) x (ar2 c r th * r' + a02 c r th * th').
Proof.
  intros rr tt x r' th' E1 E2 Hr Ht. assert (r0 : 0 < rr x) by lra. unfold f2. eapply d_eq.
  - apply d_minus; [exact (t_d c rr tt x r' th' Hr Ht)|apply d_scal; exact (amu_d c rr tt x r' th' r0 Hr Ht)].
  - unfold td, hd, ar2, a02. rewrite E1, E2. ring.
Qed.
Definition Fh : R := zz c r th / l_a c + l_c c * yy c r th.
Definition Ft : R := yy c r th + l_c c * (l_a c * ww c r th).
Lemma f1_potential : forall (rr tt : R -> R) (x r' th' : R), rr x = r -> tt x = th -> is_derive rr x r' -> is_derive tt x th' ->
  is_derive (fun y => f1 (rr y) (tt y)) x (Fh * hd c rr tt x r' th' + Ft * td c rr tt x r' th').
Proof.
  intros rr tt x r' th' E1 E2 Hr Ht. assert (r0 : 0 < rr x) by lra. assert (G' : gx c (tt x) <> 0) by (rewrite E2; exact G).
  assert (a0 : l_a c <> 0) by (destruct K as [_ [_ [[X _] _]]]; lra).
  pose proof (m_d c 0 (l_k0 c) (LvsTherm.E0 c K) rr tt x r' th' r0 Hr Ht G' a0) as A. pose proof (m_d c (1 / 2) (l_k1 c) (LvsTherm.E0 c K) rr tt x r' th' r0 Hr Ht G' a0) as B.
  pose proof (s_d c 0 (l_k0 c) _ _ _ _ _ (LvsTherm.E0 c K) (LvsTherm.P0 c K) rr tt x r' th' r0 Hr Ht G') as C. pose proof (s_d c (1 / 2) (l_k1 c) _ _ _ _ _ (LvsTherm.E0 c K) (LvsTherm.P1 c K) rr tt x r' th' r0 Hr Ht G') as D.
  pose proof (d_plus _ _ _ _ _ (d_plus _ _ _ _ _ A B) (d_scal _ (l_c c) _ _ (d_plus _ _ _ _ _ C D))) as Z.
  eapply d_ext in Z; [|intros y; instantiate (1 := fun y => f1 (rr y) (tt y)); unfold f1, mi, si, s0, s1, sx0, sx1; cbv beta; rewrite (LvsTherm.bi_eq' c K), (LvsTherm.ali_eq c K), Rplus_0_r, Rminus_0_r; ring].
  eapply d_eq; [exact Z|]. rewrite E1, E2. unfold Fh, Ft, zz, yy, ww, sx0, sx1, sd0, sd1. field. exact a0.
Qed.
Lemma lin : forall r0 k x : R, is_derive (fun y : R => r0 + k * (y - x)) x k.
Proof. intros r0 k x. eapply d_eq; [apply d_plus; [apply d_const|apply d_scal; apply d_minus; [apply d_id|apply d_const]]|]. ring. Qed.
Lemma both : forall r' th', ar1 c r th * r' + a01 c r th * th' =
  Fh * (l_a c * (l_b c * l_del c * Rpower r (l_b c * l_del c - 1) * r' * (th * (1 - th * th)) + Rpower r (l_b c * l_del c) * (1 - 3 * (th * th)) * th')) +
  Ft * (r' * (1 - l_b2 c * (th * th)) - 2 * l_b2 c * r * th * th').
Proof.
  intros r' th'. assert (A : r + r' * (0 - 0) = r) by ring. assert (B : th + th' * (0 - 0) = th) by ring.
  pose proof (f1_direct (fun y => r + r' * (y - 0)) (fun y => th + th' * (y - 0)) 0 r' th' A B (lin r r' 0) (lin th th' 0)) as H1.
  pose proof (f1_potential (fun y => r + r' * (y - 0)) (fun y => th + th' * (y - 0)) 0 r' th' A B (lin r r' 0) (lin th th' 0)) as H2.
  rewrite (d_unique _ _ _ _ H1 H2). unfold hd, td. rewrite A, B. reflexivity.
Qed.
Lemma det : ar1 c r th * a02 c r th - a01 c r th * ar2 c r th <> 0.
Proof.
  pose proof (both 1 0) as A. pose proof (both 0 1) as B.
  assert (P1 : Rpower r (l_b c * l_del c) = r * Rpower r (l_b c * l_del c - 1)).
  { replace (l_b c * l_del c) with (l_b c * l_del c - 1 + 1) at 1 by ring. rewrite Rpower_plus, Rpower_1 by exact rp. ring. }
  assert (P0 : 0 < Rpower r (l_b c * l_del c - 1)) by (unfold Rpower; apply exp_pos). assert (a0 : 0 < l_a c) by (destruct K as [_ [_ [[X _] _]]]; exact X).
  unfold ar2, a02. rewrite P1 in *. set (p := Rpower r (l_b c * l_del c - 1)) in *. rewrite Rmult_1_r, Rmult_0_r in A, B. rewrite Rplus_0_r in A. rewrite Rplus_0_l in B. rewrite A, B.
  assert (E : d2PdM2 c r th = Fh + l_c c * Ft) by (unfold d2PdM2, Fh, Ft; field; lra).
  match goal with |- ?t <> 0 => assert (Z : t = - (d2PdM2 c r th * (l_a c * (r * p) * gx c th))) by (rewrite E; unfold gx, ter; ring) end.
  rewrite Z. intro Q. apply Ropp_eq_0_compat in Q. rewrite Ropp_involutive in Q. revert Q. repeat apply Rmult_integral_contrapositive_currified; try assumption; lra.
Qed.
(** the elimination with pivoting solves the system *)
Lemma solve : forall D T alpha, ar1 c r th * drdT c D T alpha r th + a01 c r th * d0dT c D T alpha r th = e_b1 c D T alpha /\ ar2 c r th * drdT c D T alpha r th + a02 c r th * d0dT c D T alpha r th = e_b2 c T.
Proof.
  intros D T alpha. pose proof det as Dt. unfold drdT, d0dT. set (u := ar1 c r th) in *. set (v := a01 c r th) in *. set (w := ar2 c r th) in *. set (z := a02 c r th) in *.
  destruct (Rlt_dec (Rabs w) (Rabs u)) as [L|L].
  - assert (u <> 0) by (intro Z; rewrite Z, Rabs_R0 in L; pose proof (Rabs_pos w); lra). assert (Z : z * u - w * v <> 0) by (intro; apply Dt; lra). split; field; repeat split; try assumption; lra.
  - assert (w <> 0). { intro Z. rewrite Z, Rabs_R0 in L. assert (u = 0) by (apply Rabs_eq_0; pose proof (Rabs_pos u); lra). apply Dt. rewrite Z, H. ring. }
    assert (Z : v * w - u * z <> 0) by (intro; apply Dt; lra). split; field; repeat split; try assumption; lra.
Qed.
Lemma solve_unique : forall D T alpha r' th' k, ar1 c r th * r' + a01 c r th * th' = e_b1 c D T alpha * k -> ar2 c r th * r' + a02 c r th * th' = e_b2 c T * k -> r' = drdT c D T alpha r th * k /\ th' = d0dT c D T alpha r th * k.
Proof.
  intros D T alpha r' th' k A B. destruct (solve D T alpha) as [C E]. rewrite <- C in A. rewrite <- E in B. pose proof det as Dt.
  set (u := ar1 c r th) in *. set (v := a01 c r th) in *. set (w := ar2 c r th) in *. set (z := a02 c r th) in *. set (p := drdT _ _ _ _ _ _) in *. set (q := d0dT _ _ _ _ _ _) in *.
  assert (Z1 : (u * z - v * w) * (r' - p * k) = 0). { transitivity (z * (u * r' + v * th') - v * (w * r' + z * th') - (u * z - v * w) * (p * k)); [ring|]. rewrite A, B. ring. }
  assert (Z2 : (u * z - v * w) * (th' - q * k) = 0). { transitivity (u * (w * r' + z * th') - w * (u * r' + v * th') - (u * z - v * w) * (q * k)); [ring|]. rewrite A, B. ring. }
  apply Rmult_integral in Z1. apply Rmult_integral in Z2. split; lra.
Qed.
End Det.

Section Poly.
Variables (c : lvs) (r th : R -> R) (x r' th' : R).
Hypothesis r0 : 0 < r x.
Hypothesis Hr : is_derive r x r'.
Hypothesis Ht : is_derive th x th'.
Hypothesis G : gx c (th x) <> 0.
Definition qd : R := 2 * (l_b2 c * (2 * l_b c * l_del c - 1) - 3) * th x * th' - 4 * l_b2 c * (2 * l_b c * l_del c - 3) * th x ^ 3 * th'.
Lemma gq : forall t, gx c t = e_q c t. Proof. intros. unfold gx, e_q, ter. ring. Qed.
Lemma q0 : e_q c (th x) <> 0. Proof. rewrite <- gq. exact G. Qed.
Lemma p_d : forall n, is_derive (fun y => th y ^ n) x (INR n * th' * th x ^ pred n). Proof. intros n. exact (d_pow th n x th' Ht). Qed.
Lemma q_d : is_derive (fun y => e_q c (th y)) x qd.
Proof.
  unfold e_q, qd. eapply d_eq; [apply d_minus; [apply d_plus; [apply d_const|apply d_scal; exact (p_d 2)]|apply d_scal; exact (p_d 4)]|]. cbn [INR pred]. ring.
Qed.
Lemma ui_d : forall be, is_derive (fun y => ui c (th y) be) x ((- 2 * l_b2 c * (1 - 2 * be) * th x * th' - ui c (th x) be * qd) / e_q c (th x)).
Proof.
  intros be. unfold ui at 1. eapply d_eq; [apply d_div; [apply d_minus; [apply d_const|apply d_scal; exact (p_d 2)]|exact q_d|exact q0]|]. cbv beta. cbn [INR pred]. unfold ui. pose proof q0. field. assumption.
Qed.
Lemma vi_d : forall be, is_derive (fun y => vi c (th y) be) x (((be - l_b c * l_del c) * th' + 3 * (l_b c * l_del c - 3 * be) * th x ^ 2 * th' - vi c (th x) be * qd) / e_q c (th x)).
Proof.
  intros be. unfold vi at 1. eapply d_eq; [apply d_div; [apply d_plus; [apply d_scal; exact Ht|apply d_scal; exact (p_d 3)]|exact q_d|exact q0]|]. cbv beta. cbn [INR pred]. unfold vi. pose proof q0. field. assumption.
Qed.
Lemma wj_d : forall al q0_ q2_, is_derive (fun y => wj c (th y) al (q0_ + q2_ * (th y * th y)) (2 * q2_ * th y)) x
  (((1 - al) * ((1 - 3 * th x ^ 2) * (2 * q2_ * th x * th') - 6 * th x * (q0_ + q2_ * (th x * th x)) * th') - l_b c * l_del c * ((th x - th x ^ 3) * (2 * q2_ * th') + 2 * q2_ * th x * (th' - 3 * th x ^ 2 * th'))
    - wj c (th x) al (q0_ + q2_ * (th x * th x)) (2 * q2_ * th x) * qd) / e_q c (th x)).
Proof.
  intros al q0_ q2_. unfold wj at 1. eapply d_eq; [apply d_div; [apply d_minus; [apply d_mult; [apply d_scal; apply d_minus; [apply d_const|apply d_scal; exact (p_d 2)]|apply d_plus; [apply d_const|apply d_scal; exact (th2_d th x th' Ht)]]|
    apply d_mult; [apply d_scal; apply d_minus; [exact Ht|exact (p_d 3)]|apply d_scal; exact Ht]]|exact q_d|exact q0]|].
  cbv beta. cbn [INR pred]. unfold wj. pose proof q0. field. assumption.
Qed.
Lemma rp_d : forall e, is_derive (fun y => Rpower (r y) e) x (e * Rpower (r x) (e - 1) * r'). Proof. intros e. exact (d_Rpower r e x r' Hr r0). Qed.
Definition zd (k be ga : R) : R := k * (Rpower (r x) (- ga) * ((- 2 * l_b2 c * (1 - 2 * be) * th x * th' - ui c (th x) be * qd) / e_q c (th x)) - ui c (th x) be * ga * Rpower (r x) (-1 - ga) * r').
Definition yd (k be : R) : R := k * (Rpower (r x) (be - 1) * (((be - l_b c * l_del c) * th' + 3 * (l_b c * l_del c - 3 * be) * th x ^ 2 * th' - vi c (th x) be * qd) / e_q c (th x)) + vi c (th x) be * (be - 1) * Rpower (r x) (be - 2) * r').
Definition wd (k al q0_ q2_ : R) : R := k * (Rpower (r x) (- al) * (((1 - al) * ((1 - 3 * th x ^ 2) * (2 * q2_ * th x * th') - 6 * th x * (q0_ + q2_ * (th x * th x)) * th') - l_b c * l_del c * ((th x - th x ^ 3) * (2 * q2_ * th') + 2 * q2_ * th x * (th' - 3 * th x ^ 2 * th'))
    - wj c (th x) al (q0_ + q2_ * (th x * th x)) (2 * q2_ * th x) * qd) / e_q c (th x)) - al * Rpower (r x) (-1 - al) * r' * wj c (th x) al (q0_ + q2_ * (th x * th x)) (2 * q2_ * th x)).
Lemma z_dd : forall deli k, is_derive (fun y => zi c deli k (r y) (th y)) x (zd k (l_b c + deli) (gam c - deli)).
Proof.
  intros deli k. apply (d_ext (fun y => k * (ui c (th y) (l_b c + deli) * Rpower (r y) (- (gam c - deli))))).
  - intros y. unfold zi, ui. rewrite gq. unfold Rdiv. ring.
  - eapply d_eq; [apply d_scal; apply d_mult; [apply ui_d|apply rp_d]|]. cbv beta. unfold zd. replace (- (gam c - deli) - 1) with (-1 - (gam c - deli)) by ring. ring.
Qed.
Lemma y_dd : forall deli k, is_derive (fun y => yi c deli k (r y) (th y)) x (yd k (l_b c + deli)).
Proof.
  intros deli k. apply (d_ext (fun y => k * (vi c (th y) (l_b c + deli) * Rpower (r y) (l_b c + deli - 1)))).
  - intros y. unfold yi, vi. rewrite gq. unfold Rdiv. ring.
  - eapply d_eq; [apply d_scal; apply d_mult; [apply vi_d|apply rp_d]|]. cbv beta. unfold yd. replace (l_b c + deli - 1 - 1) with (l_b c + deli - 2) by ring. ring.
Qed.
Lemma w_dd : forall deli k q0_ q2_, is_derive (fun y => wi c deli k (q0_ + q2_ * (th y * th y)) (2 * q2_ * th y) (r y) (th y)) x (wd k (l_al c - deli) q0_ q2_).
Proof.
  intros deli k q0_ q2_. apply (d_ext (fun y => k * (wj c (th y) (l_al c - deli) (q0_ + q2_ * (th y * th y)) (2 * q2_ * th y) * Rpower (r y) (- (l_al c - deli))))).
  - intros y. unfold wi, wj. rewrite gq. unfold Rdiv. ring.
  - eapply d_eq; [apply d_scal; apply d_mult; [apply wj_d|apply rp_d]|]. cbv beta. unfold wd. replace (- (l_al c - deli) - 1) with (-1 - (l_al c - deli)) by ring. ring.
Qed.
End Poly.

(** *** along a path on which the pressure does not change *)
Section Iso.
Variables (c : lvs) (T D r th : R -> R) (x T' D' r' th' : R).
Hypothesis K : lvs_constants c.
Hypothesis Hp : path c T D r th x T' D' r' th'.
Hypothesis Rg : regular c (D x) (r x) (th x).
Let F y := thmLVS c (T y) (D y) (r y) (th y).
Let P y := Pof c (T y) (r y) (th y).
Hypothesis iso : is_derive P x 0.
Let al := h_alpha (F x).
Lemma Pp0 : Pp c T D r th x T' r' th' = 0. Proof. exact (d_unique _ _ _ _ (P_d c T D r th x T' D' r' th' K Hp) iso). Qed.
Lemma D'_eq : D' = - al * D x * T'.
Proof. rewrite (alpha_total c T D r th x T' D' r' th' K Hp Rg) at 1. rewrite Pp0. unfold al, F. ring. Qed.
Let dr := drdT c (D x) (T x) al (r x) (th x).
Let d0 := d0dT c (D x) (T x) al (r x) (th x).
Lemma slopes : r' = dr * T' /\ th' = d0 * T'.
Proof.
  pose proof (HsT c T D r th x T' D' r' th' Hp) as Hs. destruct Rg as [G [M Dp]]. pose proof (Tn c T D r th x T' D' r' th' Hp) as Tn. pose proof (rc0 c K) as rcn.
  destruct Hp as [L [HT [HD [Hr Ht]]]]. assert (rp := proj1 (proj2 Hs)).
  apply (solve_unique c (r x) (th x) K rp G M).
  - apply Rmult_eq_reg_l with (l_rc c); [|exact rcn].
    transitivity (D' - l_rc c * (l_p11 c * (- Tw c (T x) / T x * T'))).
    + pose proof (f1_direct c (r x) (th x) rp r th x r' th' eq_refl eq_refl Hr Ht) as A.
      apply d_unique with (fun y => D y - l_rc c * (l_p11 c * dTw c (T y))) x; [|apply d_minus; [exact HD|apply d_scal; apply d_scal; exact (dTw_d c T D r th x T' D' r' th' Hp)]].
      apply is_derive_ext_loc with (fun y => l_rc c * f1 c (r y) (th y) + l_rc c); [revert L; apply filter_imp; intros y [_ [_ [_ E]]]; rewrite E; unfold rhow, f1; asR; ring|].
      eapply d_eq; [apply d_plus; [apply d_scal; exact A|apply d_const]|]. ring.
    + rewrite D'_eq. unfold e_b1, Tw. field. split; assumption.
  - transitivity (- Tw c (T x) / T x * T').
    + pose proof (f2_direct c (r x) (th x) rp r th x r' th' eq_refl eq_refl Hr Ht) as A.
      apply d_unique with (fun y => f2 c (r y) (th y)) x; [exact A|].
      apply is_derive_ext_loc with (fun y => dTw c (T y)); [|exact (dTw_d c T D r th x T' D' r' th' Hp)].
      revert L; apply filter_imp; intros y [_ [_ [E _]]]. unfold f2. rewrite <- E. asR. ring.
    + unfold e_b2, Tw. field. assumption.
Qed.

Let MM y := d2PdM2 c (r y) (th y).
Let MT y := d2PdMT c (r y) (th y).
Lemma cg1_eq : cg1 c = gam c - 1 / 2. Proof. unfold cg1, cg0, gam. destruct K as [[_ [_ [_ X]]] _]. rewrite X. reflexivity. Qed.
Lemma MM_d : is_derive MM x ((dPdMMT c (D x) (T x) al (r x) (th x) - misplaced c (D x) (T x) al (r x) (th x)) * T').
Proof.
  destruct slopes as [E1 E2]. destruct Rg as [G [_ _]]. pose proof (LvsTherm.r0 c T D r th x T' D' r' th' Hp) as rp. pose proof (LvsTherm.dr c T D r th x T' D' r' th' Hp) as Hr. pose proof (dth c T D r th x T' D' r' th' Hp) as Ht.
  pose proof (a0 c K) as an.
  unfold MM, d2PdM2, zz, yy, ww, Rdiv. eapply d_eq.
  - apply d_plus; [apply d_plus; [apply d_scal_r; apply d_plus; [apply d_plus; [apply d_const|]|]; apply (z_dd c r th x r' th' rp Hr Ht G)|apply d_scal; apply d_plus; [apply d_plus; [apply d_const|]|]; apply (y_dd c r th x r' th' rp Hr Ht G)]|
      apply d_scal; apply d_plus; [apply d_plus; [apply d_const|]|]; apply (w_dd c r th x r' th' rp Hr Ht G)].
  - unfold dPdMMT, misplaced, slip, tMMT, zd, yd, wd, dui, dvi, dwj, dqdT, qd, dsdT0, dsdT1, dspdT0, dspdT1, sx0, sx1, sd0, sd1. fold dr d0. rewrite cg1_eq, (ali_eq c K), (bi_eq' c K), E1, E2, !Rminus_0_r, !Rplus_0_r. change (cg0 c) with (gam c).
    unfold Rdiv. ring.
Qed.
Lemma MT_d : is_derive MT x (dPdMTT c (D x) (T x) al (r x) (th x) * T').
Proof.
  destruct slopes as [E1 E2]. destruct Rg as [G [_ _]]. pose proof (LvsTherm.r0 c T D r th x T' D' r' th' Hp) as rp. pose proof (LvsTherm.dr c T D r th x T' D' r' th' Hp) as Hr. pose proof (dth c T D r th x T' D' r' th' Hp) as Ht.
  unfold MT, d2PdMT, yy, ww. eapply d_eq.
  - apply d_plus; [apply d_plus; [apply d_plus; [apply d_const|]|]; apply (y_dd c r th x r' th' rp Hr Ht G)|apply d_scal; apply d_plus; [apply d_plus; [apply d_const|]|]; apply (w_dd c r th x r' th' rp Hr Ht G)].
  - unfold dPdMTT, tMTT, yd, wd, dvi, dwj, dqdT, qd, dsdT0, dsdT1, dspdT0, dspdT1, sx0, sx1, sd0, sd1. fold dr d0. rewrite (ali_eq c K), (bi_eq' c K), E1, E2, !Rminus_0_r, !Rplus_0_r.
    unfold Rdiv. ring.
Qed.

(** the pressure slope at constant density, in the units of the potential *)
Lemma amu_d' : is_derive (fun y => amu_ c (r y) (th y)) x (ddelMT c (D x) (T x) al (r x) (th x) * T').
Proof.
  destruct slopes as [E1 E2]. pose proof (LvsTherm.r0 c T D r th x T' D' r' th' Hp) as rp. pose proof (LvsTherm.dr c T D r th x T' D' r' th' Hp) as Hr. pose proof (dth c T D r th x T' D' r' th' Hp) as Ht.
  unfold amu_. eapply d_eq.
  - apply d_mult; [apply d_mult; [apply d_scal; apply (rp_d r x r' rp Hr)|exact Ht]|apply d_minus; [apply d_const|exact (th2_d th x th' Ht)]].
  - cbv beta. unfold ddelMT. fold dr d0. rewrite E1, E2. replace (Rpower (r x) (l_b c * l_del c - 1)) with (Rpower (r x) (l_b c * l_del c) / r x).
    + field. lra.
    + unfold Rminus. rewrite Rpower_plus, Rpower_Ropp, Rpower_1 by exact rp. reflexivity.
Qed.
Lemma s_d' : is_derive (fun y => s0 c (r y) (th y) + s1 c (r y) (th y)) x (dPdTT c (D x) (T x) al (r x) (th x) * T').
Proof.
  destruct slopes as [E1 E2]. pose proof (LvsTherm.r0 c T D r th x T' D' r' th' Hp) as rp. pose proof (LvsTherm.dr c T D r th x T' D' r' th' Hp) as Hr. pose proof (dth c T D r th x T' D' r' th' Hp) as Ht.
  unfold s0, s1, sx0, sx1. eapply d_eq.
  - apply d_plus; (apply d_mult; [apply d_scal_r; apply d_scal_r; apply d_plus; [apply d_const|apply d_scal; exact (th2_d th x th' Ht)]|apply (rp_d r x r' rp Hr)]).
  - cbv beta. unfold dPdTT, tTT, dsdT0, dsdT1, sx0, sx1. fold dr d0. rewrite E1, E2. replace (1 - l_al c - 1) with (- l_al c) by ring. replace (1 - l_ali c - 1) with (- l_ali c) by ring. ring.
Qed.
Definition dPPTT_right : R := dPPTT c (D x) (T x) al (r x) (th x) - (l_p11 c + MT x) * (D x / l_rc c * misplaced c (D x) (T x) al (r x) (th x) / MM x ^ 2).
Lemma cd_d : is_derive (fun y => dPdTcd c (T y) (D y) (r y) (th y)) x (dPPTT_right * T').
Proof.
  pose proof (dP0_d c T D r th x T' D' r' th' Hp) as A. pose proof (dD c T D r th x T' D' r' th' Hp) as B. pose proof (Tn c T D r th x T' D' r' th' Hp) as Tn'. pose proof (rc0 c K) as rcn. destruct Rg as [G [M Dp]].
  apply (d_ext (fun y => dP0dT c (T y) + l_p11 c * (amu_ c (r y) (th y) - D y * / l_rc c / MM y) + (s0 c (r y) (th y) + s1 c (r y) (th y)) - MT y * (D y * / l_rc c) / MM y)).
  { intros y. unfold dPdTcd. fold (MM y) (MT y). unfold Rdiv. ring. }
  eapply d_eq.
  - apply d_minus; [apply d_plus; [apply d_plus; [exact A|apply d_scal; apply d_minus; [exact amu_d'|apply d_div; [apply d_scal_r; exact B|exact MM_d|exact M]]]|exact s_d']|apply d_div; [apply d_mult; [exact MT_d|apply d_scal_r; exact B]|exact MM_d|exact M]].
  - cbv beta. unfold dPPTT_right, dPPTT. fold (MM x) (MT x). rewrite D'_eq. unfold dP0dTT, d2P0dT, delT, dTw, Tw.
    change (d2PdM2 c (r x) (th x)) with (MM x) in M.
    generalize dependent (MM x). intros m M. generalize (MT x). intros mt.
    field. repeat split; assumption.
Qed.
Lemma pterm_ : forall y, T y <> 0 -> P y / l_Pc c + dPdTcd c (T y) (D y) (r y) (th y) = T y / l_Tc c * (Pw c (T y) (r y) (th y) - Tw c (T y) * dPdTcd c (T y) (D y) (r y) (th y)).
Proof. intros y Ty. unfold P, Pof, Tw. rewrite (KPcon c K). pose proof (Pcn c K). pose proof (Tcn c K). field. repeat split; assumption. Qed.
Lemma alpha_form : forall y, T y <> 0 -> D y <> 0 -> MM y <> 0 -> h_alpha (F y) = l_Tc c * l_rc c ^ 2 / D y ^ 2 / T y ^ 2 * (MM y * (P y / l_Pc c + dPdTcd c (T y) (D y) (r y) (th y))).
Proof.
  intros y Ty Dy My. rewrite (pterm_ y Ty). unfold F, thmLVS. cbn [h_alpha]. unfold dPdD. fold (MM y). rewrite (Kd c K), (KPcon c K). pose proof (Pcn c K). pose proof (Tcn c K). pose proof (rc0 c K). field. repeat split; assumption.
Qed.
Lemma alpha_slope : is_derive (fun y => h_alpha (F y)) x ((dalLVS c (D x) (T x) (P x) al (r x) (th x) - excess c (D x) (T x) (P x) al (r x) (th x)) * T').
Proof.
  pose proof (dT c T D r th x T' D' r' th' Hp) as dT_. pose proof (dD c T D r th x T' D' r' th' Hp) as dD_. pose proof (Tn c T D r th x T' D' r' th' Hp) as Tn'. pose proof (Dn c D r th x Rg) as Dn'.
  assert (Mn : MM x <> 0) by exact (proj1 (proj2 Rg)).
  apply is_derive_ext_loc with (fun y => l_Tc c * l_rc c ^ 2 / D y ^ 2 / T y ^ 2 * (MM y * (P y / l_Pc c + dPdTcd c (T y) (D y) (r y) (th y)))).
  - assert (L : locally x (fun y : R => (D y <> 0 /\ 0 < T y) /\ MM y <> 0)).
    { apply filter_and; [exact (nearD c T D r th x T' D' r' th' Hp Rg)|]. apply (ex_derive_continuous MM x (ex_intro _ _ MM_d) (fun z => z <> 0)). exists (mkposreal (Rabs (MM x)) (Rabs_pos_lt _ Mn)). intros z Hz E. subst z.
      unfold ball in Hz; cbn in Hz. unfold AbsRing_ball, abs, minus, plus, opp in Hz; cbn in Hz. rewrite Rplus_0_l, Rabs_Ropp in Hz. lra. }
    revert L. apply filter_imp. intros y [[Dy Ty] My]. symmetry. apply alpha_form; [lra|exact Dy|exact My].
  - eapply d_eq.
    + apply d_mult; [unfold Rdiv; apply d_div; [apply d_div; [apply d_const|exact (d_pow D 2 x D' dD_)|]|exact (d_pow T 2 x T' dT_)|]; apply pow_nonzero; assumption|].
      apply d_mult; [exact MM_d|apply d_plus; [apply d_scal_r; exact iso|exact cd_d]].
    + cbv beta. unfold dalLVS, excess, pterm. fold (MM x). set (pt := P x / l_Pc c + dPdTcd c (T x) (D x) (r x) (th x)).
      assert (PT : P x / l_Pc c + dP0dT c (T x) + l_p11 c * amu_ c (r x) (th x) + s0 c (r x) (th x) + s1 c (r x) (th x) = pt + (l_p11 c + MT x) * (D x / l_rc c) / MM x).
      { unfold pt, dPdTcd. fold (MM x) (MT x). pose proof (rc0 c K). pose proof (Pcn c K). field. repeat split; assumption. }
      rewrite PT. unfold dPPTT_right. rewrite D'_eq. cbn [INR pred]. pose proof (rc0 c K) as rcn.
      change (P x * / l_Pc c + dPdTcd c (T x) (D x) (r x) (th x)) with pt.
      generalize dependent pt. intros pt _. generalize (dPPTT c (D x) (T x) al (r x) (th x)) (dPdMMT c (D x) (T x) al (r x) (th x)) (misplaced c (D x) (T x) al (r x) (th x)). generalize (MT x).
      generalize dependent (MM x). intros. pose proof (Pcn c K). field. repeat split; assumption.
Qed.
End Iso.
