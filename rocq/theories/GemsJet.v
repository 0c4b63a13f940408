(** The terms of the equation of Haar, Gallagher and Kell as tables of derivatives.  *)
From Coq Require Import List Bool ZArith Reals Lra Lia.
From Coquelicot Require Import Coquelicot.
From Verif Require Import RDeriv RDiff2 WaterModel WaterSpec HelmModel HelmJet HelmProofs HelmMore SoluteProofs HelmHgk GemsModel.
Import ListNotations.
Open Scope R_scope.

(** *** sums *)
Lemma fold_plus : forall (X : Type) (f : X -> R) (l : list X) (s : R), fold_left (fun s x => s + f x) l s = s + fold_left (fun s x => s + f x) l 0.
Proof. intros X f l. induction l as [|x l IH]; intro s; cbn [fold_left]; [ring|]. rewrite (IH (s + f x)), (IH (0 + f x)). ring. Qed.
Lemma gsum_cons : forall (X : Type) (f : X -> R) x l, gsum f (x :: l) = f x + gsum f l.
Proof. intros X f x l. unfold gsum. cbn [fold_left]. rewrite fold_plus. ring. Qed.
Lemma gsum_ext : forall (X : Type) (f g : X -> R) l, (forall x, In x l -> f x = g x) -> gsum f l = gsum g l.
Proof.
  intros X f g l. induction l as [|x l IH]; intro H; [reflexivity|]. rewrite !gsum_cons. rewrite (H x (or_introl eq_refl)). f_equal. apply IH. intros y Hy. apply H. now right.
Qed.
Lemma gsum_scal : forall (X : Type) (f : X -> R) (c : R) l, gsum (fun x => f x * c) l = gsum f l * c.
Proof. intros X f c l. induction l as [|x l IH]; [unfold gsum; cbn; ring|]. rewrite !gsum_cons, IH. ring. Qed.
Definition linear (L : helm -> R) : Prop := L hzero = 0 /\ forall a b, L (hadd a b) = L a + L b.
Lemma gsum_lin : forall (X : Type) (L : helm -> R) (F : X -> helm) (f : X -> R) l, linear L -> (forall x, In x l -> f x = L (F x)) -> gsum f l = L (hsum F l).
Proof.
  intros X L F f l [L0 LA] H. unfold gsum, hsum. rewrite <- L0. generalize hzero. revert H. induction l as [|x l IH]; intros H h; cbn [fold_left]; [reflexivity|].
  rewrite (H x (or_introl eq_refl)), <- LA. apply IH. intros y Hy. apply H. now right.
Qed.

(** *** the first 36 terms: g / k * (1 - exp(-d))^k * (tz / t)^(l - 1) *)
Lemma qt_eq : forall t n, t <> 0 -> qt t (S n) = (tz / t) ^ n.
Proof.
  intros t n Ht. assert (Z : tz <> 0) by (unfold tz; lra). induction n as [|n IH].
  - cbn [qt pow]. field. now split.
  - change (qt t (S (S n))) with (qt t (S n) * (tz / t)). rewrite IH. cbn [pow]. ring.
Qed.
Lemma qr_eq : forall d n, qr d (S n) = d * d * exp (- aa * d) * (1 - exp (- aa * d)) ^ n.
Proof.
  intros d n. induction n as [|n IH]; [cbn [qr pow]; ring|]. change (qr d (S (S n))) with (qr d (S n) * (1 - exp (- aa * d))). rewrite IH. cbn [pow]. ring.
Qed.
Definition dq (x : R) : der := let z := 1 - exp (- aa * x) in mkDer z (aa * (1 - z)) (- aa * (aa * (1 - z))) (- aa * (- aa * (aa * (1 - z)))).
Lemma j_q : forall V, jet1 V dq.
Proof.
  intros V x _. assert (K : is_derive (fun x : R => 1 - exp (- aa * x)) x (aa * (1 - (1 - exp (- aa * x))))).
  { generalize aa. intro c. eapply d_eq; [dr|cbv beta; ring]. }
  unfold dq. cbv zeta. split; [|split]; hp; [exact K| |].
  - eapply d_eq; [exact (d_scal _ aa x _ (d_minus _ _ _ _ _ (d_const 1 x) K))|ring].
  - eapply d_eq; [exact (d_scal _ (- aa) x _ (d_scal _ aa x _ (d_minus _ _ _ _ _ (d_const 1 x) K)))|ring].
Qed.
Lemma q_rng : forall d, 0 < d -> 0 < 1 - exp (- aa * d) < 1.
Proof.
  intros d Hd. assert (P := exp_pos (- aa * d)). split; [|lra]. assert (Q : exp (- aa * d) < 1); [|lra]. rewrite <- exp_0. apply exp_increasing. unfold aa. lra.
Qed.
Definition F36 (x : t36) (t d : R) : helm :=
  hsep (dmul (cst (tz ^ (a_jj x - 1))) (dnp (a_jj x - 1) t)) (dmul (cst (a_g x / INR (S (a_ii x)))) (dcomp (dpow (S (a_ii x))) (dq d))).
Lemma F36_jet : forall x, jet Upos (F36 x).
Proof.
  intro x. unfold F36. apply (jet_sep posx posx (fun t => dmul (cst (tz ^ (a_jj x - 1))) (dnp (a_jj x - 1) t)) (fun d => dmul (cst (a_g x / INR (S (a_ii x)))) (dcomp (dpow (S (a_ii x))) (dq d)))); [| |exact pos_pp].
  - apply (jet1_mul posx (fun _ => cst (tz ^ (a_jj x - 1)))); [apply j_cst|apply j_np].
  - apply (jet1_mul posx (fun _ => cst (a_g x / INR (S (a_ii x))))); [apply j_cst|]. apply (jet1_comp nzx posx (dpow (S (a_ii x)))); [apply j_pow|apply j_q|].
    intros y Hy. unfold dq, nzx. cbv zeta. hp. assert (Q := q_rng y Hy). lra.
Qed.
Lemma pzm3 : forall z m, z <> 0 -> powerRZ z (Z.of_nat (S m) - 3) = z ^ m / z ^ 2.
Proof.
  intros z m Hz. replace (Z.of_nat (S m) - 3)%Z with (Z.of_nat m + (-2))%Z by lia. rewrite powerRZ_add by exact Hz. rewrite <- pow_powerRZ. reflexivity.
Qed.
Lemma tables36 : forall x t d al, 0 < t -> 0 < d -> (1 <= a_jj x)%nat -> let F := F36 x t d in
  qp36 x t d = d * d * hD F /\ q5_36 x t d = 2 * d * hD F + d * d * hDD F /\ ar36 x t d = h0 F / (gascon * t) /\ a_g x * dfdt36 x t d = hT F /\
  a_g x * dpt36 x t d = d * d * hTD F /\ cvr36 x t d = - t * hTT F / gascon /\
  r_dd36 x t d = hD F /\ r_2dd36 x t d = hDD F /\ r_2ddt36 x t d = hTD F /\
  r_2dtp36 x t d al = hTD F - al * d * hDD F /\ r_3ddt36 x t d al = hTDD F - al * d * hDDD F /\ r_3dtt36 x t d al = hTTD F - al * d * hTDD F.
Proof.
  intros [g m jj] t d al Ht Hd Hj. destruct jj as [|n]; [cbn in Hj; lia|]. cbv zeta. cbn [a_g a_ii a_jj].
  assert (Q := q_rng d Hd). assert (E0 := exp_pos (- aa * d)).
  assert (QP : qp36 (mkT36 g m (S n)) t d = g * aa * (d * d * exp (- aa * d)) * (1 - exp (- aa * d)) ^ m * (tz / t) ^ n).
  { unfold qp36, qzr, qzt. cbn [a_g a_ii a_jj]. replace (S n - 1 + 1)%nat with (S n) by lia. rewrite qt_eq by lra.
    destruct m as [|m]; cbn [Nat.eqb]; [rewrite qr_eq; cbn [pow]; ring|].
    replace (S (S m) - 2 + 2)%nat with (S (S m)) by lia. rewrite qr_eq. ring. }
  unfold q5_36. rewrite QP. unfold ar36, dpt36, cvr36, dfdt36, qzr, qzt, r_dd36, r_2dd36, r_2ddt36, r_2dtp36, r_3ddt36, r_3dtt36, F36. cbn [a_g a_ii a_jj].
  replace (S m - 1 + 2)%nat with (S (S m)) by lia. replace (S n - 1 + 1)%nat with (S n) by lia. replace (S n + 1)%nat with (S (S n)) by lia. replace (S n - 1)%nat with n by lia. replace (S m - 1)%nat with m by lia.
  rewrite !qt_eq, qr_eq by lra. assert (EZ : exp (- aa * d) = 1 - (1 - exp (- aa * d))) by ring. unfold dq. cbv zeta. set (z := 1 - exp (- aa * d)) in *. rewrite EZ in *. clearbody z. clear EZ QP.
  rewrite pzm3 by lra. rewrite !S_INR. assert (GK : INR m + 1 <> 0) by (assert (H := pos_INR m); lra).
  assert (TN : tz ^ n * / t ^ n = (tz / t) ^ n) by (unfold Rdiv; rewrite Rpow_mult_distr, <- pow_inv; reflexivity).
  assert (TZ : tz <> 0) by (unfold tz; lra).
  assert (G0 : gascon <> 0) by (unfold gascon; lra).
  assert (A0 : aa <> 0) by (unfold aa; lra).
  assert (X : dmul (cst (tz ^ n)) (dnp n t) = mkDer ((tz / t) ^ n) (- INR n / t * (tz / t) ^ n) ((- INR n - 1) / t * (- INR n / t * (tz / t) ^ n)) ((- INR n - 2) / t * ((- INR n - 1) / t * (- INR n / t * (tz / t) ^ n)))).
  { unfold dmul, cst, dnp. hp. rewrite <- TN. generalize (tz ^ n), (/ t ^ n). intros p q. f_equal; field; lra. }
  rewrite X. clear X TN. cbn [pow]. generalize ((tz / t) ^ n), (INR n). intros V N.
  unfold dpow. cbv beta iota zeta delta [hsep dmul dcomp cst d0 d1 d2 d3 h0 hT hD hTT hTD hDD hTTT hTTD hTDD hDDD].
  rewrite S_INR. cbn [pow]. revert GK. generalize (INR m), (z ^ m). intros M Z GK. generalize dependent gascon. intros R0 G0. generalize dependent tz. intros tz' TZ.
  assert (AE : aa = 1) by reflexivity. rewrite AE. clear A0 AE E0.
  assert (Ht' : t <> 0) by lra. assert (Hd' : d <> 0) by lra. assert (z1 : 1 - z <> 0) by lra. assert (z0 : z <> 0) by lra. clear Q Ht Hd.
  repeat match goal with |- _ /\ _ => split end; field; repeat split; assumption.
Qed.

(** *** the last four terms, away from the switches *)
Lemma lt_open : forall (f : R -> R) (c : R), (forall x : R, continuous f x) -> open1 (fun x => f x < c).
Proof. intros f c C x Hx. apply (C x (fun y => y < c)). exact (open_lt c (f x) Hx). Qed.
Lemma gt_open : forall (f : R -> R) (c : R), (forall x : R, continuous f x) -> open1 (fun x => c < f x).
Proof. intros f c C x Hx. apply (C x (fun y => c < y)). exact (open_gt c (f x) Hx). Qed.
Lemma cont_d : forall (f g : R -> R), (forall x : R, is_derive f x (g x)) -> forall x : R, continuous f x.
Proof. intros f g H x. apply (ex_derive_continuous f x). exists (g x). apply H. Qed.
Lemma jet1_or : forall (V W : R -> Prop) f, jet1 V f -> jet1 W f -> jet1 (fun x => V x \/ W x) f.
Proof. intros V W f HV HW x [H|H]; [now apply HV|now apply HW]. Qed.
Definition aff (r x : R) : der := mkDer (x / r - 1) (1 / r) 0 0.
Lemma j_affine : forall V r, jet1 V (aff r).
Proof. intros V r x _. unfold aff. split; [|split]; hp; [|apply d_const..]. unfold Rdiv. generalize (/ r). intro c. eapply d_eq; [dr|cbv beta; ring]. Qed.
Definition dT4 (x : t4) (t : R) : der :=
  if Rle_dec (ex2_4 x t) EXPTOL then cst 0 else dcomp dexp (mkDer (- e_at x * tau4 x t * tau4 x t) (-2 * e_at x * tau4 x t / e_tz x) (-2 * e_at x / e_tz x / e_tz x) 0).
Definition V4t (x : t4) (t : R) : Prop := ex2_4 x t < EXPTOL \/ EXPTOL < ex2_4 x t.
Lemma j_ex2 : forall V x, e_tz x <> 0 -> jet1 V (fun t => mkDer (ex2_4 x t) (-2 * e_at x * tau4 x t / e_tz x) (-2 * e_at x / e_tz x / e_tz x) 0).
Proof.
  intros V [g k km dz a z b] N t _. cbn [e_tz] in N. unfold ex2_4, tau4. cbn [e_at e_tz]. split; [|split]; hp; [| |apply d_const]; (eapply d_eq; [dr|cbv beta; field]; exact N).
Qed.
Lemma j_T4 : forall x, e_tz x <> 0 -> jet1 (V4t x) (dT4 x).
Proof.
  intros x N. assert (C : forall t : R, continuous (ex2_4 x) t) by (apply (cont_d _ (fun t => -2 * e_at x * tau4 x t / e_tz x)); intro t; exact (proj1 (j_ex2 anyx x N t I))).
  apply jet1_or.
  - apply jet1_ext with (fun _ => cst 0); [now apply lt_open| |apply j_cst]. intros t Ht. unfold dT4. destruct (Rle_dec (ex2_4 x t) EXPTOL); [reflexivity|lra].
  - apply jet1_ext with (fun t => dcomp dexp (mkDer (ex2_4 x t) (-2 * e_at x * tau4 x t / e_tz x) (-2 * e_at x / e_tz x / e_tz x) 0)); [now apply gt_open| |].
    + intros t Ht. unfold dT4. destruct (Rle_dec (ex2_4 x t) EXPTOL); [lra|reflexivity].
    + apply (jet1_comp anyx _ dexp); [apply j_exp|now apply j_ex2|now intros].
Qed.
Definition ex1' (x : t4) (d : R) : R := - e_ad x * (d / e_dz x - 1) ^ e_k x.
Definition dD4 (x : t4) (d : R) : der :=
  if Rlt_dec (ex1' x d) EXPTOL then cst 0
  else dmul (dcomp (dpow (e_km x)) (aff (e_dz x) d)) (dcomp dexp (dmul (cst (- e_ad x)) (dcomp (dpow (e_k x)) (aff (e_dz x) d)))).
Definition V4d (x : t4) (d : R) : Prop := 1 / 10000000000 < Rabs (d / e_dz x - 1) /\ (ex1' x d < EXPTOL \/ EXPTOL < ex1' x d).
Lemma cont_ex1 : forall x (d : R), continuous (ex1' x) d.
Proof.
  intros x d. apply (ex_derive_continuous (ex1' x) d). eexists. exact (d_scal _ (- e_ad x) d _ (d_pow _ (e_k x) d _ (proj1 (j_affine anyx (e_dz x) d I)))).
Qed.
Lemma open_and : forall V W, open1 V -> open1 W -> open1 (fun x => V x /\ W x).
Proof. intros V W HV HW x [A B]. apply filter_and; [now apply HV|now apply HW]. Qed.
Lemma open_or : forall V W, open1 V -> open1 W -> open1 (fun x => V x \/ W x).
Proof.
  intros V W HV HW x [A|A]; [generalize (HV x A)|generalize (HW x A)]; apply filter_imp; intros y Hy; [now left|now right].
Qed.
Lemma open_del : forall r, open1 (fun d => 1 / 10000000000 < Rabs (d / r - 1)).
Proof.
  intro r. apply (gt_open (fun d => Rabs (d / r - 1))). intro d. apply (continuous_comp (fun d => d / r - 1) Rabs); [|apply continuous_Rabs].
  apply (ex_derive_continuous (fun d : R => d / r - 1) d). exists (1 / r). exact (proj1 (j_affine anyx r d I)).
Qed.
Lemma j_D4 : forall x, jet1 (V4d x) (dD4 x).
Proof.
  intro x. assert (O := open_del (e_dz x)).
  assert (NZ : forall d, 1 / 10000000000 < Rabs (d / e_dz x - 1) -> nzx (d0 (aff (e_dz x) d))).
  { intros d H. unfold aff, nzx. hp. intro E. rewrite E, Rabs_R0 in H. lra. }
  apply jet1_sub with (fun d => (1 / 10000000000 < Rabs (d / e_dz x - 1) /\ ex1' x d < EXPTOL) \/ (1 / 10000000000 < Rabs (d / e_dz x - 1) /\ EXPTOL < ex1' x d)); [intros d [A [B|B]]; [left|right]; now split|].
  apply jet1_or.
  - apply jet1_ext with (fun _ => cst 0); [apply open_and; [exact O|apply lt_open, cont_ex1]| |apply j_cst]. intros d [_ H]. unfold dD4. destruct (Rlt_dec (ex1' x d) EXPTOL); [reflexivity|lra].
  - apply jet1_ext with (fun d => dmul (dcomp (dpow (e_km x)) (aff (e_dz x) d)) (dcomp dexp (dmul (cst (- e_ad x)) (dcomp (dpow (e_k x)) (aff (e_dz x) d))))).
    + apply open_and; [exact O|apply gt_open, cont_ex1].
    + intros d [_ H]. unfold dD4. destruct (Rlt_dec (ex1' x d) EXPTOL); [lra|reflexivity].
    + apply jet1_sub with (fun d => 1 / 10000000000 < Rabs (d / e_dz x - 1)); [now intros d [A _]|].
      assert (J : forall k, jet1 (fun d => 1 / 10000000000 < Rabs (d / e_dz x - 1)) (fun d => dcomp (dpow k) (aff (e_dz x) d))) by (intro k; apply (jet1_comp nzx _ (dpow k)); [apply j_pow|apply j_affine|exact NZ]).
      apply (jet1_mul _ (fun d => dcomp (dpow (e_km x)) (aff (e_dz x) d))); [apply J|].
      apply (jet1_comp anyx _ dexp); [apply j_exp| |now intros]. apply (jet1_mul _ (fun _ => cst (- e_ad x))); [apply j_cst|apply J].
Qed.
Definition F4 (x : t4) (t d : R) : helm := hsep (dT4 x t) (dmul (cst (e_g x)) (dD4 x d)).
Lemma F4_jet : forall x, e_tz x <> 0 -> jet (fun t d => V4t x t /\ V4d x d) (F4 x).
Proof.
  intros x N. unfold F4. apply (jet_sep (V4t x) (V4d x) (dT4 x) (fun d => dmul (cst (e_g x)) (dD4 x d))); [now apply j_T4| |now intros].
  apply (jet1_mul _ (fun _ => cst (e_g x))); [apply j_cst|apply j_D4].
Qed.
Lemma pzm1 : forall z l, z <> 0 -> powerRZ z (Z.of_nat l - 1) = z ^ l / z.
Proof.
  intros z l Hz. replace (Z.of_nat l - 1)%Z with (Z.of_nat l + (-1))%Z by lia. rewrite powerRZ_add by exact Hz. rewrite <- pow_powerRZ. unfold Rdiv. f_equal. change (/ z ^ 1 = / z). now rewrite pow_1.
Qed.
(** what the code's second derivative by density lacks: l / del^2 for l / di^2 *)
Definition bug4 (x : t4) (t d : R) : R :=
  e_g x * del4 x d ^ e_km x * x12_4 x t d / e_dz x / e_dz x * INR (e_km x) * (1 / del4 x d / del4 x d - 1 / e_dz x / e_dz x).
Lemma tables4 : forall x t d al, 0 < t -> 0 < d -> V4d x d -> e_dz x <> 0 -> e_tz x <> 0 -> (2 <= e_k x)%nat -> let F := F4 x t d in
  e_g x * fct4 x t d = d * d * hD F /\ q5t4 x t d * e_g x = 2 * d * hD F + d * d * hDD F /\ q10_4 x t d * e_g x / (gascon * t) = h0 F / (gascon * t) /\
  - (2 * e_g x * e_at x * tau4 x t * q10_4 x t d / e_tz x) = hT F /\ - (2 * e_g x * e_at x * tau4 x t * fct4 x t d / e_tz x) = d * d * hTD F /\
  t * e_g x * (4 * e_at x * ex2_4 x t + 2 * e_at x) * q10_4 x t d / e_tz x / e_tz x = - t * hTT F /\
  r_dd4 x t d = hD F /\ r_2dd4 x t d = hDD F + bug4 x t d /\ r_2ddt4 x t d = hTD F /\
  r_2dtp4 x t d al = hTD F - al * d * hDD F /\ r_3ddt4 x t d al = hTDD F - al * d * hDDD F /\ r_3dtt4 x t d al = hTTD F - al * d * hTDD F.
Proof.
  intros [g k l dz A tz0 at0] t d al Ht Hd [HV HS] Hdz Htz Hk. cbn [e_g e_k e_km e_dz e_ad e_tz e_at] in *. cbv zeta.
  assert (DE : del4 (mkT4 g k l dz A tz0 at0) d = d / dz - 1) by (unfold del4; cbn [e_dz]; destruct (Rlt_dec (Rabs (d / dz - 1)) (1 / 10000000000)); [lra|reflexivity]).
  assert (XE : ex1_4 (mkT4 g k l dz A tz0 at0) d = ex1' (mkT4 g k l dz A tz0 at0) d) by (unfold ex1_4, ex1'; rewrite DE; reflexivity).
  assert (D0 : d / dz - 1 <> 0) by (intro E; rewrite E, Rabs_R0 in HV; lra).
  unfold q5t4, fct4, r_dd4, r_2dd4, r_2ddt4, r_2dtp4, r_3ddt4, r_3dtt4, bug4, q10_4, dex4, x12_4, tex4, qm4, F4, dT4, dD4. rewrite XE, DE.
  unfold ex1'. cbn [e_g e_k e_km e_dz e_ad e_tz e_at] in *. set (x := mkT4 g k l dz A tz0 at0).
  assert (T2 : ex2_4 x t = - at0 * tau4 x t * tau4 x t) by reflexivity. rewrite !T2. clear T2. generalize (tau4 x t). intro tau. clear x XE DE HS HV.
  assert (K1 : (d / dz - 1) ^ (k - 1) = (d / dz - 1) ^ k / (d / dz - 1)).
  { replace k with (S (k - 1)) at 2 by lia. cbn [pow]. field. split; [exact Hdz|]. intro E. apply D0. replace (d / dz - 1) with ((d - dz) / dz) by (field; exact Hdz). rewrite E. unfold Rdiv. ring. }
  assert (K2 : (d / dz - 1) ^ (k - 2) = (d / dz - 1) ^ k / (d / dz - 1) / (d / dz - 1)).
  { replace k with (S (S (k - 2))) at 2 by lia. cbn [pow]. field. split; [exact Hdz|]. intro E. apply D0. replace (d / dz - 1) with ((d - dz) / dz) by (field; exact Hdz). rewrite E. unfold Rdiv. ring. }
  rewrite K1, K2. clear K1 K2.
  rewrite (pzm1 (d / dz - 1) l D0).
  assert (P3 : powerRZ (d / dz - 1) (Z.of_nat k - 3) = (d / dz - 1) ^ k / (d / dz - 1) ^ 3).
  { replace (Z.of_nat k - 3)%Z with (Z.of_nat k + (-3))%Z by lia. rewrite powerRZ_add by exact D0. rewrite <- pow_powerRZ. reflexivity. }
  rewrite P3. clear P3.
  assert (I1 : INR (k - 1) = INR k - 1) by (rewrite minus_INR by lia; reflexivity). assert (I2 : INR (k - 2) = INR k - 2) by (rewrite minus_INR by lia; reflexivity). rewrite I1, I2. clear I1 I2.
  unfold aff. generalize dependent (d / dz - 1). intros y D0.
  assert (G0 : gascon <> 0) by (unfold gascon; lra). generalize dependent gascon. intros R0 G0.
  assert (Ht' : t <> 0) by lra. assert (Hd' : d <> 0) by lra. clear Ht Hd Hk.
  unfold dpow, dexp. cbv beta iota zeta delta [dmul dcomp cst d0 d1 d2 d3].
  destruct (Rlt_dec (- A * y ^ k) EXPTOL); [|destruct (Rle_dec (- at0 * tau * tau) EXPTOL)]; cbv beta iota zeta delta [hsep cst d0 d1 d2 d3 h0 hT hD hTT hTD hDD hTTT hTTD hTDD hDDD].
  - destruct (Rle_dec (- at0 * tau * tau) EXPTOL); unfold Rdiv; repeat match goal with |- _ /\ _ => split end; ring.
  - unfold Rdiv; repeat match goal with |- _ /\ _ => split end; ring.
  - generalize (exp (- A * y ^ k)), (exp (- at0 * tau * tau)), (y ^ k), (y ^ l), (INR k), (INR l). intros E1 E2 Yk Yl K L.
    repeat match goal with |- _ /\ _ => split end; field; repeat split; assumption.
Qed.
