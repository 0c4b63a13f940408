(** The table of Wagner and Pruss is a table of derivatives, up to the third temperature derivative.  *)
From Coq Require Import List Bool Reals Lra Lia.
From Coquelicot Require Import Coquelicot.
From Verif Require Import RDeriv RDiff2 WaterModel WaterSpec HelmModel HelmJet.
Import ListNotations.
Open Scope R_scope.

Definition dopp (a : der) : der := mkDer (- d0 a) (- d1 a) (- d2 a) (- d3 a).
Lemma jet1_opp : forall V f, jet1 V f -> jet1 V (fun x => dopp (f x)).
Proof. intros V f Hf x Vx. destruct (Hf x Vx) as [A [B C]]. split; [|split]; unfold dopp; hp; now apply d_opp. Qed.
Definition cst (c : R) : der := mkDer c 0 0 0.
Definition dpow (n : nat) (x : R) : der := mkDer (x ^ n) (INR n / x * x ^ n) ((INR n - 1) / x * (INR n / x * x ^ n)) ((INR n - 2) / x * ((INR n - 1) / x * (INR n / x * x ^ n))).
Definition drp (e x : R) : der := mkDer (Rpower x e) (e / x * Rpower x e) ((e - 1) / x * (e / x * Rpower x e)) ((e - 2) / x * ((e - 1) / x * (e / x * Rpower x e))).
Definition dexp (x : R) : der := mkDer (exp x) (exp x) (exp x) (exp x).
Definition dln (x : R) : der := mkDer (ln x) (/ x) (- / x ^ 2) (2 / x ^ 3).
Lemma j_cst : forall V c, jet1 V (fun _ => cst c). Proof. intros. apply jet1_const. Qed.
Lemma j_pow : forall n, jet1 nzx (dpow n). Proof. exact jet1_pow. Qed.
Lemma j_rp : forall e, jet1 posx (drp e). Proof. exact jet1_Rpower. Qed.
Lemma j_exp : jet1 anyx dexp. Proof. exact jet1_exp. Qed.
Lemma j_ln : jet1 posx dln. Proof. exact jet1_ln. Qed.
Lemma j_powp : forall n, jet1 posx (dpow n). Proof. intro n. apply jet1_sub with nzx; [unfold posx, nzx; intros; lra|apply j_pow]. Qed.
(** (x - c)^2 *)
Definition dsq (c x : R) : der := mkDer ((x - c) ^ 2) (2 * (x - c)) 2 0.
Lemma j_sq : forall V c, jet1 V (dsq c).
Proof.
  intros V c x _. split; [|split]; unfold dsq; hp.
  - eapply d_eq; [exact (d_pow _ 2 x _ (d_minus _ _ _ _ _ (d_id x) (d_const c x)))|cbn; ring].
  - eapply d_eq; [exact (d_scal _ 2 x _ (d_minus _ _ _ _ _ (d_id x) (d_const c x)))|ring].
  - apply d_const.
Qed.

(** *** the regions *)
Definition Upos (t d : R) : Prop := 0 < t /\ 0 < d.
Definition Uwp (t d : R) : Prop := 0 < t /\ 0 < d /\ d <> 1.
Lemma near : forall (x u e : R), Rabs (u - x) < e -> x - e < u < x + e.
Proof. intros x u e H. apply Rabs_def2 in H. lra. Qed.
Lemma open_pos : open2 Upos.
Proof.
  intros t d [Ht Hd]. exists (mkposreal (Rmin t d) (Rmin_pos _ _ Ht Hd)). cbn. intros u v Hu Hv. assert (A := Rmin_l t d). assert (B := Rmin_r t d).
  apply near in Hu. apply near in Hv. split; lra.
Qed.
Lemma open_wp : open2 Uwp.
Proof.
  intros t d [Ht [Hd H1]]. assert (Q : 0 < Rabs (d - 1)) by (apply Rabs_pos_lt; lra). set (m := Rmin t (Rmin d (Rabs (d - 1)))).
  assert (M : 0 < m) by (unfold m; repeat apply Rmin_pos; assumption). exists (mkposreal m M). cbn. intros u v Hu Hv.
  assert (A : m <= t) by apply Rmin_l. assert (B : m <= Rmin d (Rabs (d - 1))) by apply Rmin_r. assert (C := Rmin_l d (Rabs (d - 1))). assert (D := Rmin_r d (Rabs (d - 1))).
  apply near in Hu. apply near in Hv. split; [lra|split; [lra|]]. intros ->.
  unfold Rabs in D, B, C. destruct (Rcase_abs (d - 1)); lra.
Qed.
Lemma wp_pp : forall t d, Uwp t d -> posx t /\ posx d. Proof. intros t d [A [B _]]. now split. Qed.

Ltac eqs := apply helm_eq; unfold hsep, hmul, hadd, hcomp, dmul, dcomp, dadd, dopp, cst, dpow, drp, dexp, dln, dsq; cbv zeta; hp.

Definition dgau (a c x : R) : der := dcomp dexp (dmul (cst (- a)) (dsq c x)).
Definition dab (e x : R) : der := dcomp (drp e) (dsq 1 x).
Ltac eqz := apply helm_eq; lazy beta iota zeta delta [hsep hmul hadd hcomp dmul dcomp dadd dopp cst dpow drp dexp dln dsq dgau dab wp_a wp_b wp_c wp_theta wp_psi wp_Delta wp_fin wp_pow h0 hT hD hTT hTD hDD hTTT hTTD hTDD hDDD d0 d1 d2 d3].
Ltac invs := unfold Rdiv; rewrite ?Rinv_mult, <- ?pow_inv.
(** *** terms *)
Lemma wp_id_jet : jet Uwp wp_id.
Proof.
  apply jet_ext with (fun t d => hadd (hsep (cst 1) (dln d)) (hsep (dadd (dadd (cst wp_no1) (dmul (cst wp_no2) (mkDer t 1 0 0))) (dmul (cst wp_no3) (dln t))) (cst 1))); [exact open_wp| |].
  - intros t d [Ht [Hd _]]. unfold wp_id. generalize wp_no1, wp_no2, wp_no3. intros n1 n2 n3. eqz; invs; generalize (/ t), (/ d); intros; ring.
  - apply jet_add.
    + apply (jet_sep posx posx (fun _ => cst 1)); [apply j_cst|apply j_ln|exact wp_pp].
    + apply (jet_sep posx posx (fun t => dadd (dadd (cst wp_no1) (dmul (cst wp_no2) (mkDer t 1 0 0))) (dmul (cst wp_no3) (dln t))) (fun _ => cst 1)); [|apply j_cst|exact wp_pp].
      repeat first [apply (jet1_add posx (fun t => dadd (cst wp_no1) (dmul (cst wp_no2) (mkDer t 1 0 0)))) | apply (jet1_add posx (fun _ => cst wp_no1)) | apply (jet1_mul posx (fun _ => cst _)) ]; first [apply j_cst|apply jet1_id|apply j_ln].
Qed.

Definition dein (n g t : R) : der := let ee := exp (g * t) in mkDer (n * ln (1 - 1 / ee)) (n * (g / (ee - 1))) (- (n * ee * (g / (ee - 1)) ^ 2)) (n * ee * (1 + ee) * (g / (ee - 1)) ^ 3).
Lemma j_ein : forall n g, 0 < g -> jet1 posx (dein n g).
Proof.
  intros n g Hg t Ht. unfold posx in Ht. assert (E1 : 1 < exp (g * t)) by (rewrite <- exp_0; apply exp_increasing; now apply Rmult_lt_0_compat).
  assert (K : is_derive (fun t : R => exp (g * t)) t (g * exp (g * t))) by (eapply d_eq; [exact (d_exp _ _ _ (d_scal _ g t _ (d_id t)))|cbv beta; ring]).
  assert (N1 : exp (g * t) <> 0) by lra. assert (N2 : exp (g * t) - 1 <> 0) by lra.
  assert (Q : is_derive (fun t : R => g / (exp (g * t) - 1)) t (- (exp (g * t) * (g / (exp (g * t) - 1)) ^ 2))).
  { eapply d_eq; [exact (d_div (fun _ => g) _ t _ _ (d_const g t) (d_minus _ _ _ _ _ K (d_const 1 t)) N2)|cbv beta; field; exact N2]. }
  assert (L : 0 < 1 - 1 / exp (g * t)) by (apply Rlt_Rminus; apply Rmult_lt_reg_r with (exp (g * t)); [lra|]; unfold Rdiv; rewrite Rmult_assoc, Rinv_l by exact N1; lra).
  split; [|split]; unfold dein; cbv zeta; hp.
  - eapply d_eq; [exact (d_scal _ n t _ (d_ln _ t _ (d_minus _ _ _ _ _ (d_const 1 t) (d_div (fun _ => 1) _ t _ _ (d_const 1 t) K N1)) L))|].
    cbv beta. clear K Q; generalize dependent (exp (g * t)); intros ee E1 N1 N2 L. field. repeat split; try assumption.
  - eapply d_eq; [exact (d_scal _ n t _ Q)|cbv beta; ring].
  - eapply d_eq; [exact (d_opp _ _ _ (d_mult _ _ _ _ _ (d_scal _ n t _ K) (d_pow _ 2 t _ Q)))|]. cbn [pred INR]. clear K Q; generalize dependent (exp (g * t)); intros ee E1 N1 N2 L. field. assumption.
Qed.
Lemma wp_ein_jet : forall x, 0 < snd x -> jet Uwp (wp_ein x).
Proof.
  intros [n g] Hg. cbn in Hg. apply jet_ext with (fun t d => hsep (dein n g t) (cst 1)); [exact open_wp| |].
  - intros t d _. unfold wp_ein, dein. cbv zeta. eqs; ring.
  - apply (jet_sep posx posx (dein n g) (fun _ => cst 1)); [now apply j_ein|apply j_cst|exact wp_pp].
Qed.
Lemma wp_a_jet : forall x, jet Uwp (wp_a x).
Proof.
  intros [[n k] e]. apply jet_ext with (fun t d => hsep (drp e t) (dmul (cst n) (dpow k d))); [exact open_wp| |].
  - intros t d [Ht [Hd _]]. eqz; invs; generalize (/ t), (/ d), (d ^ k), (INR k), (Rpower t e); intros; ring.
  - apply (jet_sep posx posx (drp e) (fun d => dmul (cst n) (dpow k d))); [apply j_rp| |exact wp_pp].
    apply (jet1_mul posx (fun _ => cst n)); [apply j_cst|apply j_powp].
Qed.
Lemma wp_b_jet : forall x, jet Uwp (wp_b x).
Proof.
  intros [[[n k] e] c]. apply jet_ext with (fun t d => hsep (drp e t) (dmul (dmul (cst n) (dpow k d)) (dcomp dexp (dopp (dpow c d))))); [exact open_wp| |].
  - intros t d [Ht [Hd _]]. eqz; invs; generalize (/ t), (/ d), (d ^ k), (d ^ c), (INR k), (INR c), (Rpower t e); intros i j a1 a2 a3 a4 a5; generalize (exp (- a2)); intro a6; ring.
  - apply (jet_sep posx posx (drp e) (fun d => dmul (dmul (cst n) (dpow k d)) (dcomp dexp (dopp (dpow c d))))); [apply j_rp| |exact wp_pp].
    apply (jet1_mul posx (fun d => dmul (cst n) (dpow k d))); [apply (jet1_mul posx (fun _ => cst n)); [apply j_cst|apply j_powp]|].
    apply (jet1_comp anyx posx dexp); [apply j_exp|apply jet1_opp, j_powp|now intros].
Qed.
Lemma j_gau : forall V a c, jet1 V (dgau a c).
Proof. intros V a c. apply (jet1_comp anyx V dexp); [apply j_exp|apply (jet1_mul V (fun _ => cst (- a))); [apply j_cst|apply j_sq]|now intros]. Qed.
Lemma wp_c_jet : forall x, jet Uwp (wp_c x).
Proof.
  intros [[[[[[n k] e] al] be] ga] ep]. apply jet_ext with (fun t d => hsep (dmul (drp e t) (dgau be ga t)) (dmul (dmul (cst n) (dpow k d)) (dgau al ep d))); [exact open_wp| |].
  - intros t d [Ht [Hd _]]. 
    assert (X : exp (- al * (d - ep) ^ 2 - be * (t - ga) ^ 2) = exp (- al * (d - ep) ^ 2) * exp (- be * (t - ga) ^ 2)) by (rewrite <- exp_plus; f_equal; ring).
    eqz; invs; rewrite ?X; generalize (exp (- be * (t - ga) ^ 2)), (exp (- al * (d - ep) ^ 2)), (/ t), (/ d), (d ^ k), (INR k), (Rpower t e); intros; ring.
  - apply (jet_sep posx posx (fun t => dmul (drp e t) (dgau be ga t)) (fun d => dmul (dmul (cst n) (dpow k d)) (dgau al ep d))); [| |exact wp_pp].
    + apply (jet1_mul posx (drp e)); [apply j_rp|apply j_gau].
    + apply (jet1_mul posx (fun d => dmul (cst n) (dpow k d))); [apply (jet1_mul posx (fun _ => cst n)); [apply j_cst|apply j_powp]|apply j_gau].
Qed.
(** the non-analytic terms *)
Lemma sq_pos : forall d : R, d <> 1 -> 0 < (d - 1) ^ 2.
Proof. intros d H. cbn. rewrite Rmult_1_r. apply Rsqr_pos_lt. lra. Qed.
Definition not1 (x : R) : Prop := x <> 1.
Lemma j_ab : forall e, jet1 not1 (dab e).
Proof. intro e. apply (jet1_comp posx not1 (drp e)); [apply j_rp|apply j_sq|]. intros x Hx. unfold dsq; hp. now apply sq_pos. Qed.
Lemma wp_theta_jet : forall A E, E <> 0 -> jet Uwp (wp_theta A E).
Proof.
  intros A E HE. apply jet_ext with (fun t d => hadd (hsep (mkDer (1 - t) (-1) 0 0) (cst 1)) (hsep (cst A) (dab (1 / 2 / E) d))); [exact open_wp| |].
  - intros t d [Ht [Hd H1]]. eqz; generalize (Rpower ((d - 1) ^ 2) (1 / 2 / E)); intro a; field; lra.
  - apply jet_add.
    + apply (jet_sep posx posx (fun t => mkDer (1 - t) (-1) 0 0) (fun _ => cst 1)); [|apply j_cst|exact wp_pp].
      intros x _. split; [|split]; hp; [|apply d_const..]. eapply d_eq; [exact (d_minus _ _ _ _ _ (d_const 1 x) (d_id x))|ring].
    + apply (jet_sep posx not1 (fun _ => cst A) (dab (1 / 2 / E))); [apply j_cst|apply j_ab|]. intros t d [Ht [Hd H1]]. now split.
Qed.
Lemma wp_psi_jet : forall C F, jet Uwp (wp_psi C F).
Proof.
  intros C F. apply jet_ext with (fun t d => hsep (dgau F 1 t) (dgau C 1 d)); [exact open_wp| |].
  - intros t d _. 
    assert (X : exp (- C * (d - 1) ^ 2 - F * (t - 1) ^ 2) = exp (- C * (d - 1) ^ 2) * exp (- F * (t - 1) ^ 2)) by (rewrite <- exp_plus; f_equal; ring).
    eqz; rewrite ?X; generalize (exp (- C * (d - 1) ^ 2)), (exp (- F * (t - 1) ^ 2)); intros a b; ring.
  - apply (jet_sep posx posx (dgau F 1) (dgau C 1)); [apply j_gau..|exact wp_pp].
Qed.
Lemma wp_Delta_jet : forall A E a B, E <> 0 -> jet Uwp (fun t d => wp_Delta a B (wp_theta A E t d) d).
Proof.
  intros A E a B HE. apply jet_ext with (fun t d => hadd (hmul (wp_theta A E t d) (wp_theta A E t d)) (hsep (cst B) (dab a d))); [exact open_wp| |].
  - intros t d [Ht [Hd H1]].
    assert (Q : exists x xd xdd xddd, wp_theta A E t d = mkHelm x (-1) xd 0 0 xdd 0 0 0 xddd) by (unfold wp_theta; cbv zeta; eauto). destruct Q as [x [xd [xdd [xddd ->]]]].
    eqz; generalize (Rpower ((d - 1) ^ 2) a); intro r; field; lra.
  - apply jet_add; [apply jet_mul; now apply wp_theta_jet|].
    apply (jet_sep posx not1 (fun _ => cst B) (dab a)); [apply j_cst|apply j_ab|]. intros t d [Ht [Hd H1]]. now split.
Qed.
Lemma wp_Delta_pos : forall A E a B t d, 0 < B -> d <> 1 -> 0 < h0 (wp_Delta a B (wp_theta A E t d) d).
Proof.
  intros A E a B t d HB _. unfold wp_Delta. cbv zeta. hp. assert (P : 0 < Rpower ((d - 1) ^ 2) a) by apply exp_pos.
  assert (S := Rle_0_sqr (h0 (wp_theta A E t d))). unfold Rsqr in S. assert (Q := Rmult_lt_0_compat _ _ HB P). lra.
Qed.
Lemma wp_pow_comp : forall b x, h0 x <> 0 -> wp_pow b x = hcomp (drp b) x.
Proof.
  intros b [x0 x1 x2 x3 x4 x5 x6 x7 x8 x9] H. cbn [h0] in H. unfold wp_pow. cbv zeta. eqs; generalize (Rpower x0 b); intro r; field; exact H.
Qed.
Lemma wp_fin_mul : forall n P s d, wp_fin n P s d = hmul (hmul (hsep (cst n) (mkDer d 1 0 0)) P) s.
Proof. intros n [x0 x1 x2 x3 x4 x5 x6 x7 x8 x9] [y0 y1 y2 y3 y4 y5 y6 y7 y8 y9] d. eqz; ring. Qed.
Lemma wp_d_jet : forall n a b A B C F E, E <> 0 -> 0 < B -> jet Uwp (wp_d (n, a, b, A, B, C, F, E)).
Proof.
  intros n a b A B C F E HE HB. unfold wp_d.
  apply jet_ext with (fun t d => hmul (hmul (hsep (cst n) (mkDer d 1 0 0)) (hcomp (drp b) (wp_Delta a B (wp_theta A E t d) d))) (wp_psi C F t d)); [exact open_wp| |].
  - intros t d [Ht [Hd H1]]. rewrite wp_fin_mul, wp_pow_comp; [reflexivity|]. apply Rgt_not_eq. now apply wp_Delta_pos.
  - apply jet_mul; [apply jet_mul|apply wp_psi_jet].
    + apply (jet_sep posx posx (fun _ => cst n) (fun d => mkDer d 1 0 0)); [apply j_cst|apply jet1_id|exact wp_pp].
    + apply (jet_comp posx (drp b) Uwp (fun t d => wp_Delta a B (wp_theta A E t d) d)); [apply j_rp|now apply wp_Delta_jet|].
      intros t d [Ht [Hd H1]]. now apply wp_Delta_pos.
Qed.
Theorem wp_phi_jet : jet Uwp wp_phi.
Proof.
  unfold wp_phi. apply jet_add; [apply jet_add|apply jet_add; [apply jet_add; [apply jet_add|]|]].
  - exact wp_id_jet.
  - apply (jet_sum _ Uwp wp_ein). intros x Hx. apply wp_ein_jet. unfold wp_no in Hx. cbn [In] in Hx.
    repeat match goal with H : _ \/ _ |- _ => destruct H as [H|H] end; try contradiction; subst x; cbn [snd]; lra.
  - apply (jet_sum _ Uwp wp_a). intros x _. apply wp_a_jet.
  - apply (jet_sum _ Uwp wp_b). intros x _. apply wp_b_jet.
  - apply (jet_sum _ Uwp wp_c). intros x _. apply wp_c_jet.
  - apply (jet_sum _ Uwp wp_d). intros x Hx. unfold wp_D in Hx. cbn [In] in Hx.
    repeat match goal with H : _ \/ _ |- _ => destruct H as [H|H] end; try contradiction; subst x; apply wp_d_jet; lra.
Qed.
