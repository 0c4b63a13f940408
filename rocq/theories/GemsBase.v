(** The base function and the ideal gas as tables of derivatives.  *)
From Coq Require Import List Bool ZArith Reals Lra Lia.
From Coquelicot Require Import Coquelicot.
From Verif Require Import RDeriv RDiff2 WaterModel WaterSpec HelmModel HelmJet HelmProofs HelmMore SoluteProofs HelmHgk GemsModel GemsJet.
Import ListNotations.
Open Scope R_scope.

Lemma vv_eq : forall t n, vv t n = tz ^ n * / t ^ n.
Proof.
  intros t n. induction n as [|n IH]; cbn [vv pow]; [field|]. rewrite IH. unfold Rdiv. rewrite Rinv_mult. ring.
Qed.
(** the sums over v^(i-1) of bb *)
Definition dsum (c : nat -> R) (l : list nat) (t : R) : der := fold_left (fun s i => dadd s (dmul (cst (c i * tz ^ (i - 1))) (dnp (i - 1) t))) l (cst 0).
Lemma j_dsum : forall c l, jet1 posx (dsum c l).
Proof.
  intros c l. unfold dsum. assert (G : forall s, jet1 posx s -> jet1 posx (fun t => fold_left (fun s i => dadd s (dmul (cst (c i * tz ^ (i - 1))) (dnp (i - 1) t))) l (s t))).
  { induction l as [|i l IH]; intros s Hs; cbn [fold_left]; [exact Hs|]. apply (IH (fun t => dadd (s t) (dmul (cst (c i * tz ^ (i - 1))) (dnp (i - 1) t)))). apply jet1_add; [exact Hs|].
    apply (jet1_mul posx (fun _ => cst (c i * tz ^ (i - 1)))); [apply j_cst|apply j_np]. }
  apply (G (fun _ => cst 0)). apply j_cst.
Qed.
Lemma dsum_eq : forall c l t, 0 < t ->
  d0 (dsum c l t) = gsum (fun i => c i * vv t (i - 1)) l /\
  d1 (dsum c l t) = gsum (fun i => - (INR (i - 1) * c i * vv t (i - 1) / t)) l /\
  d2 (dsum c l t) = gsum (fun i => c i * INR (i - 1) * INR (i - 1) * vv t (i - 1) / t / t) l - gsum (fun i => - (INR (i - 1) * c i * vv t (i - 1) / t)) l / t.
Proof.
  intros c l t Ht. unfold dsum, gsum.
  assert (G : forall s a b e, d0 s = a -> d1 s = b -> d2 s = e - b / t ->
    let S := fold_left (fun s i => dadd s (dmul (cst (c i * tz ^ (i - 1))) (dnp (i - 1) t))) l s in
    d0 S = fold_left (fun s i => s + c i * vv t (i - 1)) l a /\ d1 S = fold_left (fun s i => s + - (INR (i - 1) * c i * vv t (i - 1) / t)) l b /\
    d2 S = fold_left (fun s i => s + c i * INR (i - 1) * INR (i - 1) * vv t (i - 1) / t / t) l e - fold_left (fun s i => s + - (INR (i - 1) * c i * vv t (i - 1) / t)) l b / t).
  { induction l as [|i l IH]; intros s a b e H0 H1 H2; cbn [fold_left]; [now repeat split|].
    apply IH; unfold dadd, dmul, cst, dnp; hp; rewrite vv_eq, ?H0, ?H1, ?H2; generalize (tz ^ (i - 1)), (/ t ^ (i - 1)); intros p q; field; lra. }
  apply G; cbn [cst d0 d1 d2]; field; lra.
Qed.
Definition dlnz (t : R) : der := mkDer (ln (t / tz)) (/ t) (- / t ^ 2) (2 / t ^ 3).
Lemma tz_pos : 0 < tz. Proof. unfold tz. lra. Qed.
Lemma j_lnz : jet1 posx dlnz.
Proof.
  intros t Ht. destruct (j_ln t Ht) as [A [B C]]. unfold dln in *. cbn [d0 d1 d2 d3] in *. unfold dlnz. split; [|split]; hp; [|exact B|exact C].
  assert (P := tz_pos). unfold posx in Ht. eapply d_eq; [apply (d_ln (fun t => t / tz) t (1 / tz))|].
  - eapply d_eq; [exact (d_mult (fun t => t) (fun _ => / tz) t 1 0 (d_id t) (d_const (/ tz) t))|cbv beta; field; lra].
  - apply Rdiv_lt_0_compat; lra.
  - field. split; lra.
Qed.
Definition pB (i : nat) : R := nth i bp 0.
Definition qB (i : nat) : R := nth i bq 0.
Definition dB1 (t : R) : der := dadd (dadd (cst (pB 0)) (dmul (cst (pB 1)) (dlnz t))) (dsum pB bb_i t).
Definition dB2 (t : R) : der := dadd (cst (qB 0)) (dsum qB bb_i t).
Lemma j_B1 : jet1 posx dB1.
Proof.
  unfold dB1. apply (jet1_add posx (fun t => dadd (cst (pB 0)) (dmul (cst (pB 1)) (dlnz t)))); [|apply j_dsum]. apply (jet1_add posx (fun _ => cst (pB 0))); [apply j_cst|].
  apply (jet1_mul posx (fun _ => cst (pB 1))); [apply j_cst|apply j_lnz].
Qed.
Lemma j_B2 : jet1 posx dB2.
Proof. unfold dB2. apply (jet1_add posx (fun _ => cst (qB 0))); [apply j_cst|apply j_dsum]. Qed.
Lemma bb_eq : forall t, 0 < t -> d0 (dB1 t) = b1 (bb t) /\ d1 (dB1 t) = b1t (bb t) /\ d2 (dB1 t) = b1tt (bb t) /\ d0 (dB2 t) = b2 (bb t) /\ d1 (dB2 t) = b2t (bb t) /\ d2 (dB2 t) = b2tt (bb t).
Proof.
  intros t Ht. destruct (dsum_eq pB bb_i t Ht) as [P0 [P1 P2]]. destruct (dsum_eq qB bb_i t Ht) as [Q0 [Q1 Q2]].
  unfold bb, dB1, dB2, dadd, dmul, cst, dlnz. cbv zeta. cbn [b1 b2 b1t b2t b1tt b2tt]. hp. rewrite P0, P1, P2, Q0, Q1, Q2. fold pB. fold qB.
  assert (Z := tz_pos). assert (V : vv t 1 = tz / t) by (cbn [vv]; field; lra). rewrite V. replace (1 / (tz / t)) with (t / tz) by (field; lra).
  match goal with |- context [gsum (fun i => pB i * vv t (i - 1)) bb_i] => idtac end.
  change (fun i : nat => nth i bp 0 * vv t (i - 1)) with (fun i => pB i * vv t (i - 1)).
  change (nth 0 bp 0) with (pB 0). change (nth 1 bp 0) with (pB 1). change (nth 0 bq 0) with (qB 0).
  change (fun i : nat => - (INR (i - 1) * nth i bp 0 * vv t (i - 1) / t)) with (fun i => - (INR (i - 1) * pB i * vv t (i - 1) / t)).
  change (fun i : nat => - (INR (i - 1) * nth i bq 0 * vv t (i - 1) / t)) with (fun i => - (INR (i - 1) * qB i * vv t (i - 1) / t)).
  change (fun i : nat => nth i bq 0 * vv t (i - 1)) with (fun i => qB i * vv t (i - 1)).
  change (fun i : nat => nth i bp 0 * INR (i - 1) * INR (i - 1) * vv t (i - 1) / t / t) with (fun i => pB i * INR (i - 1) * INR (i - 1) * vv t (i - 1) / t / t).
  change (fun i : nat => nth i bq 0 * INR (i - 1) * INR (i - 1) * vv t (i - 1) / t / t) with (fun i => qB i * INR (i - 1) * INR (i - 1) * vv t (i - 1) / t / t).
  generalize (gsum (fun i => pB i * vv t (i - 1)) bb_i), (gsum (fun i => - (INR (i - 1) * pB i * vv t (i - 1) / t)) bb_i), (gsum (fun i => pB i * INR (i - 1) * INR (i - 1) * vv t (i - 1) / t / t) bb_i),
    (gsum (fun i => qB i * vv t (i - 1)) bb_i), (gsum (fun i => - (INR (i - 1) * qB i * vv t (i - 1) / t)) bb_i), (gsum (fun i => qB i * INR (i - 1) * INR (i - 1) * vv t (i - 1) / t / t) bb_i).
  generalize (pB 0), (pB 1), (qB 0). intros. generalize dependent tz. intros.
  repeat match goal with |- _ /\ _ => split end; field; repeat split; lra.
Qed.

(** - ln (1 - y) - (g2 - 1) / (1 - y) + (g1 + g2 + 1) / 2 / (1 - y)^2 *)
Definition dphi (y : R) : der := let w := 1 / (1 - y) in
  mkDer (- ln (1 - y) - (g2 - 1) * w + (g1 + g2 + 1) / 2 * w * w) (w - (g2 - 1) * w * w + (g1 + g2 + 1) * w * w * w) (w * w - 2 * (g2 - 1) * w * w * w + 3 * (g1 + g2 + 1) * w * w * w * w)
    (2 * w * w * w - 6 * (g2 - 1) * w * w * w * w + 12 * (g1 + g2 + 1) * w * w * w * w * w).
Lemma j_phi : jet1 (fun y => y < 1) dphi.
Proof.
  intros y Hy. assert (N : 1 - y <> 0) by lra. assert (K : is_derive (fun y : R => 1 / (1 - y)) y (1 / (1 - y) * (1 / (1 - y)))) by (eapply d_eq; [dr; exact N|cbv beta; field; exact N]).
  assert (L : is_derive (fun y : R => ln (1 - y)) y (- (1 / (1 - y)))) by (eapply d_eq; [dr; lra|cbv beta; field; exact N]).
  unfold dphi. cbv zeta. generalize (g2 - 1), (g1 + g2 + 1). intros p q.
  assert (M1 := d_mult _ _ _ _ _ K K). assert (M2 := d_mult _ _ _ _ _ M1 K). assert (M3 := d_mult _ _ _ _ _ M2 K). cbv beta in M1, M2, M3.
  split; [|split]; hp.
  - eapply d_ext; [|eapply d_eq; [exact (d_plus _ _ _ _ _ (d_minus _ _ _ _ _ (d_opp _ _ _ L) (d_scal _ p _ _ K)) (d_scal _ (q / 2) _ _ M1))|]]; [intro u; cbv beta; ring|field; exact N].
  - eapply d_ext; [|eapply d_eq; [exact (d_plus _ _ _ _ _ (d_minus _ _ _ _ _ K (d_scal _ p _ _ M1)) (d_scal _ q _ _ M2))|]]; [intro u; cbv beta; ring|ring].
  - eapply d_ext; [|eapply d_eq; [exact (d_plus _ _ _ _ _ (d_minus _ _ _ _ _ M1 (d_scal _ (2 * p) _ _ M2)) (d_scal _ (3 * q) _ _ M3))|]]; [intro u; cbv beta; ring|ring].
Qed.
Definition dRT (t : R) : der := mkDer (gascon * t) gascon 0 0.
Lemma j_RT : forall V, jet1 V dRT.
Proof. intros V x _. unfold dRT. split; [|split]; hp; [|apply d_const..]. eapply d_eq; [exact (d_scal _ gascon x _ (d_id x))|ring]. Qed.
Definition Yb (t d : R) : helm := hsep (dmul (cst (25 / 100)) (dB1 t)) (mkDer d 1 0 0).
Definition P1 (t d : R) : helm := hmul (hsep (dRT t) (cst 1)) (hcomp dphi (Yb t d)).
Definition P2 (t d : R) : helm := hsep (dmul (dRT t) (dadd (dB2 t) (dmul (cst (- gf)) (dB1 t)))) (mkDer d 1 0 0).
Definition P3 (t d : R) : helm := hsep (dRT t) (dln d).
Definition Ub (t d : R) : Prop := 0 < t /\ 0 < d /\ 25 / 100 * b1 (bb t) * d < 1.
Lemma Ub_pos : forall t d, Ub t d -> Upos t d. Proof. intros t d [A [B _]]. now split. Qed.
Lemma Yb_val : forall t d, 0 < t -> h0 (Yb t d) = 25 / 100 * b1 (bb t) * d.
Proof. intros t d Ht. unfold Yb, hsep, dmul, cst. hp. rewrite (proj1 (bb_eq t Ht)). ring. Qed.
Lemma P123_jet : jet Ub (fun t d => hadd (hadd (P1 t d) (P2 t d)) (P3 t d)).
Proof.
  apply (jet_add Ub (fun t d => hadd (P1 t d) (P2 t d))); [apply jet_add|]; unfold P1, P2, P3.
  - apply (jet_mul Ub (fun t d => hsep (dRT t) (cst 1))).
    + apply (jet_sep posx posx dRT (fun _ => cst 1)); [apply j_RT|apply j_cst|intros t d H; exact (Ub_pos t d H)].
    + apply (jet_comp (fun y => y < 1) dphi Ub Yb); [apply j_phi| |].
      * unfold Yb. apply (jet_sep posx posx (fun t => dmul (cst (25 / 100)) (dB1 t)) (fun d => mkDer d 1 0 0)); [|apply jet1_id|intros t d H; exact (Ub_pos t d H)].
        apply (jet1_mul posx (fun _ => cst (25 / 100))); [apply j_cst|apply j_B1].
      * intros t d [A [_ C]]. now rewrite Yb_val.
  - apply (jet_sep posx posx (fun t => dmul (dRT t) (dadd (dB2 t) (dmul (cst (- gf)) (dB1 t)))) (fun d => mkDer d 1 0 0)); [|apply jet1_id|intros t d H; exact (Ub_pos t d H)].
    apply (jet1_mul posx dRT); [apply j_RT|]. apply (jet1_add posx dB2); [apply j_B2|]. apply (jet1_mul posx (fun _ => cst (- gf))); [apply j_cst|apply j_B1].
  - apply (jet_sep posx posx dRT dln); [apply j_RT|apply j_ln|intros t d H; exact (Ub_pos t d H)].
Qed.
(** 28.16666667 in place of (g1 + g2 + 1) / 2 *)
Definition kappa : R := 2816666667 / 100000000 - (g1 + g2 + 1) / 2.
Lemma base_tables : forall t d al, Ub t d -> b1 (bb t) <> 0 ->
  let e := bb t in let bs := base e d t in let B := hadd (hadd (P1 t d) (P2 t d)) (P3 t d) in let x := 1 - 25 / 100 * b1 e * d in
  h0 B = gascon * t * (ab bs - kappa / x / x - 15166666667 / 1000000000 - ln (t * gascon / (101325 / 1000000))) /\
  h0 B - t * hT B = gascon * t * ub bs /\ d * d * hD B = gascon * t * d * zb bs /\ - t * hTT B = gascon * cvb bs /\ d * d * hTD B = gascon * t * d * dpdtb bs /\
  2 * d * hD B + d * d * hDD B = gascon * t * (zb bs + yb bs * dzb bs) /\
  b_dd e t d = hD B /\ b_2dd e t d = hDD B /\ b_2ddt e t d = hTD B /\
  b_2dtp e t d al = hTD B - al * d * hDD B /\ b_3ddt e t d al = hTDD B - al * d * hDDD B /\ b_3dtt e t d al = hTTD B - al * d * hTDD B.
Proof.
  intros t d al [Ht [Hd Hx]] Hb. destruct (bb_eq t Ht) as [E0 [E1 [E2 [E3 [E4 E5]]]]].
  assert (LN : ln (d * t * gascon / (101325 / 1000000)) = ln d + ln (t * gascon / (101325 / 1000000))).
  { rewrite <- ln_mult; [f_equal; field|exact Hd|]. assert (G : 0 < gascon) by (unfold gascon; lra). apply Rdiv_lt_0_compat; [now apply Rmult_lt_0_compat|lra]. }
  unfold base. cbv zeta. rewrite LN. clear LN.
  unfold kappa, b_dd, b_2dd, b_2ddt, b_2dtp, b_3ddt, b_3dtt, b_2ddt, b_2dtp, b_2dd, b_dd. cbv zeta.
  unfold P1, P2, P3, Yb.
  destruct (dB1 t) as [p0 p1 p2 p3]. destruct (dB2 t) as [r0 r1 r2 r3]. cbn [d0 d1 d2 d3] in *. destruct (bb t) as [B1 B2 B1t B2t B1tt B2tt]. cbn [b1 b2 b1t b2t b1tt b2tt] in *. subst p0 p1 p2 r0 r1 r2.
  cbn [ab ub zb cvb dpdtb yb dzb].
  unfold dphi, dRT, dln. cbv beta iota zeta delta [hadd hmul hcomp hsep dmul dadd cst d0 d1 d2 d3 h0 hT hD hTT hTD hDD hTTT hTTD hTDD hDDD].
  replace ((25 / 100 * B1 + 0) * d) with (25 / 100 * B1 * d) by ring. replace (25 / 100 * B1 * d) with (25 / 100 * B1 * d) by ring.
  assert (N : 1 - 25 / 100 * B1 * d <> 0) by lra. assert (Ht' : t <> 0) by lra. assert (Hd' : d <> 0) by lra.
  generalize (ln (1 - 25 / 100 * B1 * d)), (ln d), (ln (t * gascon / (101325 / 1000000))). intros l1 l2 l3.
  generalize g1, g2, gf, gascon. intros c1 c2 c3 R0. clear Hx Ht Hd.
  repeat match goal with |- _ /\ _ => split end.
  all: field; repeat split; first [ assumption | (let E := fresh in intro E; apply N; lra) ].
Qed.

(** *** the ideal gas *)
Definition dpz (n : Z) (t : R) : der := let p := powerRZ (t / 100) n in
  mkDer p (IZR n / t * p) ((IZR n - 1) / t * (IZR n / t * p)) ((IZR n - 2) / t * ((IZR n - 1) / t * (IZR n / t * p))).
Definition dh (t : R) : der := mkDer (t / 100) (1 / 100) 0 0.
Lemma j_h : forall V, jet1 V dh.
Proof. intros V x _. unfold dh. split; [|split]; hp; [|apply d_const..]. eapply d_eq; [dr|cbv beta; field]; lra. Qed.
Lemma j_pz : forall n, jet1 posx (dpz n).
Proof.
  intro n. apply jet1_ext with (fun t => dcomp (drp (IZR n)) (dh t)); [exact open_posx| |].
  - intros t Ht. unfold posx in Ht. unfold dcomp, drp, dh, dpz. cbv zeta. hp. rewrite <- (powerRZ_Rpower (t / 100) n) by lra.
    generalize (powerRZ (t / 100) n), (IZR n). intros p m. f_equal; field; lra.
  - apply (jet1_comp posx posx (drp (IZR n))); [apply j_rp|apply j_h|]. intros x Hx. unfold posx, dh in *. hp. lra.
Qed.
Definition dlnh (t : R) : der := mkDer (ln (t / 100)) (/ t) (- / t ^ 2) (2 / t ^ 3).
Lemma j_lnh : jet1 posx dlnh.
Proof.
  apply jet1_ext with (fun t => dcomp dln (dh t)); [exact open_posx| |].
  - intros t Ht. unfold posx in Ht. unfold dcomp, dln, dh, dlnh. cbv zeta. hp. f_equal; field; lra.
  - apply (jet1_comp posx posx dln); [apply j_ln|apply j_h|]. intros x Hx. unfold posx, dh in *. hp. lra.
Qed.
Definition cI (i : nat) : R := nth i c_id 0.
Definition nI (i : nat) : Z := (Z.of_nat i - 5)%Z.
Definition dG (t : R) : der :=
  dadd (dmul (dadd (dmul (cst (- cI 0)) (dpz (-1) t)) (cst (- cI 1))) (dlnh t)) (fold_left (fun s i => dadd s (dmul (cst (- cI i)) (dpz (nI i) t))) id_i (cst 0)).
Lemma j_dfold : forall (c : nat -> R) (f : nat -> R -> der) (l : list nat) s, (forall i, jet1 posx (f i)) -> jet1 posx s -> jet1 posx (fun t => fold_left (fun s i => dadd s (dmul (cst (c i)) (f i t))) l (s t)).
Proof.
  intros c f l. induction l as [|i l IH]; intros s Hf Hs; cbn [fold_left]; [exact Hs|]. apply (IH (fun t => dadd (s t) (dmul (cst (c i)) (f i t)))); [exact Hf|]. apply jet1_add; [exact Hs|].
  apply (jet1_mul posx (fun _ => cst (c i))); [apply j_cst|apply Hf].
Qed.
Lemma j_G : jet1 posx dG.
Proof.
  unfold dG. apply (jet1_add posx (fun t => dmul (dadd (dmul (cst (- cI 0)) (dpz (-1) t)) (cst (- cI 1))) (dlnh t))).
  - apply (jet1_mul posx (fun t => dadd (dmul (cst (- cI 0)) (dpz (-1) t)) (cst (- cI 1)))); [|apply j_lnh]. apply (jet1_add posx (fun t => dmul (cst (- cI 0)) (dpz (-1) t))); [|apply j_cst].
    apply (jet1_mul posx (fun _ => cst (- cI 0))); [apply j_cst|apply j_pz].
  - apply (j_dfold (fun i => - cI i) (fun i => dpz (nI i)) id_i (fun _ => cst 0)); [intro i; apply j_pz|apply j_cst].
Qed.
Lemma G_eq : forall t, 0 < t -> d0 (dG t) = gi (ideal t) /\ d1 (dG t) = - hi (ideal t) / t /\ d2 (dG t) = (2 * hi (ideal t) - cpi (ideal t)) / t / t.
Proof.
  intros t Ht. unfold dG.
  assert (Q : forall l s a b e, d0 s = a -> d1 s = - b / t -> d2 s = (2 * b - e) / t / t ->
    let S := fold_left (fun s i => dadd s (dmul (cst (- cI i)) (dpz (nI i) t))) l s in
    let b' := fold_left (fun s i => s + cI i * IZR (nI i) * powerRZ (t / 100) (nI i)) l b in
    d0 S = fold_left (fun s i => s + - (cI i * powerRZ (t / 100) (nI i))) l a /\ d1 S = - b' / t /\
    d2 S = (2 * b' - fold_left (fun s i => s + cI i * IZR (nI i) * IZR (Z.of_nat i - 4) * powerRZ (t / 100) (nI i)) l e) / t / t).
  { induction l as [|i l IH]; intros s a b e H0 H1 H2; cbn [fold_left]; [now repeat split|].
    assert (E4 : IZR (Z.of_nat i - 4) = IZR (nI i) + 1) by (unfold nI; rewrite <- plus_IZR; f_equal; lia). rewrite E4.
    apply IH; unfold dadd, dmul, cst, dpz; cbv zeta; hp; rewrite ?H0, ?H1, ?H2; generalize (powerRZ (t / 100) (nI i)), (IZR (nI i)); intros p m; field; lra. }
  specialize (Q id_i (cst 0) 0 0 0). cbv zeta in Q. destruct Q as [Q0 [Q1 Q2]]; [reflexivity|cbn; field; lra|cbn; field; lra|].
  unfold ideal. cbv zeta. cbn [gi hi cpi]. unfold gsum.
  match type of Q0 with d0 ?F = _ => set (S := F) in * end. clearbody S. unfold dadd, dmul. hp. rewrite Q0, Q1, Q2. unfold nI, cI.
  match goal with |- context [fold_left ?f id_i 0] => generalize (fold_left f id_i 0); intro s1 end.
  match goal with |- context [fold_left ?f id_i 0] => generalize (fold_left f id_i 0); intro s2 end.
  match goal with |- context [fold_left ?f id_i 0] => generalize (fold_left f id_i 0); intro s3 end.
  generalize (nth 0 c_id 0), (nth 1 c_id 0). intros c0 c1.
  unfold cst, dpz, dlnh. cbv zeta. hp. assert (E : powerRZ (t / 100) (-1) = 100 / t) by (change (/ (t / 100) ^ 1 = 100 / t); rewrite pow_1; field; lra). rewrite E.
  change (IZR (-1)) with (-1). generalize (ln (t / 100)). intro L. repeat split; field; lra.
Qed.
Definition dI (t : R) : der := dadd (dmul (dRT t) (dadd (dadd (dG t) (dln t)) (cst (-1 + (15166666667 / 1000000000 + ln (gascon / (101325 / 1000000)) + sref))))) (cst (- (gascon * uref))).
Lemma j_I : jet1 posx dI.
Proof.
  unfold dI. match goal with |- jet1 _ (fun t => dadd _ (cst ?c)) => generalize c end. match goal with |- context [cst ?c] => generalize c end. intros c2 c1.
  apply (jet1_add posx (fun t => dmul (dRT t) (dadd (dadd (dG t) (dln t)) (cst c2)))); [|apply j_cst]. apply (jet1_mul posx dRT); [apply j_RT|].
  apply (jet1_add posx (fun t => dadd (dG t) (dln t))); [|apply j_cst]. apply jet1_add; [apply j_G|apply j_ln].
Qed.
Definition P4 (t d : R) : helm := hsep (dI t) (cst 1).
Lemma P4_jet : jet Upos P4.
Proof. unfold P4. apply (jet_sep posx posx dI (fun _ => cst 1)); [apply j_I|apply j_cst|exact pos_pp]. Qed.
Lemma P4_tables : forall t d, 0 < t -> let i := ideal t in
  h0 (P4 t d) = gascon * t * (ai i + 15166666667 / 1000000000 + ln (t * gascon / (101325 / 1000000)) - uref / t + sref) /\
  h0 (P4 t d) - t * hT (P4 t d) = gascon * t * (ui i - uref / t) /\ - t * hTT (P4 t d) = gascon * cvi i /\
  hD (P4 t d) = 0 /\ hTD (P4 t d) = 0 /\ hDD (P4 t d) = 0 /\ hTTD (P4 t d) = 0 /\ hTDD (P4 t d) = 0 /\ hDDD (P4 t d) = 0.
Proof.
  intros t d Ht. destruct (G_eq t Ht) as [A [B C]]. cbv zeta.
  assert (LN : ln (t * gascon / (101325 / 1000000)) = ln t + ln (gascon / (101325 / 1000000))).
  { rewrite <- ln_mult; [f_equal; field|exact Ht|]. assert (G : 0 < gascon) by (unfold gascon; lra). apply Rdiv_lt_0_compat; [exact G|lra]. }
  rewrite LN. clear LN. unfold P4, dI. destruct (dG t) as [q0 q1 q2 q3]. cbn [d0 d1 d2 d3] in A, B, C. subst q0 q1 q2.
  assert (EA : ai (ideal t) = gi (ideal t) - 1) by reflexivity. assert (EU : ui (ideal t) = hi (ideal t) - 1) by reflexivity. assert (EC : cvi (ideal t) = cpi (ideal t) - 1) by reflexivity. rewrite EA, EU, EC.
  generalize (gi (ideal t)), (hi (ideal t)), (cpi (ideal t)). intros g h c.
  unfold dRT, dln. cbv beta iota zeta delta [hsep dmul dadd cst d0 d1 d2 d3 h0 hT hD hTT hTD hDD hTTT hTTD hTDD hDDD].
  generalize (ln (gascon / (101325 / 1000000))), (ln t). intros l1 l2. generalize gascon, uref, sref. intros R0 u0 s0.
  repeat match goal with |- _ /\ _ => split end; field; lra.
Qed.
