(** Points at which the tables of Haar, Gallagher and Kell are wrong.  *)
From Coq Require Import List Bool Reals Lra Lia.
From Coquelicot Require Import Coquelicot.
From Verif Require Import RDeriv RDiff2 WaterModel WaterSpec WaterProofs WaterMore HelmModel HelmJet HelmProofs HelmMore HelmHgk HelmHgk2 SoluteProofs.
Import ListNotations.
Open Scope R_scope.

Definition t1 : R := 989 / 1000.
Definition r1 : R := 1 / 100.
Lemma ln_t1 : -2 / 100 < ln t1 < 0.
Proof.
  split.
  - assert (H := exp_ineq1 (- ln t1)). assert (N : - ln t1 <> 0). { intro E. assert (Q : exp (ln t1) = 1) by (replace (ln t1) with 0 by lra; apply exp_0). rewrite exp_ln in Q by (unfold t1; lra). unfold t1 in Q. lra. }
    specialize (H N). rewrite exp_Ropp, exp_ln in H by (unfold t1; lra). assert (I : / t1 < 102 / 100) by (unfold t1; lra). lra.
  - rewrite <- ln_1. apply ln_increasing; unfold t1; lra.
Qed.
Lemma yr1 : 1 / 100 < yr t1 < 1 / 10.
Proof.
  unfold yr. assert (L := ln_t1). assert (E3 : / t1 ^ 3 = 1000 ^ 3 / 989 ^ 3) by (unfold t1; field). assert (E5 : / t1 ^ 5 = 1000 ^ 5 / 989 ^ 5) by (unfold t1; field). rewrite E3, E5.
  unfold hg_y0, hg_y1, hg_y2, hg_y3. generalize dependent (ln t1). intros l L. split; lra.
Qed.
Lemma ytd1 : hTD (hg_y t1 r1) < 0.
Proof.
  unfold hg_y. cbv zeta. hp. assert (E3 : / t1 ^ 3 = 1000 ^ 3 / 989 ^ 3) by (unfold t1; field). assert (E5 : / t1 ^ 5 = 1000 ^ 5 / 989 ^ 5) by (unfold t1; field). rewrite E3, E5. unfold hg_y1, hg_y2, hg_y3, r1, t1. lra.
Qed.
Lemma err2_pos : 0 < err2 t1 r1.
Proof.
  assert (Y := yr1). assert (Z := ytd1). assert (E0 : h0 (hg_y t1 r1) = r1 * yr t1) by reflexivity. assert (ED : hD (hg_y t1 r1) = yr t1) by (change (r1 * yr t1 / r1 = yr t1); unfold r1; field).
  assert (EDD : hDD (hg_y t1 r1) = 0) by reflexivity. unfold err2, xerr. cbv zeta. rewrite E0, ED, EDD. generalize dependent (hTD (hg_y t1 r1)). intros a Z. generalize dependent (yr t1). intros y Y _ _.
  set (x := 1 / (1 - r1 * y)). assert (D1 : 0 < 1 - r1 * y < 1) by (unfold r1; lra). assert (X : 1 < x).
  { unfold x. apply Rmult_lt_reg_r with (1 - r1 * y); [lra|]. replace (1 / (1 - r1 * y) * (1 - r1 * y)) with 1 by (field; lra). lra. }
  assert (X1 : 0 < 1 / x) by (apply Rdiv_lt_0_compat; lra).
  clearbody x. apply Rmult_lt_0_compat.
  - apply Rmult_lt_0_compat; [|unfold hg_c1, hg_c2; lra]. unfold hg_A20, t1. lra.
  - rewrite Rmult_0_l, Rplus_0_r. assert (P1 : 0 < y * (x * x)) by (apply Rmult_lt_0_compat; [lra|]; apply Rmult_lt_0_compat; lra).
    replace (2 * (a * (y * (x * x))) * (1 - x)) with (2 * (- a) * (y * (x * x)) * (x - 1)) by ring. apply Rmult_lt_0_compat; [|lra]. apply Rmult_lt_0_compat; [lra|exact P1].
Qed.
Lemma err4_pos : forall p, In p hg_A4 -> 0 < err4 p t1 r1.
Proof.
  intros p Hp. unfold hg_A4 in Hp. inlist Hp; subst p; unfold err4, t1, r1; cbv zeta; cbn [INR];
  (match goal with |- 0 < ?a * (?b * ?c * exp ?e) * ?f => assert (E := exp_pos e); set (ee := exp e) in *; clearbody ee;
     assert (Q : 0 < a * b * c * f) by lra; replace (a * (b * c * ee) * f) with ((a * b * c * f) * ee) by ring; now apply Rmult_lt_0_compat end).
Qed.
Lemma apart_iff : forall D, hgk_opt 0 D <> None -> apart (D / hg_D).
Proof.
  intros D H p Hp E. apply H. unfold hgk_opt. replace (existsb (fun p : R * nat * nat * R * R * R * R => let '(_, _, _, _, _, ri, _) := p in isz (D / hg_D - ri)) hg_A4) with true; [reflexivity|]. symmetry.
  apply existsb_exists. exists p. split; [exact Hp|]. destruct p as [[[[[[a m] n] al] be] ri] ti]. unfold cen in E. unfold isz. destruct (Req_EM_T (D / hg_D - ri) 0) as [_|N]; [reflexivity|]. exfalso. apply N. lra.
Qed.
Lemma apart_of : forall T D, hgk_opt T D <> None -> apart (D / hg_D).
Proof. intros T D H. apply apart_iff. unfold hgk_opt in *. match goal with |- (if ?b then _ else _) <> None => destruct b end; [now elim H|discriminate]. Qed.
Lemma apart_to : forall T D, apart (D / hg_D) -> hgk_opt T D = Some (hgk T D).
Proof.
  intros T D H. unfold hgk_opt. match goal with |- (if ?b then _ else _) = _ => assert (E : b = false) end.
  { apply not_true_is_false. intro Q. apply existsb_exists in Q. destruct Q as [p [Hp Z]]. apply (H p Hp). destruct p as [[[[[[a m] n] al] be] ri] ti]. unfold cen. unfold isz in Z. destruct (Req_EM_T (D / hg_D - ri) 0); [lra|discriminate]. }
  rewrite E. reflexivity.
Qed.
(** the domain *)
Lemma yr_small : forall t, 2 / 5 <= t -> yr t < 3 / 20.
Proof.
  intros t Ht. assert (P : 0 < t) by lra. assert (I1 : / t <= 5 / 2). { replace (5 / 2) with (/ (2 / 5)) by field. apply Rinv_le_contravar; lra. }
  assert (IP : 0 < / t) by now apply Rinv_0_lt_compat. assert (L : - ln t <= / t - 1).
  { rewrite <- ln_Rinv by exact P. assert (H := exp_ineq1_le (ln (/ t))). rewrite exp_ln in H by exact IP. lra. }
  assert (I3 : 0 < / t ^ 3 <= 125 / 8). { split; [apply Rinv_0_lt_compat; now apply pow_lt|]. replace (125 / 8) with (/ ((2 / 5) ^ 3)) by field. apply Rinv_le_contravar; [lra|]. apply pow_incr. lra. }
  assert (I5 : 0 < / t ^ 5) by (apply Rinv_0_lt_compat; now apply pow_lt).
  unfold yr, hg_y0, hg_y1, hg_y2, hg_y3. lra.
Qed.
Lemma dom : forall T D, 273 <= T -> 0 < D <= 2000 -> hgk_opt T D <> None -> Hreg T D.
Proof.
  intros T D HT [HD HD'] H. split; [lra|split; [exact HD|split; [|exact (apart_of T D H)]]]. assert (Y : yr (T / hg_T) < 3 / 20).
  { apply yr_small. unfold hg_T. lra. }
  assert (R1 : 0 < D / hg_D <= 13 / 2) by (unfold hg_D; lra). generalize dependent (yr (T / hg_T)). generalize dependent (D / hg_D). intros r R1 y Y.
  destruct (Rle_lt_dec y 0) as [N|N]; [|apply Rle_lt_trans with (13 / 2 * y); [apply Rmult_le_compat_r; lra|lra]]. assert (Q := Rmult_le_compat_l r y 0 ltac:(lra) N). lra.
Qed.
Definition Tw : R := t1 * hg_T.
Definition Dw : R := r1 * hg_D.
Lemma w_t : Tw / hg_T = t1. Proof. unfold Tw, hg_T. field. Qed.
Lemma w_r : Dw / hg_D = r1. Proof. unfold Dw, hg_D. field. Qed.
Lemma w_some : hgk_opt Tw Dw = Some (hgk Tw Dw).
Proof. apply apart_to. rewrite w_r. intros p Hp. unfold hg_A4 in Hp. inlist Hp; subst p; unfold cen, r1; lra. Qed.
Lemma w_dom : 273 <= Tw /\ 0 < Dw <= 2000 /\ hgk_opt Tw Dw <> None.
Proof. split; [unfold Tw, t1, hg_T; lra|split; [unfold Dw, r1, hg_D; lra|]]. rewrite w_some. discriminate. Qed.
Theorem hgk_TDD_refuted : exists T D, 273 <= T /\ 0 < D <= 2000 /\ hgk_opt T D <> None /\ ~ is_derive (fun t : R => hDD (hgk t D)) T (hTDD (hgk T D)) /\
  forall P, ~ is_derive (fun t : R => w_pD (waterThermoState t P D (hgk t D))) T (w_pTD (waterThermoState T P D (hgk T D))).
Proof.
  exists Tw, Dw. destruct w_dom as [A [B C]]. split; [exact A|split; [exact B|split; [exact C|]]]. assert (H := dom _ _ A B C).
  assert (K : ~ is_derive (fun t : R => hDD (hgk t Dw)) Tw (hTDD (hgk Tw Dw))).
  { intro Q. apply (hgk_TDD_iff _ _ H) in Q. rewrite w_t, w_r in Q. unfold errTDD in Q. assert (E2 := err2_pos). assert (E4 := err4_pos).
    assert (S : forall (l : list (R * nat * nat * R * R * R * R)) s, 0 <= s -> (forall p, In p l -> 0 < err4 p t1 r1) -> 0 <= fold_left (fun s p => s + err4 p t1 r1) l s).
    { induction l as [|p l IH]; intros s Hs Hl; cbn [fold_left]; [exact Hs|]. apply IH; [assert (Z := Hl p (or_introl eq_refl)); lra|]. intros q Hq. apply Hl. now right. }
    assert (Z := S hg_A4 0 (Rle_refl 0) E4). lra. }
  split; [exact K|]. intros P Q. apply K. destruct (hgk_table _ _ H) as [_ [[_ T2] _]]. apply e_1 in T2. unfold waterThermoState in Q. cbv zeta in Q. cbn [w_pD w_pTD] in Q.
  assert (N : Dw <> 0) by lra.
  apply d_ext with (fun t => ((2 * Dw * hD (hgk t Dw) + Dw * Dw * hDD (hgk t Dw)) - 2 * Dw * hD (hgk t Dw)) * / (Dw * Dw)); [intro t; field; exact N|].
  eapply d_eq; [exact (d_scal_r _ (/ (Dw * Dw)) _ _ (d_minus _ _ _ _ _ Q (d_scal _ (2 * Dw) _ _ T2)))|]. generalize (hTD (hgk Tw Dw)), (hTDD (hgk Tw Dw)). intros a b. field. exact N.
Qed.
Lemma one_pos : Hreg hg_T hg_D.
Proof.
  assert (A := hgT_pos). assert (B := hgD_pos). apply dom; [unfold hg_T; lra|unfold hg_D; lra|]. rewrite apart_to; [discriminate|]. replace (hg_D / hg_D) with 1 by (field; lra).
  intros p Hp. unfold hg_A4 in Hp. inlist Hp; subst p; unfold cen; lra.
Qed.
Lemma hgk2_neg : h0 (hgk2 1 1) < 0.
Proof.
  assert (Y : 5 / 100 < h0 (hg_y 1 1) < 7 / 100).
  { change (h0 (hg_y 1 1)) with (1 * yr 1). unfold yr. rewrite ln_1, !pow1, Rinv_1. unfold hg_y0, hg_y1, hg_y2, hg_y3. lra. }
  unfold hgk2. cbv zeta. unfold hg_s. cbv zeta. hp. unfold hg_u. cbv zeta. hp. unfold hg_x. cbv zeta. hp. generalize dependent (h0 (hg_y 1 1)). intros y Y. set (x := 1 / (1 - y)).
  assert (X : 1 < x < 11 / 10). { unfold x. assert (Q : 1 / (1 - y) * (1 - y) = 1) by (field; lra). generalize dependent (1 / (1 - y)). intros z Q. split; nra. }
  assert (L : ln (1 * x) <= x - 1). { rewrite Rmult_1_l. assert (H := exp_ineq1_le (ln x)). rewrite exp_ln in H by lra. lra. }
  clearbody x. rewrite Rmult_1_r. assert (G : ln (1 * x) + hg_c1 * x + hg_c2 * x * x + hg_c3 * y < 0) by (unfold hg_c1, hg_c2, hg_c3; nra).
  generalize dependent (ln (1 * x) + hg_c1 * x + hg_c2 * x * x + hg_c3 * y). intros g G. unfold hg_A20. lra.
Qed.
Theorem hgk_TTT_refuted : exists T D, 273 <= T /\ 0 < D <= 2000 /\ hgk_opt T D <> None /\ ~ is_derive (fun t : R => hTT (hgk t D)) T (hTTT (hgk T D)).
Proof.
  exists hg_T, hg_D. assert (A := hgT_pos). assert (B := hgD_pos). assert (H := one_pos). split; [unfold hg_T; lra|split; [unfold hg_D; lra|split]].
  - rewrite apart_to; [discriminate|]. apply H.
  - intro Q. apply (hgk_TTT_iff _ _ H) in Q. replace (hg_T / hg_T) with 1 in Q by (field; lra). replace (hg_D / hg_D) with 1 in Q by (field; lra). unfold errTTT in Q. assert (N := hgk2_neg).
    generalize dependent (h0 (hgk2 1 1)). intros z Q N. lra.
Qed.
Theorem hgk_ok : forall T D, 273 <= T -> 0 < D <= 2000 -> hgk_opt T D <> None -> helm1 hgk T D /\ helm2 hgk T D /\
  is_derive (fun d : R => hTT (hgk T d)) D (hTTD (hgk T D)) /\ is_derive (fun t : R => hTD (hgk t D)) T (hTTD (hgk T D)) /\ is_derive (fun d : R => hDD (hgk T d)) D (hDDD (hgk T D)).
Proof. intros T D A B C. apply hgk_table. now apply dom. Qed.
Lemma wp_some : forall T D, wagnerPruss_opt T D <> None <-> D <> wp_Dc.
Proof.
  intros T D. unfold wagnerPruss_opt, isz. destruct (Req_EM_T (D - wp_Dc) 0) as [E|N]; split; intro H.
  - now elim H. - intros _. apply H. lra. - intro E. apply N. lra. - discriminate.
Qed.
Theorem wp_ok : forall T D, 0 < T -> 0 < D -> wagnerPruss_opt T D <> None -> helm1 wagnerPruss T D /\ helm2 wagnerPruss T D /\ helm3' wagnerPruss T D.
Proof. intros T D A B C. apply wp_table; try assumption. now apply (wp_some T D). Qed.
Theorem wp_ttt_bad : exists T D, 0 < T /\ 0 < D /\ wagnerPruss_opt T D <> None /\ ~ is_derive (fun t : R => hTT (wagnerPruss t D)) T (hTTT (wagnerPruss T D)).
Proof. destruct wp_TTT_refuted as [T [D [A [B [C E]]]]]. exists T, D. split; [exact A|split; [exact B|split; [now apply wp_some|exact E]]]. Qed.
Theorem no_value : (forall T, wagnerPruss_opt T 322 = None) /\ (forall T, hgk_opt T (hg_D * (48778492 / 10000000)) = None).
Proof.
  split; intro T.
  - unfold wagnerPruss_opt, isz, wp_Dc. destruct (Req_EM_T (322 - 322) 0) as [_|N]; [reflexivity|]. exfalso. apply N. ring.
  - destruct (hgk_opt T (hg_D * (48778492 / 10000000))) as [h|] eqn:E; [|reflexivity]. exfalso.
    assert (Q := apart_of T (hg_D * (48778492 / 10000000)) ltac:(rewrite E; discriminate)). unfold apart in Q. specialize (Q (- (13362857 / 10000000), 4%nat, 0%nat, 1050, 25, 48778492 / 10000000, 41713659 / 100000000)).
    apply Q; [unfold hg_A4; cbn [In]; tauto|]. unfold cen. assert (B := hgD_pos). field. lra.
Qed.
(** the state computed from the tables *)
Definition state_ok (H : R -> R -> helm) (rho : R -> R -> R) (T P : R) : Prop :=
  let s := along H rho in
  diff2 rho T P (w_dT (s T P)) (w_dP (s T P)) /\ diff2 (fun t p => w_G (s t p)) T P (- w_S (s T P)) (w_V (s T P)) /\
  is_derive (fun t : R => w_H (s t P)) T (w_cp (s T P)) /\ is_derive (fun t : R => w_S (s t P)) T (w_cp (s T P) / T).
Lemma state_gen : forall H rho T P, rho T P <> 0 -> T <> 0 -> helm1 H T (rho T P) -> helm2 H T (rho T P) -> w_pD (along H rho T P) <> 0 -> density_of H rho T P -> state_ok H rho T P.
Proof.
  intros H rho T P A B H1 H2 N D. destruct (energy_d H rho T P A B H1 H2 N D) as [G [_ [S E]]]. split; [exact (rho_d H rho T P H2 N D)|split; [exact G|]].
  split; [exact (e_1 _ _ _ _ _ E)|exact (e_1 _ _ _ _ _ S)].
Qed.
Theorem wp_state : forall rho T P, 0 < T -> 0 < rho T P -> wagnerPruss_opt T (rho T P) <> None -> w_pD (along wagnerPruss rho T P) <> 0 -> density_of wagnerPruss rho T P ->
  state_ok wagnerPruss rho T P /\ (w_dT (along wagnerPruss rho T P) <> 0 -> exists dTT, w_dTT (along wagnerPruss rho T P) = Some dTT /\
    diff2 (fun t p => w_dT (along wagnerPruss rho t p)) T P dTT (w_dTP (along wagnerPruss rho T P)) /\ diff2 (fun t p => w_dP (along wagnerPruss rho t p)) T P (w_dTP (along wagnerPruss rho T P)) (w_dPP (along wagnerPruss rho T P))).
Proof.
  intros rho T P A B C N D. destruct (wp_ok T (rho T P) A B C) as [H1 [H2 H3]]. split; [apply state_gen; try assumption; lra|]. intro Z. exact (second_d wagnerPruss rho T P H2 H3 N Z D).
Qed.
Theorem hgk_state : forall rho T P, 273 <= T -> 0 < rho T P <= 2000 -> hgk_opt T (rho T P) <> None -> w_pD (along hgk rho T P) <> 0 -> density_of hgk rho T P -> state_ok hgk rho T P.
Proof.
  intros rho T P A B C N D. destruct (hgk_ok T (rho T P) A B C) as [H1 [H2 _]]. apply state_gen; try assumption; lra.
Qed.
