(** The table of Haar, Gallagher and Kell as a whole.  *)
From Coq Require Import List Bool Reals Lra Lia.
From Coquelicot Require Import Coquelicot.
From Verif Require Import RDeriv RDiff2 WaterModel WaterSpec HelmModel HelmJet HelmProofs HelmMore HelmHgk SoluteProofs.
Import ListNotations.
Open Scope R_scope.

Definition apart (r : R) : Prop := forall p, In p hg_A4 -> r <> cen p.
Definition Uall (t r : R) : Prop := Uy t r /\ apart r.
Definition g_true (t r : R) : helm := hadd (hadd (hadd (hadd (hgk0 t) (hgk1 t r)) (s_true t r)) (hgk3 t r)) (hsum (fun p => hg_th_true p t r) hg_A4).
Lemma pok_all : forall p, In p hg_A4 -> pok p.
Proof. intros p Hp. unfold hg_A4 in Hp. inlist Hp; subst p; unfold pok; split; lra. Qed.
Lemma g_true_jet : jet Uall g_true.
Proof.
  assert (P : forall t d, Uall t d -> Upos t d) by (intros t d [H _]; now apply Uy_pos).
  unfold g_true. apply jet_add; [apply jet_add; [apply jet_add; [apply jet_add|]|]|].
  - exact (jet_sub _ _ _ P hgk0_jet).
  - exact (jet_sub _ _ _ P hgk1_jet).
  - eapply jet_sub; [|exact s_true_jet]. now intros t d [H _].
  - exact (jet_sub _ _ _ P hgk3_jet).
  - apply (jet_sum _ Uall hg_th_true). intros p Hp. eapply jet_sub; [|exact (hg_th_true_jet p (pok_all p Hp))]. intros t d [[A [B _]] C]. split; [exact A|split; [exact B|now apply C]].
Qed.
Lemma hsum_add : forall (X : Type) (f g : X -> helm) (e : X -> R) (l : list X), (forall x, In x l -> f x = addTDD (g x) (e x)) ->
  hsum f l = addTDD (hsum g l) (fold_left (fun s x => s + e x) l 0).
Proof.
  intros X f g e l H. unfold hsum. assert (Z : hzero = addTDD hzero 0) by (unfold addTDD, hzero; hp; apply helm_eq; hp; ring). rewrite Z at 1. generalize hzero, 0. revert H.
  induction l as [|x l IH]; intros H s z; cbn [fold_left]; [reflexivity|]. rewrite (H x (or_introl eq_refl)).
  replace (hadd (addTDD s z) (addTDD (g x) (e x))) with (addTDD (hadd s (g x)) (z + e x)) by (unfold addTDD, hadd; hp; apply helm_eq; hp; ring).
  apply IH. intros y Hy. apply H. now right.
Qed.
(** the surplus of the mixed third derivative, in the repulsive part and in the Gaussian terms *)
Definition err2 (t r : R) : R := let x := 1 / (1 - h0 (hg_y t r)) in hg_A20 * t * (1 / x + hg_c1 + 2 * hg_c2 * x) * xerr (hg_y t r).
Definition errTDD (t r : R) : R := err2 t r + fold_left (fun s p => s + err4 p t r) hg_A4 0.
Definition errTTT (t r : R) : R := - (3 * h0 (hgk2 t r) / (t * t * t)).
Lemma m0 : forall a b, h0 (hmul a b) = h0 a * h0 b. Proof. reflexivity. Qed.
Lemma a0 : forall a b, h0 (hadd a b) = h0 a + h0 b. Proof. reflexivity. Qed.
Lemma e0 : forall a b, h0 (hsep a b) = d0 a * d0 b. Proof. reflexivity. Qed.
Lemma s0 : forall t r, h0 (s_true t r) = hg_A20 * t * (h0 (u_true t r) + hg_c1 * h0 (x_true t r) + hg_c2 * h0 (x_true t r) * h0 (x_true t r) + hg_c3 * h0 (hg_y t r)).
Proof. intros t r. unfold s_true. cbv zeta. generalize (u_true t r), (x_true t r), (hg_y t r), hg_A20, hg_c1, hg_c2, hg_c3. intros. rewrite !m0, !a0, !m0, !e0. cbn [cst d0]. ring. Qed.
Lemma hgk2_fix : forall t r, Uy t r -> hgk2 t r = addTTT (addTDD (s_true t r) (err2 t r)) (errTTT t r).
Proof.
  intros t r H. assert (P := x_pos t r H). assert (Y := Uy_y t r H). assert (Q := H). destruct Q as [Ht [Hr _]].
  assert (E0 : h0 (hgk2 t r) = h0 (s_true t r)).
  { unfold hgk2. cbv zeta. rewrite hg_x_fix by exact Y. fold (x_true t r). rewrite hg_u_fix by (apply Rgt_not_eq; assumption). fold (u_true t r). rewrite hg_s_fix by lra. reflexivity. }
  unfold errTTT. rewrite E0. unfold hgk2. cbv zeta. rewrite hg_x_fix by exact Y. fold (x_true t r). rewrite hg_u_fix by (apply Rgt_not_eq; assumption). fold (u_true t r). rewrite hg_s_fix by lra.
  fold (s_true t r). f_equal.
  - f_equal. unfold err2. cbv zeta. replace (1 / (1 - h0 (hg_y t r))) with (h0 (x_true t r)) by reflexivity. generalize dependent (h0 (x_true t r)). intros x P. generalize (xerr (hg_y t r)), hg_A20, hg_c1, hg_c2. intros. field. lra.
  - rewrite s0. match goal with |- - (3 * (_ * ?e) / _) = _ => generalize e end. intro e. generalize hg_A20. intro a. field. lra.
Qed.
Lemma g_fix : forall t r, Uall t r -> hgk_sum t r = addTTT (addTDD (g_true t r) (errTDD t r)) (errTTT t r).
Proof.
  intros t r [H C]. unfold hgk_sum, g_true. rewrite (hgk2_fix t r H). unfold hgk4.
  rewrite (hsum_add _ (fun p => hg_th p t r) (fun p => hg_th_true p t r) (fun p => err4 p t r) hg_A4) by (intros p Hp; apply hg_th_fix; [now apply pok_all|now apply C]).
  unfold errTDD. generalize (hgk0 t), (hgk1 t r), (s_true t r), (hgk3 t r), (hsum (fun p => hg_th_true p t r) hg_A4), (err2 t r), (errTTT t r), (fold_left (fun s p => s + err4 p t r) hg_A4 0).
  intros a b c d e z1 z2 z3. unfold addTTT, addTDD, hadd. hp. apply helm_eq; hp; ring.
Qed.
Definition dlin (T : R) : der := mkDer (T / hg_T) (1 / hg_T) 0 0.
Lemma j_lin : forall V, jet1 V dlin.
Proof. intros V x _. assert (N : hg_T <> 0) by (unfold hg_T; lra). unfold dlin. generalize dependent hg_T. intros c N. split; [|split]; hp; [|apply d_const..]. eapply d_eq; [dr; exact N|cbv beta; field; exact N]. Qed.
Definition hgk_true (T D : R) : helm := hmul (hsep (cst hg_H) (cst 1)) (hsub (dlin T) (/ hg_D) (g_true (d0 (dlin T)) (D * / hg_D))).
Definition Hreg (T D : R) : Prop := 0 < T /\ 0 < D /\ D / hg_D * yr (T / hg_T) < 1 /\ apart (D / hg_D).
Lemma hgT_pos : 0 < hg_T. Proof. unfold hg_T. lra. Qed.
Lemma hgD_pos : 0 < hg_D. Proof. unfold hg_D. lra. Qed.
Lemma hgH_pos : 0 < hg_H. Proof. unfold hg_H. lra. Qed.
Lemma Hreg_U : forall T D, Hreg T D -> posx T /\ Uall (d0 (dlin T)) (D * / hg_D).
Proof.
  intros T D [HT [HD [HY HA]]]. assert (A := hgT_pos). assert (B := hgD_pos). split; [exact HT|]. unfold dlin; hp. split; [split; [now apply Rdiv_lt_0_compat|split; [now apply Rdiv_lt_0_compat|exact HY]]|exact HA].
Qed.
Lemma hgk_true_jet : jet Hreg hgk_true.
Proof.
  unfold hgk_true. apply jet_mul.
  - apply (jet_sep posx posx (fun _ => cst hg_H) (fun _ => cst 1)); [apply j_cst..|intros T D [A [B _]]; now split].
  - eapply jet_sub; [exact Hreg_U|]. apply (jet_sub_var posx dlin (/ hg_D) Uall g_true (j_lin posx) g_true_jet).
Qed.
Lemma hgk_fix : forall T D, Hreg T D -> hgk T D = addTTT (addTDD (hgk_true T D) (errTDD (T / hg_T) (D / hg_D) * (hg_H / hg_D / hg_D / hg_T))) (errTTT (T / hg_T) (D / hg_D) * (hg_H / hg_T / hg_T / hg_T)).
Proof.
  intros T D H. destruct (Hreg_U T D H) as [_ U]. unfold hgk, hgk_true. change (D / hg_D) with (D * / hg_D). change (d0 (dlin T)) with (T / hg_T) in *. rewrite (g_fix _ _ U).
  assert (A := hgT_pos). assert (B := hgD_pos).
  generalize (g_true (T / hg_T) (D * / hg_D)), (errTDD (T / hg_T) (D * / hg_D)), (errTTT (T / hg_T) (D * / hg_D)). intros [x0 x1 x2 x3 x4 x5 x6 x7 x8 x9] e1 e2.
  clear H U. unfold dlin, hgk_dim, hsub. hp. revert A B. generalize hg_T, hg_D, hg_H. intros c3 c2 c1 A B.
  unfold hgk_dim, addTTT, addTDD, hmul, hsub, hsep, cst. hp. apply helm_eq; hp; field; lra.
Qed.
Lemma open_hreg : open2 Hreg.
Proof.
  intros T D H. destruct (Hreg_U T D H) as [_ [UY _]]. destruct H as [HT [HD [HY HA]]]. assert (A := hgT_pos). assert (B := hgD_pos).
  assert (L1 : locally_2d (fun t d => 0 < t /\ 0 < d) T D) by (apply open_pos; now split).
  assert (L2 : locally_2d (fun t d => d / hg_D * yr (t / hg_T) < 1) T D).
  { assert (U0 : Upos (T / hg_T) (D / hg_D)) by (split; now apply Rdiv_lt_0_compat). destruct (hg_y_jet _ _ U0) as [J _]. unfold helm1 in J.
    assert (K1 : diff2 (fun t _ : R => t / hg_T) T D (1 / hg_T) 0) by (eapply e_eq; [er; lra|cbv beta; field; lra|cbv beta; field; lra]).
    assert (K2 : diff2 (fun _ d : R => d / hg_D) T D 0 (1 / hg_D)) by (eapply e_eq; [er; lra|cbv beta; field; lra|cbv beta; field; lra]).
    assert (C := e_cont _ _ _ _ _ (e_comp2 _ (fun t _ => t / hg_T) (fun _ d => d / hg_D) T D _ _ _ _ _ _ J K1 K2)).
    assert (E : 0 < 1 - D / hg_D * yr (T / hg_T)) by lra. destruct (C (mkposreal _ E)) as [e He]. exists e. intros u v Hu Hv. assert (Q := He u v Hu Hv). cbn [pos] in Q. apply Rabs_def2 in Q.
    change (h0 (hg_y (u / hg_T) (v / hg_D))) with (v / hg_D * yr (u / hg_T)) in Q. change (h0 (hg_y (T / hg_T) (D / hg_D))) with (D / hg_D * yr (T / hg_T)) in Q. lra. }
  assert (L3 : locally_2d (fun _ d => apart (d / hg_D)) T D).
  { unfold apart in *. revert HA. generalize hg_A4. induction l as [|p l IH]; intro HA; [exists (mkposreal 1 Rlt_0_1); intros u v _ _ p []|].
    destruct IH as [e1 H1]; [intros q Hq; apply HA; now right|]. assert (N := HA p (or_introl eq_refl)).
    assert (Q : 0 < Rabs (D - cen p * hg_D)).
    { apply Rabs_pos_lt. intro Z. apply N. replace D with (cen p * hg_D) by lra. field. lra. }
    exists (mkposreal (Rmin e1 (Rabs (D - cen p * hg_D))) (Rmin_pos _ _ (cond_pos e1) Q)). cbn [pos]. intros u v Hu Hv q [<-|Hq].
    - intro E. assert (V : v = cen p * hg_D) by (rewrite <- E; field; lra). assert (Z := Rmin_r e1 (Rabs (D - cen p * hg_D))). rewrite V, Rabs_minus_sym in Hv. lra.
    - assert (Z := Rmin_l e1 (Rabs (D - cen p * hg_D))). apply (H1 u v); [lra|lra|exact Hq]. }
  assert (L := locally_2d_and _ _ _ _ L1 (locally_2d_and _ _ _ _ L2 L3)). destruct L as [e He]. exists e. intros u v Hu Hv. destruct (He u v Hu Hv) as [[X1 X2] [X3 X4]]. split; [exact X1|split; [exact X2|now split]].
Qed.
(** the code's table with the two values put right *)
Definition fix2 (a b : helm) : helm := mkHelm (h0 a) (hT a) (hD a) (hTT a) (hTD a) (hDD a) (hTTT b) (hTTD a) (hTDD b) (hDDD a).
Lemma hgk_fix_jet : jet Hreg (fun T D => fix2 (hgk T D) (hgk_true T D)).
Proof.
  apply jet_ext with hgk_true; [exact open_hreg| |exact hgk_true_jet]. intros T D H. rewrite (hgk_fix T D H). generalize (hgk_true T D). intros [x0 x1 x2 x3 x4 x5 x6 x7 x8 x9]. reflexivity.
Qed.
Ltac jcbn H := unfold helm1 in H; unfold fix2 in H; cbn [h0 hT hD hTT hTD hDD hTTT hTTD hTDD hDDD] in H.
Theorem hgk_table : forall T D, Hreg T D -> helm1 hgk T D /\ helm2 hgk T D /\
  is_derive (fun d : R => hTT (hgk T d)) D (hTTD (hgk T D)) /\ is_derive (fun t : R => hTD (hgk t D)) T (hTTD (hgk T D)) /\ is_derive (fun d : R => hDD (hgk T d)) D (hDDD (hgk T D)).
Proof.
  intros T D H. destruct (hgk_fix_jet T D H) as [A [[B1 B2] [C1 [C2 C3]]]]. jcbn A. jcbn B1. jcbn B2. jcbn C1. jcbn C2. jcbn C3.
  split; [exact A|split; [split; [exact B1|exact B2]|]]. split; [exact (e_2 _ _ _ _ _ C1)|split; [exact (e_1 _ _ _ _ _ C2)|exact (e_2 _ _ _ _ _ C3)]].
Qed.
Theorem hgk_TDD_iff : forall T D, Hreg T D -> (is_derive (fun t : R => hDD (hgk t D)) T (hTDD (hgk T D)) <-> errTDD (T / hg_T) (D / hg_D) = 0).
Proof.
  intros T D H. destruct (hgk_fix_jet T D H) as [_ [_ [_ [_ C]]]]. jcbn C. apply e_1 in C. cbv beta in C.
  assert (A := hgT_pos). assert (B := hgD_pos). assert (HH := hgH_pos). assert (E : hTDD (hgk T D) = hTDD (hgk_true T D) + errTDD (T / hg_T) (D / hg_D) * (hg_H / hg_D / hg_D / hg_T)) by (rewrite (hgk_fix T D H); reflexivity).
  assert (K : 0 < hg_H / hg_D / hg_D / hg_T) by (repeat (apply Rdiv_lt_0_compat; [|assumption]); assumption).
  revert C E K. generalize (errTDD (T / hg_T) (D / hg_D)), (hTDD (hgk_true T D)), (hTDD (hgk T D)), (hg_H / hg_D / hg_D / hg_T). intros e a b k C E K. split.
  - intro Q. assert (U := d_unique _ _ _ _ Q C). assert (Z : e * k = 0) by lra. apply Rmult_integral in Z. destruct Z; [assumption|lra].
  - intros ->. replace b with a by lra. exact C.
Qed.
Theorem hgk_TTT_iff : forall T D, Hreg T D -> (is_derive (fun t : R => hTT (hgk t D)) T (hTTT (hgk T D)) <-> errTTT (T / hg_T) (D / hg_D) = 0).
Proof.
  intros T D H. destruct (hgk_fix_jet T D H) as [_ [_ [C _]]]. jcbn C. apply e_1 in C. cbv beta in C.
  assert (A := hgT_pos). assert (B := hgD_pos). assert (HH := hgH_pos). assert (E : hTTT (hgk T D) = hTTT (hgk_true T D) + errTTT (T / hg_T) (D / hg_D) * (hg_H / hg_T / hg_T / hg_T)) by (rewrite (hgk_fix T D H); reflexivity).
  assert (K : 0 < hg_H / hg_T / hg_T / hg_T) by (repeat (apply Rdiv_lt_0_compat; [|assumption]); assumption).
  revert C E K. generalize (errTTT (T / hg_T) (D / hg_D)), (hTTT (hgk_true T D)), (hTTT (hgk T D)), (hg_H / hg_T / hg_T / hg_T). intros e a b k C E K. split.
  - intro Q. assert (U := d_unique _ _ _ _ Q C). assert (Z : e * k = 0) by lra. apply Rmult_integral in Z. destruct Z; [assumption|lra].
  - intros ->. replace b with a by lra. exact C.
Qed.
