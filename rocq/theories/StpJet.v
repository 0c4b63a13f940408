(** The table of Helmholtz derivatives of the Sterner-Pitzer fluids, for any coefficients. *)
From Coq Require Import List Bool Reals Lra.
From Coquelicot Require Import Coquelicot.
From Verif Require Import RDeriv RDiff2 WaterModel WaterSpec HelmModel HelmJet HelmProofs GasModel StpModel.
Import ListNotations.
Open Scope R_scope.

Definition dinv (x : R) : der := mkDer (/ x) (- / x ^ 2) (2 / x ^ 3) (-6 / x ^ 4).
Definition d3ct (T : R) (r : row) : R := - (120 * r_m4 r * / T ^ 7) - 24 * r_m2 r * / T ^ 5 - 6 * r_m1 r * / T ^ 4.
Definition dcf (r : row) (t : R) : der := mkDer (ct t r) (dct t r) (d2ct t r) (d3ct t r).
Lemma inv_pow_d : forall n (x : R), 0 < x -> is_derive (fun t : R => / t ^ n) x (- INR n * / x ^ (Datatypes.S n)).
Proof.
  intros n x Hx. assert (N : x ^ n <> 0) by (apply pow_nonzero; lra). eapply d_eq; [apply (d_inv (fun t => t ^ n) x _ (d_pow (fun t => t) n x 1 (d_id x)) N)|]. cbv beta. rewrite Rmult_1_r.
  destruct n as [|n]; [cbn; field; lra|]. cbn [Nat.pred]. generalize (INR (Datatypes.S n)). intros k. cbn [pow]. assert (x ^ n <> 0) by (apply pow_nonzero; lra). field. split; [assumption|lra].
Qed.
Lemma inv_d : forall x : R, 0 < x -> is_derive (fun t : R => / t) x (- / x ^ 2).
Proof. intros x Hx. eapply d_eq; [apply (d_inv (fun t => t) x 1 (d_id x)); lra|]. cbv beta. field. lra. Qed.
Lemma j_cf : forall r, jet1 posx (dcf r).
Proof.
  intros [p4 p2 p1 p0 q1 q2] x Hx. unfold posx in Hx. unfold dcf, ct, dct, d2ct, d3ct. hp. cbn [r_m4 r_m2 r_m1 r_0 r_1 r_2].
  split; [|split].
  - eapply d_eq; [apply d_plus; [apply d_plus; [apply d_plus; [apply d_plus; [apply d_plus; [apply d_scal, inv_pow_d, Hx|apply d_scal, inv_pow_d, Hx]|apply d_scal, inv_d, Hx]|apply d_const]|apply d_scal, d_id]|apply d_scal, (d_pow (fun t => t) 2 x 1 (d_id x))]|]. cbn [Nat.pred INR pow]. field. lra.
  - eapply d_eq; [apply d_plus; [apply d_plus; [apply d_minus; [apply d_minus; [apply d_opp, d_scal, inv_pow_d, Hx|apply d_scal, inv_pow_d, Hx]|apply d_scal, inv_pow_d, Hx]|apply d_const]|apply d_scal, d_id]|]. cbn [Nat.pred INR pow]. field. lra.
  - eapply d_eq; [apply d_plus; [apply d_plus; [apply d_plus; [apply d_scal, inv_pow_d, Hx|apply d_scal, inv_pow_d, Hx]|apply d_scal, inv_pow_d, Hx]|apply d_const]|]. cbn [Nat.pred INR pow]. field. lra.
Qed.
Definition dq1 (x : R) : der := mkDer x 1 0 0.
Definition dq2 (x : R) : der := mkDer (x ^ 2) (2 * x) 2 0.
Definition dq3 (x : R) : der := mkDer (x ^ 3) (3 * x ^ 2) (6 * x) 6.
Definition dq4 (x : R) : der := mkDer (x ^ 4) (4 * x ^ 3) (12 * x ^ 2) (24 * x).
Lemma sqr_d : forall x : R, is_derive (fun t : R => t ^ 2) x (2 * x).
Proof. intros x. eapply d_eq; [apply (d_pow (fun t => t) 2 x 1 (d_id x))|cbn; ring]. Qed.
Lemma cub_d : forall x : R, is_derive (fun t : R => t ^ 3) x (3 * x ^ 2).
Proof. intros x. eapply d_eq; [apply (d_pow (fun t => t) 3 x 1 (d_id x))|cbn; ring]. Qed.
Lemma qua_d : forall x : R, is_derive (fun t : R => t ^ 4) x (4 * x ^ 3).
Proof. intros x. eapply d_eq; [apply (d_pow (fun t => t) 4 x 1 (d_id x))|cbn; ring]. Qed.
Lemma lin_d : forall c x : R, is_derive (fun t : R => c * t) x c.
Proof. intros c x. eapply d_eq; [apply d_scal, d_id|ring]. Qed.
Lemma j_q1 : jet1 anyx dq1. Proof. apply jet1_id. Qed.
Lemma j_q2 : jet1 anyx dq2.
Proof. intros x _. unfold dq2; hp. split; [apply sqr_d|split; [apply lin_d|apply d_const]]. Qed.
Lemma j_q3 : jet1 anyx dq3.
Proof. intros x _. unfold dq3; hp. split; [apply cub_d|split; [|apply lin_d]]. eapply d_eq; [apply d_scal, sqr_d|ring]. Qed.
Lemma j_q4 : jet1 anyx dq4.
Proof. intros x _. unfold dq4; hp. split; [apply qua_d|split]; [eapply d_eq; [apply d_scal, cub_d|ring]|eapply d_eq; [apply d_scal, sqr_d|ring]]. Qed.

Section Jet.
Variable w : cftab.
Definition post (t _ : R) : Prop := 0 < t.
Lemma post_any : forall t d, post t d -> posx t /\ anyx d. Proof. intros t d H. split; [exact H|exact I]. Qed.
(** the denominator *)
Definition Den (t d : R) : helm :=
  hadd (hadd (hadd (hadd (hsep (dcf (w1 w) t) (cst 1)) (hsep (dcf (w2 w) t) (dq1 d))) (hsep (dcf (w3 w) t) (dq2 d))) (hsep (dcf (w4 w) t) (dq3 d))) (hsep (dcf (w5 w) t) (dq4 d)).
Lemma Den_jet : jet post Den.
Proof.
  unfold Den. repeat (apply jet_add); (apply (jet_sep posx anyx); [apply j_cf| |exact post_any]); first [apply j_cst|apply j_q1|apply j_q2|apply j_q3|apply j_q4].
Qed.
Definition C (t : R) : co := each (ct t) w.
Definition C1 (t : R) : co := each (dct t) w.
Definition C2 (t : R) : co := each (d2ct t) w.
Definition C3 (t : R) : co := each (d3ct t) w.
Lemma Den_eq : forall t d, Den t d = mkHelm (pden (C t) d) (pden (C1 t) d) (pnum (C t) d) (pden (C2 t) d) (pnum (C1 t) d) (pnum2 (C t) d) (pden (C3 t) d) (pnum (C2 t) d) (pnum2 (C1 t) d) (6 * a4 (C t) + 24 * a5 (C t) * d).
Proof.
  intros t d. apply helm_eq; cbv [Den hadd hsep dcf cst dq1 dq2 dq3 dq4 pden pnum pnum2 C C1 C2 C3 each h0 hT hD hTT hTD hDD hTTT hTTD hTDD hDDD d0 d1 d2 d3 a1 a2 a3 a4 a5]; ring.
Qed.
Definition U (t d : R) : Prop := 0 < t /\ pden (C t) d <> 0 /\ a1 (C t) <> 0 /\ a7 (C t) <> 0 /\ a9 (C t) <> 0.
Lemma U_post : forall t d, U t d -> post t d. Proof. intros t d H. exact (proj1 H). Qed.
(** a nonzero differentiable quantity stays so *)
Lemma near_nz : forall (f : R -> R -> R) x y a b, diff2 f x y a b -> f x y <> 0 -> locally_2d (fun u v => f u v <> 0) x y.
Proof.
  intros f x y a b H N. assert (K := e_cont _ _ _ _ _ H). assert (Q : 0 < Rabs (f x y)) by (now apply Rabs_pos_lt). destruct (K (mkposreal _ Q)) as [e He]. exists e. intros u v Hu Hv Z. assert (X := He u v Hu Hv). cbn [pos] in X. rewrite Z, Rminus_0_l, Rabs_Ropp in X. lra.
Qed.
Lemma cf_nz : forall r t d, 0 < t -> ct t r <> 0 -> locally_2d (fun u _ => ct u r <> 0) t d.
Proof. intros r t d Ht N. destruct (j_cf r t Ht) as [D _]. exact (near_nz (fun u _ => ct u r) t d _ _ (e_fst1 _ t d _ D) N). Qed.
Lemma U_open : open2 U.
Proof.
  intros t d (Ht & N1 & N2 & N3 & N4). destruct (Den_jet t d Ht) as [D _]. unfold helm1 in D. cbv beta in D.
  assert (L1 : locally_2d (fun u v => h0 (Den u v) <> 0) t d) by (apply (near_nz (fun u v => h0 (Den u v)) _ _ _ _ D); rewrite Den_eq; exact N1).
  assert (L0 : locally_2d (fun u _ : R => 0 < u) t d). { exists (mkposreal t Ht). cbn [pos]. intros u v Hu _. apply Rabs_def2 in Hu. lra. }
  assert (L2 := cf_nz (w1 w) t d Ht N2). assert (L3 := cf_nz (w7 w) t d Ht N3). assert (L4 := cf_nz (w9 w) t d Ht N4).
  assert (L := locally_2d_and _ _ _ _ L0 (locally_2d_and _ _ _ _ L1 (locally_2d_and _ _ _ _ L2 (locally_2d_and _ _ _ _ L3 L4)))). destruct L as [e He]. exists e. intros u v Hu Hv. destruct (He u v Hu Hv) as (X0 & X1 & X2 & X3 & X4). rewrite Den_eq in X1. repeat split; assumption.
Qed.
(** c6/c7 (exp (- c7 rho) - 1) and the like *)
Definition Exq (p q : row) (t d : R) : helm :=
  hmul (hsep (dopp (dmul (dcf p t) (dcomp dinv (dcf q t)))) (cst 1)) (hadd (hcomp dexp (hsep (dopp (dcf q t)) (dq1 d))) (hsep (cst (-1)) (cst 1))).
Lemma Exq_jet : forall p q, jet (fun t d => 0 < t /\ ct t q <> 0) (Exq p q).
Proof.
  intros p q. unfold Exq. assert (J : jet1 (fun t => 0 < t /\ ct t q <> 0) (dcf q)) by (apply jet1_sub with posx; [intros x [A _]; exact A|apply j_cf]).
  assert (J' : jet1 (fun t => 0 < t /\ ct t q <> 0) (dcf p)) by (apply jet1_sub with posx; [intros x [A _]; exact A|apply j_cf]). apply jet_mul.
  - apply (jet_sep (fun t => 0 < t /\ ct t q <> 0) anyx); [|apply j_cst|intros t d H; split; [exact H|exact I]].
    apply jet1_opp, jet1_mul; [exact J'|]. apply (jet1_comp nzx _ dinv (dcf q)); [exact jet1_inv|exact J|]. intros x [_ N]. exact N.
  - apply jet_add; [|apply (jet_sep anyx anyx); [apply j_cst|apply j_cst|intros; split; exact I]].
    apply (jet_comp anyx dexp); [exact j_exp| |intros; exact I]. apply (jet_sep (fun t => 0 < t /\ ct t q <> 0) anyx); [apply jet1_opp, J|apply j_q1|intros t d H; split; [exact H|exact I]].
Qed.
Definition Full (t d : R) : helm :=
  hadd (hadd (hadd (hsep (dcf (w0 w) t) (dq1 d)) (hadd (hcomp dinv (Den t d)) (hsep (dopp (dcomp dinv (dcf (w1 w) t))) (cst 1)))) (Exq (w6 w) (w7 w) t d)) (Exq (w8 w) (w9 w) t d).
Lemma Full_jet : jet U Full.
Proof.
  unfold Full. apply jet_add; [apply jet_add; [apply jet_add; [|apply jet_add]|]|].
  - apply (jet_sep posx anyx); [apply j_cf|apply j_q1|]. intros t d H. exact (post_any t d (proj1 H)).
  - apply (jet_comp nzx dinv U Den); [exact jet1_inv|apply jet_sub with post; [exact U_post|exact Den_jet]|]. intros t d (_ & N & _). rewrite Den_eq. exact N.
  - apply (jet_sep (fun t => 0 < t /\ ct t (w1 w) <> 0) anyx); [|apply j_cst|]. 
    + apply jet1_opp. apply (jet1_comp nzx _ dinv (dcf (w1 w))); [exact jet1_inv|apply jet1_sub with posx; [intros x [A _]; exact A|apply j_cf]|intros x [_ N]; exact N].
    + intros t d (A & _ & B & _). split; [split; [exact A|exact B]|exact I].
  - apply jet_sub with (fun t _ => 0 < t /\ ct t (w7 w) <> 0); [|apply Exq_jet]. intros t d (A & _ & _ & B & _). split; assumption.
  - apply jet_sub with (fun t _ => 0 < t /\ ct t (w9 w) <> 0); [|apply Exq_jet]. intros t d (A & _ & _ & _ & B). split; assumption.
Qed.
Definition table (t d : R) : ptable := phi_of (C t) (C1 t) (C2 t) d.
Lemma Full_eq : forall t d, U t d -> let h := table t d in let f := Full t d in
  h0 f = p_0 h /\ hT f = p_T h /\ hD f = p_D h /\ hTT f = p_TT h /\ hTD f = p_DT h /\ hDD f = p_DD h /\ hTTD f = p_DTT h /\ hTDD f = p_DDT h /\ hDDD f = p_DDD h.
Proof.
  intros t d (Ht & N1 & N2 & N3 & N4). unfold Full. rewrite Den_eq. cbv [table phi_of Exq hadd hmul hcomp hsep dmul dopp dcomp dinv dexp dcf cst dq1 h0 hT hD hTT hTD hDD hTTT hTTD hTDD hDDD d0 d1 d2 d3 p_0 p_T p_D p_TT p_DT p_DD p_DTT p_DDT p_DDD phi_0 phi_T phi_D phi_TT phi_DT phi_DD phi_DTT phi_DDT phi_DDD].
  generalize dependent (pden (C t) d). intros D N1. generalize (pden (C1 t) d) (pden (C2 t) d) (pnum (C t) d) (pnum (C1 t) d) (pnum (C2 t) d) (pnum2 (C t) d) (pnum2 (C1 t) d) (6 * a4 (C t) + 24 * a5 (C t) * d).
  intros D1 D2 n0 n1 n2 m0 m1 k. unfold C, C1, C2, each in *. cbn [a0 a1 a6 a7 a8 a9] in *.
  replace (- ct t (w7 w) * d) with (- (ct t (w7 w) * d)) by ring. replace (- ct t (w9 w) * d) with (- (ct t (w9 w) * d)) by ring. generalize (exp (- (ct t (w7 w) * d))) (exp (- (ct t (w9 w) * d))). intros E7 E9.
  generalize dependent (ct t (w1 w)). intros c1 N2. generalize dependent (ct t (w7 w)). intros c7 N3. generalize dependent (ct t (w9 w)). intros c9 N4. generalize (ct t (w0 w)) (ct t (w6 w)) (ct t (w8 w)) (dct t (w0 w)) (dct t (w1 w)) (dct t (w6 w)) (dct t (w7 w)) (dct t (w8 w)) (dct t (w9 w)) (d2ct t (w0 w)) (d2ct t (w1 w)) (d2ct t (w6 w)) (d2ct t (w7 w)) (d2ct t (w8 w)) (d2ct t (w9 w)). intros.
  repeat match goal with |- _ /\ _ => split end; field; repeat split; assumption.
Qed.
End Jet.
