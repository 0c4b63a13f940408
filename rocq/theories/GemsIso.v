(** Water of Haar, Gallagher and Kell: slopes in temperature and density, and at constant pressure.  *)
From Coq Require Import List Bool ZArith Reals Lra Lia.
From Coquelicot Require Import Coquelicot.
From Verif Require Import RDeriv RDiff2 RImplicit WaterModel WaterSpec HelmModel HelmJet HelmProofs HelmMore SoluteProofs HelmHgk GemsModel GemsSpec GemsJet GemsBase GemsTotal.
Import ListNotations.
Open Scope R_scope.

Lemma sd_eq : forall t d, sd (state_at t d) = ud (state_at t d) - ad (state_at t d).
Proof. intros t d. unfold state_at, thm, base, ideal, resid. cbv zeta. cbn [sd ud ad sb ub ab sr ur ar si ui ai hi gi]. ring. Qed.
Lemma z_eq : forall t d, 0 < t -> 0 < d -> zb (base (bb t) d t) + q0 (resid t d) / (gascon * t) / d = press t d / (gascon * t * d).
Proof. intros t d Ht Hd. unfold press. generalize (zb (base (bb t) d t)), (q0 (resid t d)). intros a b. assert (G : gascon <> 0) by (unfold gascon; lra). field. repeat split; lra. Qed.
Lemma hd_eq : forall t d, 0 < t -> 0 < d -> hd (state_at t d) = ud (state_at t d) + press t d / (gascon * t * d).
Proof. intros t d Ht Hd. rewrite <- (z_eq t d Ht Hd). unfold state_at, thm. cbv zeta. reflexivity. Qed.
Lemma gd_eq : forall t d, 0 < t -> 0 < d -> gd (state_at t d) = ad (state_at t d) + press t d / (gascon * t * d).
Proof. intros t d Ht Hd. rewrite <- (z_eq t d Ht Hd). unfold state_at, thm. cbv zeta. reflexivity. Qed.
Lemma cp_eq : forall t d, cpd (state_at t d) = cvd (state_at t d) + t * dpdt (state_at t d) * dpdt (state_at t d) / (d * d * dpdd (state_at t d) * gascon).
Proof. reflexivity. Qed.
Lemma dv_eq : forall t d, dvdt (state_at t d) = dpdt (state_at t d) / dpdd (state_at t d) / d / d.
Proof. reflexivity. Qed.
Lemma sur_eq : forall t d, surplus t d = gascon * t * (kappa / (1 - 25 / 100 * b1 (bb t) * d) / (1 - 25 / 100 * b1 (bb t) * d)).
Proof. intros t d. unfold surplus. fold kappa. unfold Rdiv. cbn [pow]. rewrite Rmult_1_r, Rinv_mult. ring. Qed.
Definition tot t d := total t d 0.
Lemma loc_reg : forall T D (P : R -> R -> Prop), regular T D -> (forall t d, regular t d -> P t d) -> locally_2d P T D.
Proof. intros T D P HR H. generalize (regular_open T D HR). apply locally_2d_impl, locally_2d_forall. exact H. Qed.
Section At.
Variables T D : R.
Hypothesis HR : regular T D.
Let H := Htot.
Lemma J1 : diff2 (fun t d => h0 (Htot t d)) T D (hT (Htot T D)) (hD (Htot T D)). Proof. exact (proj1 (Htot_jet T D HR)). Qed.
Lemma J2T : diff2 (fun t d => hT (Htot t d)) T D (hTT (Htot T D)) (hTD (Htot T D)). Proof. exact (proj1 (proj1 (proj2 (Htot_jet T D HR)))). Qed.
Lemma J2D : diff2 (fun t d => hD (Htot t d)) T D (hTD (Htot T D)) (hDD (Htot T D)). Proof. exact (proj2 (proj1 (proj2 (Htot_jet T D HR)))). Qed.
Lemma J3TD : diff2 (fun t d => hTD (Htot t d)) T D (hTTD (Htot T D)) (hTDD (Htot T D)). Proof. exact (proj1 (proj2 (proj2 (proj2 (Htot_jet T D HR))))). Qed.
Lemma J3DD : diff2 (fun t d => hDD (Htot t d)) T D (hTDD (Htot T D)) (hDDD (Htot T D)). Proof. exact (proj2 (proj2 (proj2 (proj2 (Htot_jet T D HR))))). Qed.
Lemma press_d : diff2 press T D (dpdt (state_at T D)) (dpdd (state_at T D)).
Proof.
  destruct (tot T D HR) as (_ & _ & _ & _ & E4 & E5 & _). assert (A := J2D).
  apply (e_ext_loc (fun t d => d * d * hD (Htot t d))); [apply (loc_reg T D _ HR); intros t d Hr; apply (tot t d Hr)|].
  rewrite <- E4, <- E5. eapply e_eq; [er|ring|ring].
Qed.
Lemma energy_d : diff2 (fun t d => gascon * t * ud (state_at t d)) T D (gascon * cvd (state_at T D)) ((press T D - T * dpdt (state_at T D)) / D ^ 2).
Proof.
  assert (HR' := HR). destruct HR' as [Ht [Hd _]]. destruct (tot T D HR) as (_ & _ & E2 & E3 & E4 & _). assert (A := J2T). assert (B := J1).
  apply (e_ext_loc (fun t d => h0 (Htot t d) - t * hT (Htot t d))); [apply (loc_reg T D _ HR); intros t d Hr; apply (tot t d Hr)|].
  rewrite <- E2, <- E3, <- E4. eapply e_eq; [er|ring|field; lra].
Qed.
Lemma helmholtz_d : diff2 (fun t d => gascon * t * ad (state_at t d) - surplus t d) T D (- (gascon * sd (state_at T D) + surplus T D / T)) (press T D / D ^ 2).
Proof.
  assert (HR' := HR). destruct HR' as [Ht [Hd _]]. destruct (tot T D HR) as (E0 & E1 & E2 & _). assert (B := J1).
  apply (e_ext_loc (fun t d => h0 (Htot t d))).
  { apply (loc_reg T D _ HR); intros t d Hr. rewrite sur_eq. destruct (tot t d Hr) as (F0 & _). rewrite F0. ring. }
  rewrite <- E2, sd_eq. eapply e_eq; [exact B| |field; lra]. rewrite sur_eq. revert E0 E1. generalize (kappa / (1 - 25 / 100 * b1 (bb T) * D) / (1 - 25 / 100 * b1 (bb T) * D)), (ad (state_at T D)), (ud (state_at T D)), (hT (Htot T D)), (h0 (Htot T D)).
  intros k a u x y E0 E1. replace (- (gascon * (u - a) + gascon * T * k / T)) with ((gascon * T * (a - k) - gascon * T * u) / T) by (field; lra). rewrite <- E0, <- E1. field. lra.
Qed.
Lemma dpdd_cont : continuity_2d_pt (fun t d => dpdd (state_at t d)) T D.
Proof.
  assert (A := J2D). assert (B := J3DD). eapply e_cont.
  apply (e_ext_loc (fun t d => 2 * d * hD (Htot t d) + d * d * hDD (Htot t d))); [apply (loc_reg T D _ HR); intros t d Hr; apply (tot t d Hr)|]. er.
Qed.
Lemma density_ex : dpdd (state_at T D) <> 0 -> exists rho : R -> R -> R, rho T (press T D) = D /\ solves rho T (press T D).
Proof.
  intro N. destruct (implicit_exists press (fun t d => dpdt (state_at t d)) (fun t d => dpdd (state_at t d)) T D) as (r & E1 & E2 & E3).
  - apply (loc_reg T D _ HR). intros t d Hr. assert (X := press_d). clear X. destruct (tot t d Hr) as (_ & _ & _ & _ & F4 & F5 & _). assert (A : diff2 (fun t d => hD (Htot t d)) t d (hTD (Htot t d)) (hDD (Htot t d))) by exact (proj2 (proj1 (proj2 (Htot_jet t d Hr)))).
    apply (e_ext_loc (fun t d => d * d * hD (Htot t d))); [apply (loc_reg t d _ Hr); intros t' d' Hr'; apply (tot t' d' Hr')|]. rewrite <- F4, <- F5. eapply e_eq; [er|ring|ring].
  - exact dpdd_cont.
  - exact N.
  - exists r. repeat split; assumption.
Qed.
End At.
Section Iso.
Variables (w : triple) (rho : R -> R -> R) (T P : R).
Hypothesis HR : regular T (rho T P).
Hypothesis HS : solves rho T P.
Hypothesis HN : dpdd (state_at T (rho T P)) <> 0.
Let D := rho T P.
Lemma Dp : 0 < D. Proof. exact (proj1 (proj2 HR)). Qed.
Lemma Tp : 0 < T. Proof. exact (proj1 HR). Qed.
Lemma Peq : press T D = P. Proof. exact (locally_2d_singleton _ _ _ (proj2 HS)). Qed.
Lemma rho_d : diff2 rho T P (- dpdt (state_at T D) / dpdd (state_at T D)) (1 / dpdd (state_at T D)).
Proof. exact (implicit press rho T P _ _ (press_d T D HR) HN (proj1 HS) (proj2 HS)). Qed.
Lemma near : locally_2d (fun t p => regular t (rho t p)) T P.
Proof.
  destruct (regular_open T D HR) as [e He]. destruct (proj1 HS e) as [e2 H2]. exists (mkposreal (Rmin e e2) (Rmin_pos _ _ (cond_pos e) (cond_pos e2))). cbn. intros u v Hu Hv.
  assert (L1 := Rmin_l e e2). assert (L2 := Rmin_r e e2). apply He; [lra|]. apply H2; lra.
Qed.
Lemma near' : forall (Q : R -> R -> Prop), (forall t p, regular t (rho t p) -> press t (rho t p) = p -> Q t p) -> locally_2d Q T P.
Proof. intros Q HQ. generalize (loc_and _ _ _ _ near (proj2 HS)). apply locally_2d_impl, locally_2d_forall. intros u v [A B]. now apply HQ. Qed.
Lemma al_eq : forall t d, 0 < d -> d * dvdt (state_at t d) = dpdt (state_at t d) / dpdd (state_at t d) / d.
Proof. intros t d Hd. rewrite dv_eq. generalize (dpdt (state_at t d) / dpdd (state_at t d)). intro q. field. lra. Qed.
Lemma along_d : forall (f : R -> R -> R) a b, diff2 f T D a b -> diff2 (fun t p => f t (rho t p)) T P (a + b * (- dpdt (state_at T D) / dpdd (state_at T D))) (b * (1 / dpdd (state_at T D))).
Proof. intros f a b h. eapply e_eq; [apply (e_comp2 f (fun t _ => t) rho T P a b 1 0 _ _ h (e_fst _ _) rho_d)|ring|ring]. Qed.

Lemma solv_d : let o := solvent w rho in
  diff2 (fun t p => o_rho (o t p)) T P (o_rhoT (o T P)) (1000000 * o_rhoP (o T P)) /\ o_rhoT (o T P) = - o_alpha (o T P) * o_rho (o T P) /\ o_rhoP (o T P) = o_beta (o T P) * o_rho (o T P).
Proof.
  assert (RH := rho_d). assert (dp := Dp). unfold solvent, solv_out, wat, dim. cbv zeta. cbn [o_rho o_rhoT o_rhoP o_alpha o_beta w_alpha w_beta]. fold D in HN |- *. split; [|split; reflexivity].
  rewrite (al_eq T D dp). eapply e_eq; [er|..]; cbv beta; [field; split; [exact HN|lra]|unfold un_fp; field; split; [exact HN|lra]].
Qed.
Lemma enth_d : is_derive (fun t => o_H (thermo w rho t P)) T (o_Cp (thermo w rho T P)) /\ 
  is_derive (fun p => o_H (thermo w rho T p)) P (molar * (1 / D - T * (o_alpha (solvent w rho T P) / D))).
Proof.
  assert (dp := Dp). assert (tp := Tp). assert (A := along_d _ _ _ (energy_d T D HR)). assert (RH := rho_d). assert (G : gascon <> 0) by (unfold gascon; lra).
  assert (X : diff2 (fun t p => o_H (thermo w rho t p)) T P (o_Cp (thermo w rho T P)) (molar * (1 / D - T * (o_alpha (solvent w rho T P) / D)))).
  { apply (e_ext_loc (fun t p => molar * (gascon * t * ud (state_at t (rho t p)) + p / rho t p) + tr_H (tpset w) * cal_to_J)).
    { apply near'. intros t p [Ht [Hd _]] E. unfold thermo, therm_out, wat, dim. cbv zeta. cbn [o_H w_H]. rewrite (hd_eq _ _ Ht Hd), E. unfold molar. field. repeat split; lra. }
    unfold thermo, solvent, solv_out, therm_out, wat, dim. cbv zeta. cbn [o_H o_Cp w_Cp o_alpha w_alpha]. fold D. rewrite (al_eq T D dp), cp_eq. assert (PE := Peq).
    assert (HN' : dpdd (state_at T D) <> 0) by exact HN. assert (RD : rho T P = D) by reflexivity.
    eapply e_eq; [er; rewrite RD; lra|..]; cbv beta; rewrite ?RD, PE; unfold molar; field; repeat split; try lra; exact HN'. }
  split; [exact (e_1 _ _ _ _ _ X)|exact (e_2 _ _ _ _ _ X)].
Qed.
Lemma gibbs_d : diff2 (fun t p => o_G (thermo w rho t p) - molar * surplus t (rho t p)) T P (- (o_S (thermo w rho T P) + molar * (surplus T D / T))) (molar / D).
Proof.
  assert (dp := Dp). assert (tp := Tp). assert (A := along_d _ _ _ (helmholtz_d T D HR)). assert (RH := rho_d). assert (G : gascon <> 0) by (unfold gascon; lra). assert (PE := Peq). assert (HN' : dpdd (state_at T D) <> 0) by exact HN.
  apply (e_ext_loc (fun t p => molar * ((gascon * t * ad (state_at t (rho t p)) - surplus t (rho t p)) + p / rho t p) + (tr_G (tpset w) - (t - Ttr) * tr_S (tpset w)) * cal_to_J)).
  { apply near'. intros t p [Ht [Hd _]] E. unfold thermo, therm_out, wat, dim. cbv zeta. cbn [o_G w_G]. rewrite (hd_eq _ _ Ht Hd), E, sd_eq. unfold molar. field. repeat split; lra. }
  unfold thermo, therm_out, wat, dim. cbv zeta. cbn [o_S w_S]. fold D. assert (RD : rho T P = D) by reflexivity.
  eapply e_eq; [er; rewrite RD; lra|..]; cbv beta; rewrite ?RD, PE; unfold molar; field; repeat split; try lra; exact HN'.
Qed.
(** the slope of alpha at constant pressure *)
Definition slope (D : R) (H : helm) (bg : R) : R := let A1 := hD H in let A2 := hDD H + bg in let al := hTD H / (2 * hD H + D * hDD H) in
    ((hTTD H - al * D * hTDD H) * (2 * A1 + D * A2) - hTD H * (2 * (hTD H - al * D * hDD H) + D * (hTDD H - al * D * hDDD H) - D * al * A2)) / (2 * A1 + D * A2) / (2 * A1 + D * A2).
Lemma al_tab : forall t d, regular t d -> dpdd (state_at t d) <> 0 -> d * dvdt (state_at t d) = hTD (Htot t d) / (2 * hD (Htot t d) + d * hDD (Htot t d)) /\ 2 * hD (Htot t d) + d * hDD (Htot t d) <> 0.
Proof.
  intros t d Hr N. assert (Hd := proj1 (proj2 Hr)). rewrite (al_eq _ _ Hd). destruct (tot _ _ Hr) as (_ & _ & _ & _ & F4 & F5 & _). rewrite <- F4, <- F5 in *. replace (2 * d * hD (Htot t d) + d * d * hDD (Htot t d)) with (d * (2 * hD (Htot t d) + d * hDD (Htot t d))) in * by ring.
  assert (Z : 2 * hD (Htot t d) + d * hDD (Htot t d) <> 0) by (intro Z; apply N; rewrite Z; ring). split; [field; split; [exact Z|lra]|exact Z].
Qed.
Lemma dal_val : o_dal (solvent w rho T P) = slope D (Htot T D) (bugs T D).
Proof.
  destruct (total T D (D * dvdt (state_at T D)) HR) as (_ & _ & _ & _ & _ & _ & E6). unfold solvent, solv_out, wat, dim. cbv zeta. cbn [o_dal w_dal]. fold D. rewrite E6. destruct (al_tab T D HR HN) as [A _]. rewrite A. reflexivity.
Qed.
Lemma alpha_d : is_derive (fun t => o_alpha (solvent w rho t P)) T (slope D (Htot T D) 0).
Proof.
  assert (dp := Dp). assert (HN' : dpdd (state_at T D) <> 0) by exact HN. destruct (tot T D HR) as (_ & _ & _ & _ & E4 & E5 & _).
  assert (A1 := along_d _ _ _ (J2D T D HR)). assert (A2 := along_d _ _ _ (J3TD T D HR)). assert (A3 := along_d _ _ _ (J3DD T D HR)). assert (RH := rho_d).
  assert (RD : rho T P = D) by reflexivity. destruct (al_tab T D HR HN) as [_ N2].
  assert (X : diff2 (fun t p => o_alpha (solvent w rho t p)) T P (slope D (Htot T D) 0) ((hTDD (Htot T D) * (2 * hD (Htot T D) + D * hDD (Htot T D)) - hTD (Htot T D) * (3 * hDD (Htot T D) + D * hDDD (Htot T D))) / (2 * hD (Htot T D) + D * hDD (Htot T D)) ^ 2 / dpdd (state_at T D))).
  { apply (e_ext_loc (fun t p => hTD (Htot t (rho t p)) / (2 * hD (Htot t (rho t p)) + rho t p * hDD (Htot t (rho t p))))).
    { apply near'. intros t p Hr E. unfold solvent, solv_out, wat, dim. cbv zeta. cbn [o_alpha w_alpha]. assert (Hd := proj1 (proj2 Hr)). rewrite (al_eq _ _ Hd). destruct (tot _ _ Hr) as (_ & _ & _ & _ & F4 & F5 & _). rewrite <- F4, <- F5.
      destruct (Req_dec (2 * hD (Htot t (rho t p)) + rho t p * hDD (Htot t (rho t p))) 0) as [Z|Z].
      - replace (2 * rho t p * hD (Htot t (rho t p)) + rho t p * rho t p * hDD (Htot t (rho t p))) with (rho t p * (2 * hD (Htot t (rho t p)) + rho t p * hDD (Htot t (rho t p)))) by ring. rewrite Z, Rmult_0_r. unfold Rdiv. rewrite !Rinv_0. ring.
      - replace (2 * rho t p * hD (Htot t (rho t p)) + rho t p * rho t p * hDD (Htot t (rho t p))) with (rho t p * (2 * hD (Htot t (rho t p)) + rho t p * hDD (Htot t (rho t p)))) by ring. field. split; [exact Z|lra]. }
    unfold slope. cbv zeta. rewrite <- E4, <- E5 in *. clear E4 E5.
    eapply e_eq; [er; rewrite RD; exact N2|..]; cbv beta; rewrite ?RD; revert N2 HN'; generalize (hD (Htot T D)) (hDD (Htot T D)) (hTD (Htot T D)) (hTTD (Htot T D)) (hTDD (Htot T D)) (hDDD (Htot T D)); intros; field; repeat split; try lra. }
  exact (e_1 _ _ _ _ _ X).
Qed.
Lemma dal_d : bugs T D = 0 -> is_derive (fun t => o_alpha (solvent w rho t P)) T (o_dal (solvent w rho T P)) /\ is_derive (fun t => o_rhoT (solvent w rho t P)) T (o_rhoTT (solvent w rho T P)).
Proof.
  intro B0. assert (Y := alpha_d). rewrite <- B0, <- dal_val in Y. split; [exact Y|]. destruct solv_d as (Z & E1 & _). cbv zeta in Z, E1. assert (Z1 := e_1 _ _ _ _ _ Z). cbv beta in Z1. rewrite E1 in Z1.
  apply (is_derive_ext (fun t : R => - o_alpha (solvent w rho t P) * o_rho (solvent w rho t P))); [reflexivity|].
  replace (o_rhoTT (solvent w rho T P)) with (- o_dal (solvent w rho T P) * o_rho (solvent w rho T P) + - o_alpha (solvent w rho T P) * (- o_alpha (solvent w rho T P) * o_rho (solvent w rho T P))) by (unfold solvent, solv_out; cbv zeta; cbn [o_rhoTT o_dal o_rho o_alpha]; ring).
  apply (d_mult (fun t : R => - o_alpha (solvent w rho t P))); [apply d_opp; exact Y|exact Z1].
Qed.
End Iso.
