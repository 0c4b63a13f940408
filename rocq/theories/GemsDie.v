(** The dielectric constant of Johnson and Norton along an isobar, and the Born functions.  *)
From Coq Require Import List Bool ZArith Reals Lra Lia.
From Coquelicot Require Import Coquelicot.
From Verif Require Import RDeriv RDiff2 RImplicit WaterModel WaterSpec HelmModel HelmJet HelmProofs HelmMore SoluteProofs HelmHgk GemsModel GemsSpec GemsJet GemsBase GemsTotal GemsIso.
Import ListNotations.
Open Scope R_scope.

Lemma Tref0 : Tref <> 0. Proof. unfold Tref. lra. Qed.
Ltac nzq := lazymatch goal with |- _ * _ <> 0 => apply Rmult_integral_contrapositive_currified; nzq | |- _ / _ <> 0 => unfold Rdiv; nzq | |- / _ <> 0 => apply Rinv_neq_0_compat; nzq | |- _ ^ _ <> 0 => apply pow_nonzero; nzq | |- 1 <> 0 => exact R1_neq_R0 | |- _ <> 0 => assumption end.
Lemma jn_d1 : forall (T : R) (j : nat), T <> 0 -> is_derive (fun t : R => jn_c t j) T (jn_dc T j).
Proof.
  intros T j HT. assert (R0 := Tref0). unfold jn_c, jn_dc. destruct j as [|[|[|[|j]]]]; generalize dependent Tref; intros r R0; (eapply d_eq; [dr; nzq|]); cbv beta; cbn [pow INR Nat.pred]; field; auto.
Qed.
Lemma jn_d2 : forall (T : R) (j : nat), T <> 0 -> is_derive (fun t : R => jn_dc t j) T (jn_dc2 T j).
Proof.
  intros T j HT. assert (R0 := Tref0). unfold jn_dc, jn_dc2. destruct j as [|[|[|[|j]]]]; generalize dependent Tref; intros r R0; (eapply d_eq; [dr; nzq|]); cbv beta; cbn [pow INR Nat.pred]; field; auto.
Qed.
(** below the limits of Born92, where the dielectric constant does not vanish *)
Section Die.
Variables (w : triple) (rho : R -> R -> R) (T P : R).
Hypothesis HR : regular T (rho T P).
Hypothesis HS : solves rho T P.
Hypothesis HN : dpdd (state_at T (rho T P)) <> 0.
Hypothesis LT : T < 27315 / 100 + 1000 + 1 / 1000.
Hypothesis LP : P < 500 + 1 / 10000.
Hypothesis HE : o_eps (dielectric w rho T P) <> 0.
Let D := rho T P.
Definition dd0 (t p : R) : die := let d := rho t p in let f := state_at t d in let al := d * dvdt f in jn91 t d (1 / (d * dpdd f * un_fp)) al (dal t d al).
Lemma in_range : locally_2d (fun t p => t < 27315 / 100 + 1000 + 1 / 1000 /\ p < 500 + 1 / 10000) T P.
Proof. apply loc_and; [apply (cont_lt (fun t _ => t)); [exact (e_cont _ _ _ _ _ (e_fst T P))|exact LT]|apply (cont_lt (fun _ p => p)); [exact (e_cont _ _ _ _ _ (e_snd T P))|exact LP]]. Qed.
Lemma wat_die : forall t p, t < 27315 / 100 + 1000 + 1 / 1000 -> p < 500 + 1 / 10000 -> dielectric w rho t p = elec_out (mkWp 0 0 0 0 0 0 0 0 0 0 0 (epsBrn (dd0 t p)) 0).
Proof.
  intros t p Ht Hp. unfold dielectric, wat, dim. cbv zeta. unfold elec_out. cbn [w_born]. unfold born92. destruct (Rlt_dec (1000 + 1 / 1000) (t - 27315 / 100)) as [Z|_]; [lra|]. destruct (Rlt_dec (5000 + 1 / 1000) (p * 10)) as [Z|_]; [lra|].
  replace (rho t p * 1000 / 1000) with (rho t p) by field. replace (1 / (rho t p * dpdd (state_at t (rho t p)) * un_fp) * un_fp / 10) with (1 / (rho t p * dpdd (state_at t (rho t p)) * un_fp)) by (generalize (1 / (rho t p * dpdd (state_at t (rho t p)) * un_fp)); intro q; unfold un_fp; field).
  reflexivity.
Qed.
Lemma here_die : dielectric w rho T P = elec_out (mkWp 0 0 0 0 0 0 0 0 0 0 0 (epsBrn (dd0 T P)) 0). Proof. apply wat_die; assumption. Qed.
Lemma eps_nz : eps (dd0 T P) <> 0. Proof. rewrite here_die in HE. exact HE. Qed.
Lemma near_die : forall (f : elec -> R) (g : R -> R -> R), (forall t p, g t p = f (elec_out (mkWp 0 0 0 0 0 0 0 0 0 0 0 (epsBrn (dd0 t p)) 0))) -> locally_2d (fun t p => g t p = f (dielectric w rho t p)) T P.
Proof. intros f g E. generalize in_range. apply locally_2d_impl, locally_2d_forall. intros t p [A B]. rewrite (wat_die t p A B). apply E. Qed.
Lemma T0 : T <> 0. Proof. assert (H := Tp rho T P HR). lra. Qed.
Lemma J : forall j, diff2 (fun t _ => jn_c t j) T P (jn_dc T j) 0. Proof. intro j. apply (e_fst1 (fun t => jn_c t j)). apply jn_d1, T0. Qed.
Lemma J' : forall j, diff2 (fun t _ => jn_dc t j) T P (jn_dc2 T j) 0. Proof. intro j. apply (e_fst1 (fun t => jn_dc t j)). apply jn_d2, T0. Qed.
Lemma al_is : D * dvdt (state_at T D) = dpdt (state_at T D) / dpdd (state_at T D) / D. Proof. apply al_eq. exact (Dp rho T P HR). Qed.
Lemma eps_d0 : diff2 (fun t p => eps (dd0 t p)) T P (dedT (dd0 T P)) (10 * dedP (dd0 T P)).
Proof.
  assert (dp := Dp rho T P HR). fold D in dp. assert (RH := rho_d rho T P HR HS HN). fold D in RH. assert (j0 := J 0%nat). assert (j1 := J 1%nat). assert (j2 := J 2%nat). assert (j3 := J 3%nat). assert (j4 := J 4%nat). assert (HN' : dpdd (state_at T D) <> 0) by exact HN. assert (RD : rho T P = D) by reflexivity.
  unfold dd0. cbv zeta. unfold jn91, jn_j, gsum. cbn [eps dedT dedP fold_left]. rewrite RD. rewrite al_is. unfold un_fp.
  eapply e_eq; [er|..]; cbv beta; rewrite ?RD; cbn [INR Nat.pred pow]; generalize (jn_c T 0) (jn_c T 1) (jn_c T 2) (jn_c T 3) (jn_c T 4) (jn_dc T 0) (jn_dc T 1) (jn_dc T 2) (jn_dc T 3) (jn_dc T 4); intros; field; split; try lra; exact HN'.
Qed.
Lemma epsT_d0 : bugs T D = 0 -> is_derive (fun t : R => dedT (dd0 t P)) T (d2edT2 (dd0 T P)).
Proof.
  intro B0. assert (dp := Dp rho T P HR). fold D in dp. assert (RH := e_1 _ _ _ _ _ (rho_d rho T P HR HS HN)). fold D in RH. cbv beta in RH.
  assert (AL := proj1 (dal_d w rho T P HR HS HN B0)). unfold solvent, solv_out, wat, dim in AL. cbv zeta in AL. cbn [o_alpha o_dal w_alpha w_dal] in AL. fold D in AL.
  assert (j0 := e_1 _ _ _ _ _ (J 0%nat)). assert (j1 := e_1 _ _ _ _ _ (J 1%nat)). assert (j2 := e_1 _ _ _ _ _ (J 2%nat)). assert (j3 := e_1 _ _ _ _ _ (J 3%nat)). assert (j4 := e_1 _ _ _ _ _ (J 4%nat)).
  assert (i0 := e_1 _ _ _ _ _ (J' 0%nat)). assert (i1 := e_1 _ _ _ _ _ (J' 1%nat)). assert (i2 := e_1 _ _ _ _ _ (J' 2%nat)). assert (i3 := e_1 _ _ _ _ _ (J' 3%nat)). assert (i4 := e_1 _ _ _ _ _ (J' 4%nat)). cbv beta in *.
  assert (HN' : dpdd (state_at T D) <> 0) by exact HN. assert (RD : rho T P = D) by reflexivity.
  unfold dd0. cbv zeta. unfold jn91, jn_j, gsum. cbn [dedT d2edT2 fold_left]. rewrite RD.
  eapply d_eq; [dr; eassumption|]. cbv beta. rewrite ?RD. cbn [INR Nat.pred pow].
  assert (RT : - dpdt (state_at T D) / dpdd (state_at T D) = - (D * dvdt (state_at T D)) * D) by (rewrite al_is; field; split; [exact HN'|lra]). rewrite RT.
  generalize (dal T D (D * dvdt (state_at T D))). generalize (D * dvdt (state_at T D)). generalize (jn_c T 0) (jn_c T 1) (jn_c T 2) (jn_c T 3) (jn_c T 4) (jn_dc T 0) (jn_dc T 1) (jn_dc T 2) (jn_dc T 3) (jn_dc T 4) (jn_dc2 T 0) (jn_dc2 T 1) (jn_dc2 T 2) (jn_dc2 T 3) (jn_dc2 T 4). intros. ring.
Qed.
Lemma die_d : let o := dielectric w rho in
  diff2 (fun t p => o_eps (o t p)) T P (o_epsT (o T P)) (10 * o_epsP (o T P)) /\ diff2 (fun t p => o_Z (o t p)) T P (o_Y (o T P)) (1000000 * o_Q (o T P)) /\ o_Z (o T P) = - 1 / o_eps (o T P).
Proof.
  cbv zeta. assert (E := eps_d0). assert (N := eps_nz). rewrite here_die. unfold elec_out, epsBrn. cbv zeta. cbn [w_born w_eps w_Z w_Q w_Y w_X o_eps o_epsT o_epsP o_Z o_Y o_Q].
  split; [|split; [|reflexivity]].
  - apply (e_ext_loc (fun t p => eps (dd0 t p))); [apply near_die; reflexivity|]. eapply e_eq; [exact E|field; exact N|field; exact N].
  - apply (e_ext_loc (fun t p => - 1 / eps (dd0 t p))); [apply near_die; reflexivity|]. eapply e_eq; [er; exact N|cbv beta; field; exact N|cbv beta; field; exact N].
Qed.
Lemma die_2 : bugs T D = 0 -> let o := dielectric w rho in is_derive (fun t => o_epsT (o t P)) T (o_epsTT (o T P)) /\ is_derive (fun t => o_Y (o t P)) T (o_X (o T P)).
Proof.
  intro B0. cbv zeta. assert (E := e_1 _ _ _ _ _ eps_d0). cbv beta in E. assert (E2 := epsT_d0 B0). assert (N := eps_nz).
  assert (LC : locally_2d (fun t p => eps (dd0 t p) <> 0) T P) by (apply (cont_neq (fun t p => eps (dd0 t p))); [exact (e_cont _ _ _ _ _ eps_d0)|exact N]).
  assert (L1 : forall (Q : R -> R -> Prop), locally_2d Q T P -> locally T (fun t => Q t P)).
  { intros Q [e He]. exists e. intros y Hy. apply He; [exact Hy|]. unfold Rminus. rewrite Rplus_opp_r, Rabs_R0. apply cond_pos. }
  rewrite here_die. unfold elec_out, epsBrn. cbv zeta. cbn [w_born w_eps w_Z w_Q w_Y w_X o_epsTT o_X].
  split.
  - apply (is_derive_ext_loc (fun t : R => dedT (dd0 t P))).
    + assert (L := L1 _ (loc_and _ _ _ _ LC (near_die o_epsT (fun t p => 1 / eps (dd0 t p) ^ 2 * dedT (dd0 t p) * eps (dd0 t p) ^ 2) (fun _ _ => eq_refl)))). cbv beta in L. destruct L as [e He]. exists e. intros y Hy. destruct (He y Hy) as [A B]. assert (C : dedT (dd0 y P) = 1 / eps (dd0 y P) ^ 2 * dedT (dd0 y P) * eps (dd0 y P) ^ 2) by (field; exact A). exact (eq_trans C B).
    + eapply d_eq; [exact E2|field; exact N].
  - apply (is_derive_ext_loc (fun t : R => 1 / eps (dd0 t P) ^ 2 * dedT (dd0 t P))).
    + exact (L1 _ (near_die o_Y (fun t p => 1 / eps (dd0 t p) ^ 2 * dedT (dd0 t p)) (fun _ _ => eq_refl))).
    + eapply d_eq; [dr; try (apply pow_nonzero; exact N)|]. cbv beta. cbn [INR Nat.pred pow]. field. exact N.
Qed.
End Die.
