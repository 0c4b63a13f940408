(** Proofs: water carries its derivatives. *)
From Coq Require Import Reals Lra.
From Coquelicot Require Import Coquelicot.
From Verif Require Import RDeriv RDiff2 ThermoScalarModel ThermoScalarProofs WaterModel WaterSpec WaterProofs WaterMore CarryModel CarrySpec CarryPf ReacModel CarryReac CarryReacSpec CarryReacPf CarryWater CarryWaterSpec.
Open Scope R_scope.
Lemma c_T' : forall T P, carries (Temperature T) (fun t _ => t) T P. Proof. exact c_T. Qed.
Lemma c_P' : forall T P, carries (Pressure P) (fun _ p => p) T P.
Proof. intros T P. split; [reflexivity|]. split; cbn; [apply (is_derive_const P)|apply (is_derive_id P)]. Qed.
Section W.
Variables (H : R -> R -> helm) (rho : R -> R -> R) (T P : R) (D : TS) (h : hts).
Hypothesis HD : carries D rho T P.
Hypothesis Hh : carriesHt h H rho T P.
Hypothesis Dn : rho T P <> 0.
Hypothesis Pn : w_pD (along H rho T P) <> 0.
Let z := waterThermoStateTS T P D h.
Let s := along H rho.
Ltac open := destruct Hh as [C0 [C1 [C2 [C3 [C4 [C5 [C6 [C7 C8]]]]]]]]; pose proof (c_T' T P) as CT; pose proof (c_P' T P) as CP.
Ltac side := first [exact Dn | exact Pn | apply Rmult_integral_contrapositive_currified; exact Dn].
Theorem state_carries : carriesWst z s T P.
Proof.
  open. unfold carriesWst. cbv zeta. unfold s, along, z, waterThermoStateTS. cbv zeta.
  cbn [z_d z_dT z_dP z_dTP z_dPP z_pD z_pT z_pDD z_pTD z_pTT z_V z_S z_A z_U z_H z_G z_cv z_cp waterThermoState w_d w_dT w_dP w_dTP w_dPP w_pD w_pT w_pDD w_pTD w_pTT w_V w_S w_A w_U w_H w_G w_cv w_cp].
  do 17 (split; [cs; side|]). cs; side.
Qed.
Lemma dTT_carries : w_dT (s T P) <> 0 -> carries (z_dTT z) (fun t p => some (w_dTT (s t p))) T P.
Proof.
  intro N. destruct state_carries as [_ [CdT _]]. destruct (c_nz _ _ _ _ CdT N) as [L1 L2].
  assert (X : forall t p, w_dT (s t p) <> 0 -> some (w_dTT (s t p)) = - w_dT (s t p) * w_dP (s t p) * (w_dT (s t p) * w_pDD (s t p) + 2 * w_pTD (s t p) + w_pTT (s t p) / w_dT (s t p))).
  { intros t p Nz. unfold s, along, waterThermoState in *. cbv zeta in *. cbn [w_dTT w_dT w_dP w_pDD w_pTD w_pTT] in *. unfold isz. destruct (Req_EM_T _ 0); [contradiction|reflexivity]. }
  apply (c_ext_loc _ (fun t p => - w_dT (s t p) * w_dP (s t p) * (w_dT (s t p) * w_pDD (s t p) + 2 * w_pTD (s t p) + w_pTT (s t p) / w_dT (s t p)))).
  - revert L1. apply filter_imp. intros t Ht. symmetry. now apply X.
  - revert L2. apply filter_imp. intros p Hp. symmetry. now apply X.
  - destruct state_carries as [_ [A1 [A2 [_ [_ [_ [_ [A3 [A4 [A5 _]]]]]]]]]].
    change (carries (ts_mul (ts_mul (ts_neg (z_dT z)) (z_dP z)) (ts_add (ts_add (ts_mul (z_dT z) (z_pDD z)) (d_mul_ts 2 (z_pTD z))) (ts_div (z_pTT z) (z_dT z))))
      (fun t p => - w_dT (s t p) * w_dP (s t p) * (w_dT (s t p) * w_pDD (s t p) + 2 * w_pTD (s t p) + w_pTT (s t p) / w_dT (s t p))) T P).
    cs. exact N.
Qed.
Theorem molar_carries : forall Ttr r, carriesMol (molarTS Ttr T z r) (fun t p => molar Ttr t (s t p) r) T P.
Proof.
  intros Ttr r. destruct state_carries as [_ [_ [_ [_ [_ [_ [_ [_ [_ [_ [B1 [B2 [B3 [B4 [B5 [B6 [B7 B8]]]]]]]]]]]]]]]]].
  pose proof (c_T' T P) as CT. unfold carriesMol. cbv zeta. unfold molarTS, molar. cbv zeta. cbn [y_S y_H y_U y_G y_A y_V y_Cp y_Cv q_S q_H q_U q_G q_A q_V q_Cp q_Cv].
  do 7 (split; [cs|]). cs.
Qed.
Theorem solvent_carries : w_dT (s T P) <> 0 -> carriesW (solventTS z) (fun t p => water_of (s t p)) T P.
Proof.
  intro N. destruct state_carries as [A0 [A1 [A2 _]]]. pose proof (dTT_carries N) as A3. unfold carriesW, solventTS, water_of. cbv zeta. cbn [w_rho w_alp w_bet w_dal ReacModel.rho alp bet dal].
  assert (Dn' : w_d (s T P) <> 0) by exact Dn.
  assert (AA : carries (ts_div (ts_neg (z_dT z)) (z_d z)) (fun t p => sAlpha (s t p)) T P) by (unfold sAlpha; cs; exact Dn').
  split; [exact A0|]. split; [exact AA|]. split; [unfold sBeta; cs; exact Dn'|].
  destruct (c_nz _ _ _ _ A1 N) as [L1 L2].
  assert (X : forall t p, w_dT (s t p) <> 0 -> some (sdAldT (s t p)) = - some (w_dTT (s t p)) / w_d (s t p) + sAlpha (s t p) * sAlpha (s t p)).
  { intros t p Nz. unfold sdAldT. assert (K : exists x, w_dTT (s t p) = Some x). { unfold s, along, waterThermoState in *. cbv zeta in *. cbn [w_dTT w_dT] in *. unfold isz. destruct (Req_EM_T _ 0); [contradiction|eauto]. } destruct K as [x K]. rewrite K. reflexivity. }
  apply (c_ext_loc _ (fun t p => - some (w_dTT (s t p)) / w_d (s t p) + sAlpha (s t p) * sAlpha (s t p))).
  - revert L1. apply filter_imp. intros t Ht. symmetry. now apply X.
  - revert L2. apply filter_imp. intros p Hp. symmetry. now apply X.
  - cs; exact Dn'.
Qed.
End W.
