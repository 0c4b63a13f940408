(** Property theorems: the derivatives that results for water carry (C87). *)
From Coq Require Import List Reals Lra String.
From Coquelicot Require Import Coquelicot.
From Verif Require Import RDeriv ThermoScalarModel WaterModel WaterAdModel WaterSpec WaterWit CarryModel CarrySpec ReacModel CarryReac CarryReacSpec CarryWater CarryWaterSpec CarryWaterPf CarryWaterUse.
Open Scope R_scope.

(** For every Helmholtz energy and every density along which the table entries carry their derivatives, all that waterThermoState returns does. *)
Theorem C87_state : forall H rho T P D h, carries D rho T P -> carriesHt h H rho T P -> rho T P <> 0 -> w_pD (along H rho T P) <> 0 -> carriesWst (waterThermoStateTS T P D h) (along H rho) T P.
Proof. exact state_carries. Qed.
Print Assumptions C87_state.
(** The density that the Newton iteration returns from a solution carries its derivatives, whatever was carried before, provided the table passes on the derivative of the density it was given. *)
Theorem C87_density : forall H rho T P, w_pD (along H rho T P) <> 0 -> helm2 H T (rho T P) -> density_of H rho T P ->
  forall D0 hDv hDDv, 0 < rho T P -> val D0 = rho T P -> val hDv = hD (H T (rho T P)) -> val hDDv = hDD (H T (rho T P)) ->
  ddt hDv = hTD (H T (rho T P)) + hDD (H T (rho T P)) * ddt D0 -> ddp hDv = hDD (H T (rho T P)) * ddp D0 -> carries (ad_step (Pressure P) D0 hDv hDDv) rho T P.
Proof. exact newton_carries. Qed.
Print Assumptions C87_density.
(** The molar properties carry theirs. *)
Theorem C87_molar : forall H rho T P D h, carries D rho T P -> carriesHt h H rho T P -> rho T P <> 0 -> w_pD (along H rho T P) <> 0 ->
  forall Ttr r, carriesMol (molarTS Ttr T (waterThermoStateTS T P D h) r) (fun t p => molar Ttr t (along H rho t p) r) T P.
Proof. exact molar_carries. Qed.
Print Assumptions C87_molar.
(** What is carried by the density and by its first derivatives are the derivatives reported beside them. *)
Theorem C87_density_derivatives : forall H rho T P, rho T P <> 0 -> w_pD (along H rho T P) <> 0 -> helm2 H T (rho T P) -> density_of H rho T P -> forall D h, carries D rho T P -> carriesHt h H rho T P ->
  let z := waterThermoStateTS T P D h in
  (ddt (z_d z) = val (z_dT z) /\ ddp (z_d z) = val (z_dP z)) /\
  (helm3' H T (rho T P) -> ddp (z_dT z) = val (z_dTP z) /\ ddt (z_dP z) = val (z_dTP z) /\ ddp (z_dP z) = val (z_dPP z)) /\
  (helm3' H T (rho T P) -> w_dT (along H rho T P) <> 0 -> ddt (z_dT z) = val (z_dTT z) /\ ddt (w_alp (solventTS z)) = val (w_dal (solventTS z))).
Proof. exact (fun H rho T P a b c d D h e f => conj (first_carried H rho T P a b c d D h e f) (conj (second_carried H rho T P a b c d D h e f) (second_T_carried H rho T P a b c d D h e f))). Qed.
Print Assumptions C87_density_derivatives.
(** The numbers of one result: dG = -S dT + V dP, dH/dT = cp, T dS/dT = cp, and Maxwell's dS/dP = -dV/dT. *)
Theorem C87_energies : forall H rho T P, rho T P <> 0 -> w_pD (along H rho T P) <> 0 -> helm2 H T (rho T P) -> density_of H rho T P -> forall D h, carries D rho T P -> carriesHt h H rho T P ->
  let z := waterThermoStateTS T P D h in T <> 0 -> helm1 H T (rho T P) ->
  ddt (z_G z) = - val (z_S z) /\ ddp (z_G z) = val (z_V z) /\ ddt (z_H z) = val (z_cp z) /\ T * ddt (z_S z) = val (z_cp z) /\ ddp (z_S z) = - ddt (z_V z).
Proof. exact energies_carried. Qed.
Print Assumptions C87_energies.
Theorem C87_molar_relations : forall H rho T P, rho T P <> 0 -> w_pD (along H rho T P) <> 0 -> helm2 H T (rho T P) -> density_of H rho T P -> forall D h, carries D rho T P -> carriesHt h H rho T P ->
  T <> 0 -> helm1 H T (rho T P) -> forall Ttr r, let y := molarTS Ttr T (waterThermoStateTS T P D h) r in
  ddt (y_G y) = - val (y_S y) /\ ddp (y_G y) = val (y_V y) / 100000 /\ ddt (y_H y) = val (y_Cp y) /\ T * ddt (y_S y) = val (y_Cp y).
Proof. exact molar_carried. Qed.
Print Assumptions C87_molar_relations.
(** A reaction described by the density of that water carries its derivatives. *)
Theorem C87_reaction : forall H rho T P, rho T P <> 0 -> w_pD (along H rho T P) <> 0 -> forall D h, carries D rho T P -> carriesHt h H rho T P ->
  0 < T -> 0 < rho T P -> w_dT (along H rho T P) <> 0 -> forall co o, frantz co (water_of (along H rho T P)) T (P / 100000) = Some o ->
  exists r, frantzTS (solventTS (waterThermoStateTS T P D h)) T P co = Some r /\ carriesR r (fun t p => frantz co (water_of (along H rho t p)) t (p / 100000)) T P.
Proof. exact frantz_water. Qed.
Print Assumptions C87_reaction.
(** a gas-like Helmholtz energy (1 + (T-4)^2) ln rho *)
Example C87_example : exists D h, carries D mrho 300 mP /\ carriesHt h mH mrho 300 mP /\ mrho 300 mP <> 0 /\ w_pD (along mH mrho 300 mP) <> 0 /\ helm1 mH 300 (mrho 300 mP) /\ helm2 mH 300 (mrho 300 mP) /\
  helm3' mH 300 (mrho 300 mP) /\ density_of mH mrho 300 mP /\ w_dT (along mH mrho 300 mP) <> 0 /\ ddt D <> 0.
Proof.
  assert (X : forall f : R -> R -> R, ex_derive (fun t : R => f t mP) 300 -> ex_derive (fun p : R => f 300 p) mP -> carries (mkTS (f 300 mP) (Derive (fun t : R => f t mP) 300) (Derive (fun p : R => f 300 p) mP) 0 (calculated, EmptyString)) f 300 mP).
  { intros f A B. split; [reflexivity|]. split; cbn; now apply Derive_correct. }
  assert (P0 : 0 < mP) by (unfold mP; lra). assert (R0 := mrho_pos 300 mP P0).
  assert (N : w_pD (along mH mrho 300 mP) <> 0) by (rewrite (m_pD 300 mP P0); pose proof (mq_pos 300); lra).
  assert (NT : w_dT (along mH mrho 300 mP) <> 0) by (rewrite (m_dT 300 mP P0); unfold mrho, mP, mq; lra).
  assert (Q : forall t : R, mq t <> 0) by (intro t; pose proof (mq_pos t); lra).
  assert (E1 : ex_derive (fun t : R => mrho t mP) 300) by (eexists; exact (RDiff2.e_1 _ _ _ _ _ (mrho_d 300 mP))). assert (E2 : ex_derive (fun p : R => mrho 300 p) mP) by (eexists; exact (RDiff2.e_2 _ _ _ _ _ (mrho_d 300 mP))).
  eexists. exists (let f (g : helm -> R) := mkTS (g (mH 300 (mrho 300 mP))) (Derive (fun t : R => g (mH t (mrho t mP))) 300) (Derive (fun p : R => g (mH 300 (mrho 300 p))) mP) 0 (calculated, EmptyString) in
    mkHts (f h0) (f hT) (f hD) (f hTT) (f hTD) (f hDD) (f hTTT) (f hTTD) (f hTDD) (f hDDD)).
  split; [exact (X mrho E1 E2)|]. split.
  { assert (Y : forall g : helm -> R, ex_derive (fun t : R => g (mH t (mrho t mP))) 300 -> ex_derive (fun p : R => g (mH 300 (mrho 300 p))) mP ->
      carries (mkTS (g (mH 300 (mrho 300 mP))) (Derive (fun t : R => g (mH t (mrho t mP))) 300) (Derive (fun p : R => g (mH 300 (mrho 300 p))) mP) 0 (calculated, EmptyString)) (fun t p => g (mH t (mrho t p))) 300 mP)
      by (intros g A B; exact (X (fun t p => g (mH t (mrho t p))) A B)).
    unfold carriesHt. cbv zeta. cbn [g0 gT gD gTT gTD gDD gTTD gTDD gDDD].
    assert (Z1 : mP / mq 300 <> 0) by (apply Rgt_not_eq; exact R0). assert (Q3 := Q 300). unfold mq in Q3. assert (P1 : mP <> 0) by lra. assert (R1 : 0 < mP / mq 300) by exact R0. unfold mq in R1, Z1.
    repeat match goal with |- _ /\ _ => split end; apply Y; cbn [mH h0 hT hD hTT hTD hDD hTTD hTDD hDDD]; unfold mrho, mq; auto_derive; repeat split; auto; repeat apply Rmult_integral_contrapositive_currified; auto. }
  split; [lra|]. split; [exact N|]. split; [exact (mH_1 _ _ R0)|]. split; [exact (mH_2 _ _ R0)|]. split; [exact (proj1 (helm3_weak _ _ _ (mH_3 _ _ R0)))|]. split; [exact (mrho_ok _ _ P0)|]. split; [exact NT|].
  cbn [ddt]. rewrite (is_derive_unique _ _ _ (RDiff2.e_1 _ _ _ _ _ (mrho_d 300 mP))). unfold mP, mq. lra.
Qed.
