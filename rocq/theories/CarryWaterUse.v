(** What the carried derivatives of water are: the derivative properties reported beside them. *)
From Coq Require Import List Reals Lra.
From Coquelicot Require Import Coquelicot.
From Verif Require Import RDeriv RDiff2 ThermoScalarModel ThermoScalarProofs WaterModel WaterAdModel WaterSpec WaterProofs WaterMore WaterSolve CarryModel CarrySpec CarryPf ReacModel CarryReac CarryReacSpec CarryReacPf CarryDens CarryWater CarryWaterSpec CarryWaterPf.
Open Scope R_scope.
Lemma c_both : forall x f T P a b, carries x f T P -> diff2 f T P a b -> ddt x = a /\ ddp x = b.
Proof.
  intros x f T P a b [_ [A B]] D. split; [exact (d_unique _ _ _ _ A (e_1 _ _ _ _ _ D))|exact (d_unique _ _ _ _ B (e_2 _ _ _ _ _ D))].
Qed.
Lemma c_of_diff : forall x f T P a b, val x = f T P -> ddt x = a -> ddp x = b -> diff2 f T P a b -> carries x f T P.
Proof. intros x f T P a b V A B D. split; [exact V|]. rewrite A, B. split; [exact (e_1 _ _ _ _ _ D)|exact (e_2 _ _ _ _ _ D)]. Qed.
Section U.
Variables (H : R -> R -> helm) (rho : R -> R -> R) (T P : R).
Hypothesis Dn : rho T P <> 0.
Hypothesis Pn : w_pD (along H rho T P) <> 0.
Hypothesis H2 : helm2 H T (rho T P).
Hypothesis HR : density_of H rho T P.
(** the density that the Newton loop gives at a solution *)
Theorem newton_carries : forall D0 hDv hDDv, 0 < rho T P -> val D0 = rho T P -> val hDv = hD (H T (rho T P)) -> val hDDv = hDD (H T (rho T P)) ->
  ddt hDv = hTD (H T (rho T P)) + hDD (H T (rho T P)) * ddt D0 -> ddp hDv = hDD (H T (rho T P)) * ddp D0 -> carries (ad_step (Pressure P) D0 hDv hDDv) rho T P.
Proof.
  intros D0 hDv hDDv D0p E1 E2 E3 A1 A2. assert (HP : rho T P * rho T P * hD (H T (rho T P)) = P) by exact (locally_2d_singleton _ _ _ (proj2 HR)).
  destruct (ad_root (Pressure P) D0 hDv hDDv (hTD (H T (rho T P))) eq_refl eq_refl) as [V [X Y]].
  - now rewrite E3.
  - now rewrite E3.
  - rewrite E1, E2, E3. exact Pn.
  - now rewrite E1.
  - rewrite E1, E2. exact HP.
  - apply (c_of_diff _ _ _ _ _ _ (eq_trans V E1) X Y). rewrite E1, E2, E3. exact (rho_d H rho T P H2 Pn HR).
Qed.
Variables (D : TS) (h : hts).
Hypothesis HD : carries D rho T P.
Hypothesis Hh : carriesHt h H rho T P.
Let z := waterThermoStateTS T P D h.
Let s := along H rho.
Theorem first_carried : ddt (z_d z) = val (z_dT z) /\ ddp (z_d z) = val (z_dP z).
Proof.
  destruct (state_carries H rho T P D h HD Hh Dn Pn) as [A [B [C _]]]. fold z s in A, B, C. rewrite (proj1 B), (proj1 C).
  exact (c_both _ _ _ _ _ _ A (rho_d H rho T P H2 Pn HR)).
Qed.
Theorem second_carried : helm3' H T (rho T P) -> ddp (z_dT z) = val (z_dTP z) /\ ddt (z_dP z) = val (z_dTP z) /\ ddp (z_dP z) = val (z_dPP z).
Proof.
  intro H3. destruct (state_carries H rho T P D h HD Hh Dn Pn) as [_ [B [C [E [G _]]]]]. fold z s in B, C, E, G. rewrite (proj1 E), (proj1 G).
  destruct (second_d' H rho T P H2 H3 Pn HR) as [X Y]. split; [exact (proj2 (c_both _ _ _ _ _ _ B Y))|exact (c_both _ _ _ _ _ _ C X)].
Qed.
Theorem second_T_carried : helm3' H T (rho T P) -> w_dT (s T P) <> 0 -> ddt (z_dT z) = val (z_dTT z) /\ ddt (w_alp (solventTS z)) = val (w_dal (solventTS z)).
Proof.
  intros H3 N. destruct (state_carries H rho T P D h HD Hh Dn Pn) as [_ [B _]]. pose proof (dTT_carries H rho T P D h HD Hh Dn Pn N) as C. destruct (solvent_carries H rho T P D h HD Hh Dn Pn N) as [_ [A1 [_ A2]]]. fold z s in B, C, A1, A2.
  destruct (second_d H rho T P H2 H3 Pn N HR) as [x [E [X _]]]. destruct (alpha_d H rho T P Dn H2 H3 Pn N HR) as [a [E2 Y]]. split.
  - rewrite (proj1 C). unfold s. rewrite E. exact (proj1 (c_both _ _ _ _ _ _ B X)).
  - rewrite (proj1 A2). unfold water_of. cbn [dal]. unfold s. rewrite E2. exact (d_unique _ _ _ _ (proj1 (proj2 A1)) Y).
Qed.
Theorem energies_carried : T <> 0 -> helm1 H T (rho T P) -> ddt (z_G z) = - val (z_S z) /\ ddp (z_G z) = val (z_V z) /\ ddt (z_H z) = val (z_cp z) /\ T * ddt (z_S z) = val (z_cp z) /\ ddp (z_S z) = - ddt (z_V z).
Proof.
  intros HT H1. destruct (state_carries H rho T P D h HD Hh Dn Pn) as [_ [_ [_ [_ [_ [_ [_ [_ [_ [_ [B1 [B2 [B3 [B4 [B5 [B6 [B7 B8]]]]]]]]]]]]]]]]]. fold z s in B1, B2, B3, B4, B5, B6, B7, B8.
  destruct (energy_d H rho T P Dn HT H1 H2 Pn HR) as [X1 [X2 [X3 X4]]]. rewrite (proj1 B2), (proj1 B1), (proj1 B8).
  destruct (c_both _ _ _ _ _ _ B6 X1) as [Y1 Y2]. destruct (c_both _ _ _ _ _ _ B1 X2) as [Y3 Y4]. destruct (c_both _ _ _ _ _ _ B2 X3) as [Y5 Y6]. destruct (c_both _ _ _ _ _ _ B5 X4) as [Y7 Y8].
  split; [exact Y1|]. split; [exact Y2|]. split; [exact Y7|]. split; [rewrite Y5; unfold s; field; exact HT|]. now rewrite Y6, Y3.
Qed.
Theorem molar_carried : T <> 0 -> helm1 H T (rho T P) -> forall Ttr r, let y := molarTS Ttr T z r in
  ddt (y_G y) = - val (y_S y) /\ ddp (y_G y) = val (y_V y) / 100000 /\ ddt (y_H y) = val (y_Cp y) /\ T * ddt (y_S y) = val (y_Cp y).
Proof.
  intros HT H1 Ttr r y. destruct (molar_carries H rho T P D h HD Hh Dn Pn Ttr r) as [B1 [B2 [_ [B4 [_ [B6 [B7 _]]]]]]]. fold z s in B1, B2, B4, B6, B7. fold y in B1, B2, B4, B6, B7.
  destruct (molar_d H rho T P Ttr r Dn HT H1 H2 Pn HR) as [X1 [X2 X3]]. rewrite (proj1 B1), (proj1 B6), (proj1 B7).
  destruct (c_both _ _ _ _ _ _ B4 X1) as [Y1 Y2]. split; [exact Y1|]. split; [exact Y2|]. split; [exact (d_unique _ _ _ _ (proj1 (proj2 B2)) X2)|]. rewrite (d_unique _ _ _ _ (proj1 (proj2 B1)) X3). unfold s. field. exact HT.
Qed.
(** the reaction with that water *)
Theorem frantz_water : 0 < T -> 0 < rho T P -> w_dT (s T P) <> 0 -> forall co o, frantz co (water_of (s T P)) T (P / 100000) = Some o ->
  exists r, frantzTS (solventTS z) T P co = Some r /\ carriesR r (fun t p => frantz co (water_of (s t p)) t (p / 100000)) T P.
Proof. intros HT Hr N. apply (frantz_carries (solventTS z) (fun t p => water_of (s t p)) T P (solvent_carries H rho T P D h HD Hh Dn Pn N) HT). exact Hr. Qed.
End U.
