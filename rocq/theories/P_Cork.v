(** Properties of the compensated Redlich-Kwong fluids: C68 (water and carbon dioxide), C69 (other fluids).  P in bar, T in K; the circle number is PI. *)
From Coq Require Import Reals Lra String List.
From Coquelicot Require Import Coquelicot.
From Verif Require Import GasModel GasSpec GasCubic GasPhase CorkModel CorkSpec CorkProofs CorkInst CorkWit CorkLiq CorkSat CorkEx CorkCs.
Open Scope R_scope.

(** carbon dioxide: the volume is the largest solution of the equation of state plus the pressure correction; the fugacity belongs to it *)
Theorem C68_co2_volume : forall Tc Pc T P, 0 < T -> 0 < P -> let a := a_co2 T in let b := b_co2 in regular (mrk_cb T (P / 1000)) (mrk_cc a b T (P / 1000)) (mrk_cd a b T (P / 1000)) ->
  exists f u, cork_pure PI "CO2" Tc Pc T P = Some f /\ b < u /\ eos_rk (att a T) b T u = P /\ (forall w, b < w -> eos_rk (att a T) b T w = P -> w <= u) /\
  f_v f = u + vcorr (-0.178198 + 2.45317e-5 * T) (5.40776e-3 - 1.59046e-6 * T) 0 5000 P /\ (P <= 5000 -> f_g f = gres_rk (att a T) b T P u) /\ f_g f = Rgas * T * ln (f_phi f) /\ f_g f = f_h f - T * f_s f.
Proof. exact co2_volume. Qed.
Print Assumptions C68_co2_volume.
Example C68_co2_volume_example : exists f u, cork_pure PI "CO2" 304 73 900 1000 = Some f /\ b_co2 < u /\ eos_rk (att (a_co2 900) 900) b_co2 900 u = 1000.
Proof. destruct (C68_co2_volume 304 73 900 1000 ltac:(lra) ltac:(lra) co2_reg) as (f & u & H1 & H2 & H3 & _). exists f, u. auto. Qed.
(** steam: the same above 695 K at any pressure and below 673 K under the saturation pressure *)
Theorem C68_steam_volume : forall Tc Pc T P, 695 < T -> 0 < P -> let a := a_h2o_hot T in let b := b_h2o in regular (mrk_cb T (P / 1000)) (mrk_cc a b T (P / 1000)) (mrk_cd a b T (P / 1000)) ->
  exists f u, cork_pure PI "H2O" Tc Pc T P = Some f /\ b < u /\ eos_rk (att a T) b T u = P /\ (forall w, b < w -> eos_rk (att a T) b T w = P -> w <= u) /\
  f_v f = u + vcorr (-0.08909) 0.0019853 0.080331 2000 P /\ (P <= 2000 -> f_g f = gres_rk (att a T) b T P u) /\ f_g f = Rgas * T * ln (f_phi f) /\ f_g f = f_h f - T * f_s f.
Proof. exact h2o_sup_volume. Qed.
Print Assumptions C68_steam_volume.
Example C68_steam_volume_example : exists f u, cork_pure PI "H2O" 647 220 900 1000 = Some f /\ b_h2o < u /\ f_v f = u + vcorr (-0.08909) 0.0019853 0.080331 2000 1000.
Proof. destruct (C68_steam_volume 647 220 900 1000 ltac:(lra) ltac:(lra) hot_reg) as (f & u & H1 & H2 & _ & _ & H3 & _). exists f, u. auto. Qed.
Theorem C68_vapour_volume : forall Tc Pc T P, 0 < T -> T < 673 -> 0 < P -> P < 1000 * h2o_psat T -> let a := a_h2o_gas T in let b := b_h2o in regular (mrk_cb T (P / 1000)) (mrk_cc a b T (P / 1000)) (mrk_cd a b T (P / 1000)) ->
  exists f u, cork_pure PI "H2O" Tc Pc T P = Some f /\ b < u /\ eos_rk (att a T) b T u = P /\ (forall w, b < w -> eos_rk (att a T) b T w = P -> w <= u) /\
  f_v f = u /\ f_g f = gres_rk (att a T) b T P u /\ f_g f = Rgas * T * ln (f_phi f) /\ f_g f = f_h f - T * f_s f.
Proof. exact h2o_vapour_volume. Qed.
Print Assumptions C68_vapour_volume.
Example C68_vapour_volume_example : exists f, cork_pure PI "H2O" 647 220 400 1 = Some f /\ eos_rk (att (a_h2o_gas 400) 400) b_h2o 400 (f_v f) = 1.
Proof. destruct (C68_vapour_volume 647 220 400 1 ltac:(lra) ltac:(lra) ltac:(lra) ltac:(unfold h2o_psat; lra) gas_reg) as (f & u & H1 & H2 & H3 & _ & H4 & _). exists f. rewrite H4. auto. Qed.
(** dG/dP = V - R T / P at any pressure, the pressure correction included *)
Theorem C68_work : forall Tc Pc T P, 0 < P ->
  (0 < T -> regular (mrk_cb T (P / 1000)) (mrk_cc (a_co2 T) b_co2 T (P / 1000)) (mrk_cd (a_co2 T) b_co2 T (P / 1000)) ->
   exists F : R -> fug, locally P (fun q => cork_pure PI "CO2" Tc Pc T q = Some (F q)) /\ is_derive (fun q => f_g (F q)) P (f_v (F P) - Rgas * T / P)) /\
  (695 < T -> regular (mrk_cb T (P / 1000)) (mrk_cc (a_h2o_hot T) b_h2o T (P / 1000)) (mrk_cd (a_h2o_hot T) b_h2o T (P / 1000)) ->
   exists F : R -> fug, locally P (fun q => cork_pure PI "H2O" Tc Pc T q = Some (F q)) /\ is_derive (fun q => f_g (F q)) P (f_v (F P) - Rgas * T / P)).
Proof. exact (fun Tc Pc T P HP => conj (fun HT Hr => co2_work Tc Pc T P HT HP Hr) (fun HT Hr => h2o_sup_work Tc Pc T P HT HP Hr)). Qed.
Print Assumptions C68_work.
Example C68_work_example : exists F : R -> fug, locally 9000 (fun q => cork_pure PI "CO2" 304 73 900 q = Some (F q)) /\ is_derive (fun q => f_g (F q)) 9000 (f_v (F 9000) - Rgas * 900 / 9000).
Proof. exact (proj1 (C68_work 304 73 900 9000 ltac:(lra)) ltac:(lra) co2_reg9). Qed.
(** carbon dioxide up to 5 kbar: dG/dP = V - R T / P, dG/dT = -S, dH/dT = Cp *)
Theorem C68_co2_slopes_partial : forall Tc Pc T P, 0 < T -> 0 < P -> P <= 5000 -> regular (mrk_cb T (P / 1000)) (mrk_cc (a_co2 T) b_co2 T (P / 1000)) (mrk_cd (a_co2 T) b_co2 T (P / 1000)) ->
  exists F : R -> R -> fug, locally T (fun t => cork_pure PI "CO2" Tc Pc t P = Some (F t P)) /\ locally P (fun q => cork_pure PI "CO2" Tc Pc T q = Some (F T q)) /\
    is_derive (fun q => f_g (F T q)) P (f_v (F T P) - Rgas * T / P) /\ is_derive (fun t => f_g (F t P)) T (- f_s (F T P)) /\ is_derive (fun t => f_h (F t P)) T (f_c (F T P)).
Proof. exact co2_slopes. Qed.
Print Assumptions C68_co2_slopes_partial.
Example C68_co2_slopes_example : exists F : R -> R -> fug, locally 900 (fun t => cork_pure PI "CO2" 304 73 t 1000 = Some (F t 1000)) /\ is_derive (fun t => f_g (F t 1000)) 900 (- f_s (F 900 1000)).
Proof. destruct (C68_co2_slopes_partial 304 73 900 1000 ltac:(lra) ltac:(lra) ltac:(lra) co2_reg) as (F & H1 & _ & _ & H2 & _). exists F. split; assumption. Qed.
(** steam below 695 K under the saturation pressure, away from 673 K *)
Theorem C68_vapour_slopes_partial : forall Tc Pc T P, 0 < T -> T < 695 -> T <> 673 -> 0 < P -> P < 1000 * h2o_psat T -> let a := e_a (h2o_vap T) in regular (mrk_cb T (P / 1000)) (mrk_cc a b_h2o T (P / 1000)) (mrk_cd a b_h2o T (P / 1000)) ->
  exists F : R -> R -> fug, locally T (fun t => cork_pure PI "H2O" Tc Pc t P = Some (F t P)) /\ locally P (fun q => cork_pure PI "H2O" Tc Pc T q = Some (F T q)) /\
    is_derive (fun q => f_g (F T q)) P (f_v (F T P) - Rgas * T / P) /\ is_derive (fun t => f_g (F t P)) T (- f_s (F T P)) /\ is_derive (fun t => f_h (F t P)) T (f_c (F T P)).
Proof. exact h2o_vapour_slopes. Qed.
Print Assumptions C68_vapour_slopes_partial.
Example C68_vapour_slopes_example : exists F : R -> R -> fug, locally 400 (fun t => cork_pure PI "H2O" 647 220 t 1 = Some (F t 1)) /\ is_derive (fun t => f_h (F t 1)) 400 (f_c (F 400 1)).
Proof. exact vapour_slopes_ex. Qed.
(** liquid water: dG/dP = V - R T / P above the saturation pressure, and the Gibbs energy does not jump there *)
Theorem C68_liquid_work : forall Tc Pc T P f, 0 < T -> T <= 695 -> 0 < P -> 1000 * h2o_psat T < P -> let a := e_a (h2o_con T) in a <> 0 -> regular (mrk_cb T (P / 1000)) (mrk_cc a b_h2o T (P / 1000)) (mrk_cd a b_h2o T (P / 1000)) -> cork_pure PI "H2O" Tc Pc T P = Some f ->
  exists F : R -> fug, locally P (fun q => cork_pure PI "H2O" Tc Pc T q = Some (F q)) /\ is_derive (fun q => f_g (F q)) P (f_v (F P) - Rgas * T / P).
Proof. exact h2o_liquid_work. Qed.
Print Assumptions C68_liquid_work.
Example C68_liquid_work_example : exists F : R -> fug, locally 1000 (fun q => cork_pure PI "H2O" 647 220 625 q = Some (F q)) /\ is_derive (fun q => f_g (F q)) 1000 (f_v (F 1000) - Rgas * 625 / 1000).
Proof. exact liquid_work_ex. Qed.
Theorem C68_saturation : forall Tc Pc T f, 0 < T -> T <= 695 -> let P := 1000 * h2o_psat T in let a := e_a (h2o_vap T) in let a' := e_a (h2o_con T) in 0 < P -> a' <> 0 ->
  regular (mrk_cb T (P / 1000)) (mrk_cc a b_h2o T (P / 1000)) (mrk_cd a b_h2o T (P / 1000)) -> regular (mrk_cb T (P / 1000)) (mrk_cc a' b_h2o T (P / 1000)) (mrk_cd a' b_h2o T (P / 1000)) ->
  cork_pure PI "H2O" Tc Pc T P = Some f -> exists F : R -> fug, locally P (fun q => cork_pure PI "H2O" Tc Pc T q = Some (F q)) /\ continuous (fun q => f_g (F q)) P.
Proof. exact h2o_saturation. Qed.
Print Assumptions C68_saturation.
Example C68_saturation_example : exists F : R -> fug, locally (1000 * h2o_psat 625) (fun q => cork_pure PI "H2O" 647 220 625 q = Some (F q)) /\ continuous (fun q => f_g (F q)) (1000 * h2o_psat 625).
Proof. exact saturation_ex. Qed.
(** between 695 and 1300 K and up to 2 kbar the entropy of steam is nowhere -dG/dT: the code differentiates the attraction with the wrong sign *)
Theorem C68_hot_entropy_refuted : forall Tc Pc T P, 695 < T -> T < 1300 -> 0 < P -> P <= 2000 -> regular (mrk_cb T (P / 1000)) (mrk_cc (a_h2o_hot T) b_h2o T (P / 1000)) (mrk_cd (a_h2o_hot T) b_h2o T (P / 1000)) ->
  exists F : R -> fug, locally T (fun t => cork_pure PI "H2O" Tc Pc t P = Some (F t)) /\
  exists l, is_derive (fun t => f_g (F t)) T l /\ l <> - f_s (F T) /\ f_g (F T) = f_h (F T) - T * f_s (F T).
Proof. exact h2o_hot_entropy. Qed.
Print Assumptions C68_hot_entropy_refuted.
Example C68_hot_entropy_example : exists F : R -> fug, locally 900 (fun t => cork_pure PI "H2O" 647 220 t 1000 = Some (F t)) /\ exists l, is_derive (fun t => f_g (F t)) 900 l /\ l <> - f_s (F 900).
Proof. destruct (C68_hot_entropy_refuted 647 220 900 1000 ltac:(lra) ltac:(lra) ltac:(lra) ltac:(lra) hot_reg) as (F & H1 & l & H2 & H3 & _). exists F. split; [exact H1|]. exists l. split; assumption. Qed.
(** above 5 kbar the entropy of carbon dioxide leaves the pressure correction out *)
Theorem C68_co2_entropy_refuted : forall Tc Pc, exists F : R -> fug, locally 900 (fun t => cork_pure PI "CO2" Tc Pc t 9000 = Some (F t)) /\
  exists l, is_derive (fun t => f_g (F t)) 900 l /\ l <> - f_s (F 900) /\ f_g (F 900) = f_h (F 900) - 900 * f_s (F 900).
Proof. exact co2_high_entropy. Qed.
Print Assumptions C68_co2_entropy_refuted.
(** the volume of steam at 300 bar jumps at 695 K *)
Theorem C68_jump_refuted : forall Tc Pc, ~ exists F : R -> fug, locally 695 (fun t => cork_pure PI "H2O" Tc Pc t 300 = Some (F t)) /\ continuous (fun t => f_v (F t)) 695.
Proof. exact h2o_jump. Qed.
Print Assumptions C68_jump_refuted.
(** dense liquid water has no result though the equation has a solution above the co-volume: a negative root is taken *)
Theorem C68_dense_refuted : forall Tc Pc T P, 0 < T -> T < 673 -> 1000 * h2o_psat T <= P -> 0 < P -> let a := a_h2o_liq T in let b := b_h2o in regular (mrk_cb T (P / 1000)) (mrk_cc a b T (P / 1000)) (mrk_cd a b T (P / 1000)) -> 0 < a ->
  12 * att a T * b < 2 * Rgas * T * b ^ 2 + 3 * P * b ^ 3 -> cork_pure PI "H2O" Tc Pc T P = None /\ exists u, b < u /\ eos_rk (att a T) b T u = P.
Proof. exact h2o_dense_both. Qed.
Print Assumptions C68_dense_refuted.
Example C68_dense_example : cork_pure PI "H2O" 647 220 625 90000 = None.
Proof. exact (h2o_dense_ex 647 220). Qed.
(** with a double root the three numbers returned need not be roots *)
Theorem C68_double_root_refuted : cork_cardano PI (-6) 9 (-4) = Some (0, 3, 3) /\ (forall x, poly (-6) 9 (-4) x = (x - 4) * (x - 1) ^ 2).
Proof. exact cardano_double. Qed.
Print Assumptions C68_double_root_refuted.

(** other fluids: the volume is the published one, dG/dP = V - R T / P, dG/dT = -S and dH/dT = Cp everywhere *)
Theorem C69_other_fluids : forall formula Tc Pc T P, formula <> "CO2"%string -> formula <> "H2O"%string -> 0 < Tc -> 0 < Pc -> 0 < T -> 0 < P ->
  exists F : R -> R -> fug, (forall t q, cork_pure PI formula Tc Pc t q = Some (F t q)) /\
    f_v (F T P) = cs_volume Tc (Pc / 1000) T (P / 1000) /\ f_g (F T P) = Rgas * T * ln (f_phi (F T P)) /\ f_g (F T P) = f_h (F T P) - T * f_s (F T P) /\
    is_derive (fun q => f_g (F T q)) P (f_v (F T P) - Rgas * T / P) /\ is_derive (fun t => f_g (F t P)) T (- f_s (F T P)) /\ is_derive (fun t => f_h (F t P)) T (f_c (F T P)).
Proof. exact cs_slopes. Qed.
Print Assumptions C69_other_fluids.
(** their volume can be negative *)
Theorem C69_volume_refuted : forall formula, formula <> "CO2"%string -> formula <> "H2O"%string -> exists f, cork_calc PI formula 273 36 22.5 900 49000 = Some f /\ f_v f < 0.
Proof. exact cs_negative_volume. Qed.
Print Assumptions C69_volume_refuted.
Example C69_example : exists f, cork_pure PI "CH4" 36 22.5 900 49000 = Some f /\ f_v f < 0 /\ f_g f = f_h f - 900 * f_s f.
Proof. destruct (C69_other_fluids "CH4" 36 22.5 900 49000) as (F & H1 & H2 & _ & H3 & _); try discriminate; try lra. exists (F 900 49000). rewrite H2. split; [apply H1|]. split; [exact cs_negative|exact H3]. Qed.
