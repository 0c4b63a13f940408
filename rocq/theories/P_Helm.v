(** Property theorems C44: the Helmholtz functions of water and their tables of derivatives. *)
From Coq Require Import List Bool ZArith Reals Lra.
From Coquelicot Require Import Coquelicot.
From Verif Require Import WaterModel WaterSpec RDiff2 HelmModel HelmHgk HelmHgk2 HelmWit.
Import ListNotations.
Open Scope R_scope.

(** C44: Wagner and Pruss: all first, second and third derivatives except the third by temperature *)
Theorem C44_wagner_pruss_partial : forall T D, 0 < T -> 0 < D -> wagnerPruss_opt T D <> None ->
  diff2 (fun t d => h0 (wagnerPruss t d)) T D (hT (wagnerPruss T D)) (hD (wagnerPruss T D)) /\
  (diff2 (fun t d => hT (wagnerPruss t d)) T D (hTT (wagnerPruss T D)) (hTD (wagnerPruss T D)) /\ diff2 (fun t d => hD (wagnerPruss t d)) T D (hTD (wagnerPruss T D)) (hDD (wagnerPruss T D))) /\
  is_derive (fun d : R => hTT (wagnerPruss T d)) D (hTTD (wagnerPruss T D)) /\ diff2 (fun t d => hTD (wagnerPruss t d)) T D (hTTD (wagnerPruss T D)) (hTDD (wagnerPruss T D)) /\
  diff2 (fun t d => hDD (wagnerPruss t d)) T D (hTDD (wagnerPruss T D)) (hDDD (wagnerPruss T D)).
Proof. exact wp_ok. Qed.
Print Assumptions C44_wagner_pruss_partial.
(** missing from the above: the third temperature derivative, which is not one *)
Theorem C44_wagner_pruss_TTT_refuted : exists T D, 0 < T /\ 0 < D /\ wagnerPruss_opt T D <> None /\ ~ is_derive (fun t : R => hTT (wagnerPruss t D)) T (hTTT (wagnerPruss T D)).
Proof. exact wp_ttt_bad. Qed.
Print Assumptions C44_wagner_pruss_TTT_refuted.
(** Haar, Gallagher and Kell: first and second derivatives, and the third ones except TTT and TDD *)
Theorem C44_hgk_partial : forall T D, 273 <= T -> 0 < D <= 2000 -> hgk_opt T D <> None ->
  diff2 (fun t d => h0 (hgk t d)) T D (hT (hgk T D)) (hD (hgk T D)) /\
  (diff2 (fun t d => hT (hgk t d)) T D (hTT (hgk T D)) (hTD (hgk T D)) /\ diff2 (fun t d => hD (hgk t d)) T D (hTD (hgk T D)) (hDD (hgk T D))) /\
  is_derive (fun d : R => hTT (hgk T d)) D (hTTD (hgk T D)) /\ is_derive (fun t : R => hTD (hgk t D)) T (hTTD (hgk T D)) /\ is_derive (fun d : R => hDD (hgk T d)) D (hDDD (hgk T D)).
Proof. exact hgk_ok. Qed.
Print Assumptions C44_hgk_partial.
(** missing: the derivative by temperature and twice by density, which the mixed pressure derivative of the state repeats *)
Theorem C44_hgk_TDD_refuted : exists T D, 273 <= T /\ 0 < D <= 2000 /\ hgk_opt T D <> None /\ ~ is_derive (fun t : R => hDD (hgk t D)) T (hTDD (hgk T D)) /\
  forall P, ~ is_derive (fun t : R => w_pD (waterThermoState t P D (hgk t D))) T (w_pTD (waterThermoState T P D (hgk T D))).
Proof. exact hgk_TDD_refuted. Qed.
Print Assumptions C44_hgk_TDD_refuted.
Theorem C44_hgk_TTT_refuted : exists T D, 273 <= T /\ 0 < D <= 2000 /\ hgk_opt T D <> None /\ ~ is_derive (fun t : R => hTT (hgk t D)) T (hTTT (hgk T D)).
Proof. exact hgk_TTT_refuted. Qed.
Print Assumptions C44_hgk_TTT_refuted.
(** densities without values: 322 kg/m3, and 1550 kg/m3 *)
Theorem C44_no_value_refuted : (forall T, wagnerPruss_opt T 322 = None) /\ (forall T, hgk_opt T (hg_D * (48778492 / 10000000)) = None).
Proof. exact no_value. Qed.
Print Assumptions C44_no_value_refuted.
(** the states of water computed from the tables along a continuous density solving P = rho^2 dA/drho *)
Theorem C44_wagner_pruss_state : forall rho T P, 0 < T -> 0 < rho T P -> wagnerPruss_opt T (rho T P) <> None -> w_pD (along wagnerPruss rho T P) <> 0 -> density_of wagnerPruss rho T P ->
  state_ok wagnerPruss rho T P /\ (w_dT (along wagnerPruss rho T P) <> 0 -> exists dTT, w_dTT (along wagnerPruss rho T P) = Some dTT /\
    diff2 (fun t p => w_dT (along wagnerPruss rho t p)) T P dTT (w_dTP (along wagnerPruss rho T P)) /\ diff2 (fun t p => w_dP (along wagnerPruss rho t p)) T P (w_dTP (along wagnerPruss rho T P)) (w_dPP (along wagnerPruss rho T P))).
Proof. exact wp_state. Qed.
Print Assumptions C44_wagner_pruss_state.
Theorem C44_hgk_state : forall rho T P, 273 <= T -> 0 < rho T P <= 2000 -> hgk_opt T (rho T P) <> None -> w_pD (along hgk rho T P) <> 0 -> density_of hgk rho T P -> state_ok hgk rho T P.
Proof. exact hgk_state. Qed.
Print Assumptions C44_hgk_state.
Example C44_example : wagnerPruss_opt 300 1000 <> None /\ hgk_opt 300 1000 <> None.
Proof.
  split; [apply wp_some; unfold wp_Dc; lra|]. rewrite (apart_to 300 1000); [discriminate|]. intros p Hp. unfold hg_A4 in Hp. cbn [In] in Hp.
  repeat match goal with H : _ \/ _ |- _ => destruct H as [H|H] end; try contradiction; subst p; unfold cen, hg_D; lra.
Qed.
