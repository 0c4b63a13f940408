(** Calculus proofs about the reaction functions. *)
From Coq Require Import List Bool Reals Lra Lia.
From Coquelicot Require Import Coquelicot.
From Verif Require Import RDeriv ReacModel ReacSpec.
Import ListNotations.
Open Scope R_scope.

Lemma Rgas_pos : 0 < Rgas. Proof. unfold Rgas. lra. Qed.
Lemma lg_pos : 0 < lg_to_ln. Proof. unfold lg_to_ln. lra. Qed.
Lemma LN10_pos : 0 < LN10. Proof. unfold LN10. lra. Qed.
Lemma Rln10_pos : 0 < Rln10. Proof. unfold Rln10. pose proof Rgas_pos. pose proof lg_pos. nra. Qed.
Lemma Rln10_eq : Rln10 = Rgas * lg_to_ln. Proof. reflexivity. Qed.
Global Opaque Rgas lg_to_ln LN10.

(** derivatives of the 7-term functions *)
Lemma sqrt_T : forall T, 0 < T -> 0 < sqrt T /\ sqrt T * sqrt T = T.
Proof. intros T H. split; [now apply sqrt_lt_R0|]. apply sqrt_sqrt. lra. Qed.
(** eliminate the square root of [T] *)
Ltac unroot T HT := let s := fresh "s" in destruct (sqrt_T T HT) as [Hs Hq]; set (s := sqrt T) in *; clearbody s; subst T.
Ltac nz := repeat split; auto; try lra; try nra.
Lemma Cp5_of_A : forall a T, Cp5 (C_of_A a) T =
  Rln10 * at_ a 3 + Rln10 * 2 * at_ a 1 * T + Rln10 * 2 * at_ a 4 / (T * T) + Rln10 * 6 * at_ a 5 * (T * T) + - Rln10 * (1 / 4) * at_ a 6 / sqrt T.
Proof. reflexivity. Qed.
Lemma H7_derive : forall a T, 0 < T -> is_derive (H7 a) T (Cp5 (C_of_A a) T).
Proof.
  intros a T HT. rewrite Cp5_of_A. unfold H7. generalize (at_ a 1) (at_ a 2) (at_ a 3) (at_ a 4) (at_ a 5) (at_ a 6) Rln10. intros.
  auto_derive; [nz|]. unroot T HT. field. lra.
Qed.
Lemma S7_derive : forall a T, 0 < T -> is_derive (S7 a) T (Cp5 (C_of_A a) T / T).
Proof.
  intros a T HT. rewrite Cp5_of_A. unfold S7. generalize (at_ a 0) (at_ a 1) (at_ a 2) (at_ a 3) (at_ a 4) (at_ a 5) (at_ a 6) Rln10. intros.
  destruct (sqrt_T T HT) as [Hs0 _]. auto_derive; [nz|]. unroot T HT. field. lra.
Qed.
Lemma lgK7_GHS : forall a T, 0 < T -> - (T * Rgas) * lgK7 a T * lg_to_ln = H7 a T - T * S7 a T.
Proof.
  intros a T HT. unfold lgK7, H7, S7. rewrite Rln10_eq. generalize (at_ a 0) (at_ a 1) (at_ a 2) (at_ a 3) (at_ a 4) (at_ a 5) (at_ a 6). intros.
  unroot T HT. field. lra.
Qed.
Lemma lgK7_derive : forall a T, 0 < T -> is_derive (lgK7 a) T (H7 a T / (Rln10 * T ^ 2)).
Proof.
  intros a T HT. pose proof Rln10_pos. unfold lgK7, H7. generalize (at_ a 0) (at_ a 1) (at_ a 2) (at_ a 3) (at_ a 4) (at_ a 5) (at_ a 6). intros.
  destruct (sqrt_T T HT) as [Hs0 _]. auto_derive; [nz|]. unroot T HT. field. nz.
Qed.

(** *** the logK(T) models *)
Lemma resize_length : forall n l, length (resize n l) = n.
Proof. intros. unfold resize. rewrite firstn_length, app_length, repeat_length. lia. Qed.
Definition fin (d : rdata) (T P lg H S Cp : R) : tpr :=
  let U := if is_zero H then 0 else H - P * v (rV d) in
  mkTpr lg (lg * lg_to_ln) (- (T * Rgas) * lg * lg_to_ln) H S Cp (v (rV d)) (if is_zero H then 0 else U - T * S) U.
Lemma vantHoff : forall (lg : R -> R) (H T : R), 0 < T -> is_derive lg T (H / (Rln10 * T ^ 2)) -> is_derive (fun t : R => lg t * lg_to_ln) T (H / (Rgas * T ^ 2)).
Proof.
  intros lg H T HT D. pose proof Rgas_pos. pose proof lg_pos. eapply d_eq; [apply d_scal_r; exact D|]. rewrite Rln10_eq. field. repeat split; lra.
Qed.
(** from the four facts about the formulas to consistency of the reported properties *)
Lemma fin_consistent : forall d P (lg H S Cp : R -> R) T, 0 < T ->
  (forall t, 0 < t -> - (t * Rgas) * lg t * lg_to_ln = H t - t * S t) ->
  is_derive H T (Cp T) -> is_derive S T (Cp T / T) -> is_derive lg T (H T / (Rln10 * T ^ 2)) ->
  consistent_T (fun t => fin d t P (lg t) (H t) (S t) (Cp t)) T /\ equilibrium lg_to_ln (fun t => fin d t P (lg t) (H t) (S t) (Cp t)) T.
Proof.
  intros d P lg H S Cp T HT EG DH DS DL. split; [constructor|split; [|split]]; cbn [dG dH dS dCp lnK lgK fin].
  - now apply EG.
  - apply (d_ext_pos (fun t => H t - t * S t)); [exact HT|intros t Ht; symmetry; now apply EG|].
    eapply d_eq; [apply d_minus; [exact DH|apply (d_mult (fun t => t) S); [apply d_id|exact DS]]|]. field. lra.
  - exact DH.
  - exact DS.
  - reflexivity.
  - ring.
  - now apply vantHoff.
Qed.
Lemma logK_LGK : forall d ce P, (ce = LGK \/ ce = LGX) -> rA d <> [] -> rC d = [] -> exists q, (forall T, 0 < T -> logK_fT d ce T P = Some (q T)) /\
  forall T, 0 < T -> consistent_T q T /\ equilibrium lg_to_ln q T.
Proof.
  intros d ce P Hce HA HC. set (a := resize 7 (rA d)).
  exists (fun T => fin d T P (lgK7 a T) (H7 a T) (S7 a T) (Cp5 (C_of_A a) T)). split.
  - intros T HT. unfold logK_fT. rewrite HC. destruct (rA d) as [|x l] eqn:E; [congruence|]. fold a.
    assert (L : Nat.leb 7 (length a) = true) by (unfold a; now rewrite resize_length). rewrite L.
    destruct Hce as [->| ->]; reflexivity.
  - intros T HT. apply fin_consistent; [exact HT| | | |].
    + intros t Ht. now apply lgK7_GHS.
    + now apply H7_derive.
    + now apply S7_derive.
    + now apply lgK7_derive.
Qed.
Definition given (x : sc) : Prop := def x = true.
Lemma logK_EK2 : forall d P, given (rH d) -> given (rS d) -> v (rCp d) = 0 -> exists q, (forall T, 0 < T -> logK_fT d EK2 T P = Some (q T)) /\
  forall T, 0 < T -> consistent_T q T /\ equilibrium lg_to_ln q T.
Proof.
  intros d P GH GS HC. pose proof Rln10_pos as HR. pose proof Rgas_pos. pose proof lg_pos.
  exists (fun T => fin d T P ((v (rS d) - v (rH d) / T) / Rln10) (v (rH d)) (v (rS d)) 0). split.
  - intros T HT. unfold logK_fT. rewrite GH, GS. rewrite !andb_false_r. cbn [v]. rewrite HC. reflexivity.
  - intros T HT. apply (fin_consistent d P (fun T => (v (rS d) - v (rH d) / T) / Rln10) (fun _ => v (rH d)) (fun _ => v (rS d)) (fun _ => 0)); [exact HT| | | |].
    + intros t Ht. rewrite Rln10_eq. field. repeat split; lra.
    + auto_derive; [exact I|ring].
    + auto_derive; [exact I|]. field. lra.
    + auto_derive; [lra|]. field. lra.
Qed.
Lemma logK_EK3 : forall d P, given (rH d) -> given (rS d) -> given (rCp d) -> 0 < rTr d -> exists q, (forall T, 0 < T -> logK_fT d EK3 T P = Some (q T)) /\
  forall T, 0 < T -> consistent_T q T /\ equilibrium lg_to_ln q T.
Proof.
  intros d P GH GS GC HTr. pose proof Rln10_pos as HR. pose proof Rgas_pos. pose proof lg_pos.
  exists (fun T => fin d T P ((v (rS d) - v (rH d) / T - v (rCp d) * (1 - rTr d / T - ln (T / rTr d))) / Rln10) (v (rH d) + v (rCp d) * (T - rTr d))
                       (v (rS d) + v (rCp d) * ln (T / rTr d)) (v (rCp d))). split.
  - intros T HT. unfold logK_fT. rewrite GH, GS. rewrite !andb_false_r. unfold determineMethod. rewrite GH, GS, GC. reflexivity.
  - intros T HT. apply (fin_consistent d P (fun T => (v (rS d) - v (rH d) / T - v (rCp d) * (1 - rTr d / T - ln (T / rTr d))) / Rln10)
      (fun T => v (rH d) + v (rCp d) * (T - rTr d)) (fun T => v (rS d) + v (rCp d) * ln (T / rTr d)) (fun _ => v (rCp d))); [exact HT| | | |].
    + intros t Ht. rewrite Rln10_eq. field. repeat split; lra.
    + auto_derive; [exact I|ring].
    + assert (0 < T / rTr d) by (apply Rdiv_lt_0_compat; lra). auto_derive; [lra|]. field. lra.
    + assert (0 < T / rTr d) by (apply Rdiv_lt_0_compat; lra). auto_derive; [repeat split; lra|]. field. repeat split; lra.
Qed.
(** the reference values are met at the reference temperature *)
Lemma logK_EK3_ref : forall d P, given (rH d) -> given (rS d) -> given (rCp d) -> 0 < rTr d -> exists t, logK_fT d EK3 (rTr d) P = Some t /\
  dH t = v (rH d) /\ dS t = v (rS d) /\ dCp t = v (rCp d) /\ dG t = v (rH d) - rTr d * v (rS d).
Proof.
  intros d P GH GS GC HTr. pose proof Rgas_pos. pose proof lg_pos. eexists. split.
  - unfold logK_fT. rewrite GH, GS. rewrite !andb_false_r. unfold determineMethod. rewrite GH, GS, GC. reflexivity.
  - cbn [dH dS dCp dG]. replace (rTr d / rTr d) with 1 by (field; lra). rewrite ln_1. rewrite Rln10_eq. repeat split; field; repeat split; lra.
Qed.
Lemma is_zero_spec : forall x, is_zero x = true <-> x = 0.
Proof. intros x. unfold is_zero. destruct (Req_EM_T x 0); split; congruence. Qed.
Lemma logK_energies : forall d ce T P t, logK_fT d ce T P = Some t -> dH t <> 0 -> energies t T P.
Proof.
  intros d ce T P t. unfold logK_fT, energies.
  set (ce' := match ce with EK3 => _ | c => c end). set (a := match rA d with [] => _ | _ => _ end). 
  intros E Hn.
  assert (Z : forall x, x <> 0 -> is_zero x = false) by (intros x Hx; unfold is_zero; destruct (Req_EM_T x 0); congruence).
  destruct ce'; try (inversion E; subst; cbn [dU dH dV dA dS] in *; rewrite !Z by exact Hn; split; reflexivity).
  all: destruct (_ && _)%bool in E; [|discriminate]; inversion E; subst; cbn [dU dH dV dA dS] in *; rewrite !Z by exact Hn; split; reflexivity.
Qed.
(** *** what goes wrong *)
(** Cp coefficients without logK coefficients: H and S stay at their reference values *)
Lemma logK_from_Cp : forall d ce T P, (ce = LGK \/ ce = LGX) -> rA d = [] -> rC d <> [] -> given (rH d) -> given (rS d) -> 0 < T ->
  exists t, logK_fT d ce T P = Some t /\ dH t = v (rH d) /\ dS t = v (rS d) /\ dCp t = Cp5 (resize 5 (rC d)) T.
Proof.
  intros d ce T P Hce HA HC GH GS HT. pose proof Rln10_pos as HR. unfold logK_fT. rewrite GH, GS, HA. rewrite !andb_false_r.
  destruct (rC d) as [|x l] eqn:E; [congruence|].
  assert (L : Nat.leb 5 (length (resize 5 (x :: l))) = true) by now rewrite resize_length.
  set (c := resize 5 (x :: l)) in *. cbn [length A_of_C]. rewrite L. cbn [andb Nat.leb].
  assert (E1 : H7 (A_of_C c (v (rS d)) (v (rH d)) T) T = v (rH d)).
  { unfold H7, A_of_C. unfold at_ at 1 9 15 17 19 21. cbn [nth]. generalize (at_ c 0) (at_ c 1) (at_ c 2) (at_ c 3) (at_ c 4). intros. cbn [at_ nth]. unroot T HT. field. lra. }
  assert (E2 : S7 (A_of_C c (v (rS d)) (v (rH d)) T) T = v (rS d)).
  { unfold S7, A_of_C. generalize (at_ c 0) (at_ c 1) (at_ c 2) (at_ c 3) (at_ c 4). intros. cbn [at_ nth]. unroot T HT. field. lra. }
  destruct Hce as [->| ->]; (eexists; split; [reflexivity|]; cbn [dH dS dCp]; repeat split; assumption).
Qed.

(** which approximation a three-term request uses when data are missing *)
Lemma method_chosen : forall d T P, def (rG d) = false ->
  (given (rH d) -> given (rS d) -> def (rCp d) = false -> logK_fT d EK3 T P = logK_fT d EK2 T P) /\
  (given (rH d) -> v (rH d) = 0 -> def (rS d) = false -> logK_fT d EK3 T P = logK_fT d EK1 T P) /\
  (given (rS d) -> v (rS d) = 0 -> def (rH d) = false -> logK_fT d EK3 T P = logK_fT d EK1 T P) /\
  (def (rH d) = false -> def (rS d) = false -> logK_fT d EK3 T P = logK_fT d EK0 T P).
Proof.
  intros d T P GG. assert (Z : forall x, x = 0 -> is_zero x = true) by (intros x Hx; unfold is_zero; destruct (Req_EM_T x 0); [reflexivity|contradiction]).
  split; [|split; [|split]].
  - intros GH GS GC. unfold logK_fT. rewrite GG, GH, GS. cbn [andb negb]. unfold determineMethod. rewrite GH, GS, GC. reflexivity.
  - intros GH E GS. unfold logK_fT. rewrite GG, GH, GS. cbn [andb negb]. unfold determineMethod. rewrite GH, GS, (Z _ E). rewrite !andb_false_r. reflexivity.
  - intros GS E GH. unfold logK_fT. rewrite GG, GH, GS. cbn [andb negb]. unfold determineMethod. rewrite GH, GS, (Z _ E). rewrite !andb_false_r. reflexivity.
  - intros GH GS. unfold logK_fT. rewrite GG, GH, GS. cbn [andb negb]. unfold determineMethod. rewrite GH, GS. rewrite !andb_false_r. reflexivity.
Qed.
