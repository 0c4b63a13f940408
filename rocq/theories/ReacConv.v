(** Coefficient conversions of Reaction.cpp, and where the claims fail. *)
From Coq Require Import List Bool Reals Lra Lia.
From Coquelicot Require Import Coquelicot.
From Verif Require Import RDeriv ReacModel ReacSpec ReacProofs ReacDens.
Import ListNotations.
Open Scope R_scope.

(** *** C48: conversions *)
Lemma list5 : forall c : list R, length c = 5%nat -> exists a b d e f, c = [a; b; d; e; f].
Proof. intros c H. destruct c as [|a [|b [|d [|e [|f [|]]]]]]; try discriminate H. now exists a, b, d, e, f. Qed.
Lemma list7 : forall c : list R, length c = 7%nat -> exists a b d e f g h, c = [a; b; d; e; f; g; h].
Proof. intros c H. destruct c as [|a [|b [|d [|e [|f [|g [|h [|]]]]]]]]; try discriminate H. now exists a, b, d, e, f, g, h. Qed.

Lemma C_A_C : forall c S H T, length c = 5%nat -> C_of_A (A_of_C c S H T) = c.
Proof.
  intros c S H T L. destruct (list5 c L) as (a & b & d & e & f & ->). pose proof Rln10_pos.
  unfold C_of_A, A_of_C, at_. cbn [nth]. repeat (apply f_equal2; [field; lra|]). reflexivity.
Qed.
Lemma A_of_C_ref : forall c S H T, 0 < T -> H7 (A_of_C c S H T) T = H /\ S7 (A_of_C c S H T) T = S.
Proof.
  intros c S H T HT. pose proof Rln10_pos. unfold H7, S7.
  set (a := A_of_C c S H T).
  change (at_ a 0) with ((S - at_ c 0 - at_ c 0 * ln T - at_ c 1 * T + at_ c 2 / (2 * T * T) + 2 * at_ c 3 / sqrt T - at_ c 4 * T * T / 2) / Rln10).
  change (at_ a 1) with (at_ c 1 / (2 * Rln10)).
  change (at_ a 2) with (- (H - at_ c 0 * T - at_ c 1 * T * T / 2 + at_ c 2 / T - 2 * at_ c 3 * sqrt T - at_ c 4 * T * T * T / 3) / Rln10).
  change (at_ a 3) with (at_ c 0 / Rln10). change (at_ a 4) with (at_ c 2 / (2 * Rln10)). change (at_ a 5) with (at_ c 4 / (6 * Rln10)).
  change (at_ a 6) with (-4 * at_ c 3 / Rln10). clear a.
  generalize (at_ c 0) (at_ c 1) (at_ c 2) (at_ c 3) (at_ c 4) (ln T). intros. clear c.
  destruct (sqrt_T T HT) as [Hs Hq]. set (s := sqrt T) in *. clearbody s. subst T. split; field; lra.
Qed.
Lemma A_C_A : forall a T, length a = 7%nat -> 0 < T -> A_of_C (C_of_A a) (S7 a T) (H7 a T) T = a.
Proof.
  intros a T L HT. destruct (list7 a L) as (a0 & a1 & a2 & a3 & a4 & a5 & a6 & ->). pose proof Rln10_pos.
  unfold A_of_C, C_of_A, S7, H7, at_. cbn [nth]. generalize (ln T). intros l.
  destruct (sqrt_T T HT) as [Hs Hq]. set (s := sqrt T) in *. clearbody s. subst T.
  repeat (apply f_equal2; [field; lra|]). reflexivity.
Qed.

Lemma convert_there_and_back : forall d a t, length (rC d) = 5%nat -> convert_C_to_A d = Some (a, t) ->
  forall d', rA d' = a -> exists t', convert_A_to_C d' = Some (rC d, t').
Proof.
  intros d a t L E d' HA. unfold convert_C_to_A in E. rewrite L in E. cbn [Nat.ltb Nat.leb] in E.
  assert (Ea : a = A_of_C (rC d) (v (rS d)) (v (rH d)) (rTr d)) by (inversion E; reflexivity).
  unfold convert_A_to_C. rewrite HA, Ea. cbn [length A_of_C Nat.ltb Nat.leb].
  rewrite C_A_C by exact L. eexists. reflexivity.
Qed.
(** both coefficient sets describe the same functions of temperature *)
Lemma convert_same : forall d a t, length (rC d) = 5%nat -> 0 < rTr d -> convert_C_to_A d = Some (a, t) ->
  length a = 7%nat /\ H7 a (rTr d) = v (rH d) /\ S7 a (rTr d) = v (rS d) /\
  forall T, 0 < T -> is_derive (H7 a) T (Cp5 (rC d) T) /\ is_derive (S7 a) T (Cp5 (rC d) T / T) /\
    Rln10 * T * lgK7 a T = T * S7 a T - H7 a T.
Proof.
  intros d a t L HT E. unfold convert_C_to_A in E. rewrite L in E. cbn [Nat.ltb Nat.leb] in E.
  assert (Ea : a = A_of_C (rC d) (v (rS d)) (v (rH d)) (rTr d)) by (inversion E; reflexivity). rewrite Ea.
  destruct (A_of_C_ref (rC d) (v (rS d)) (v (rH d)) (rTr d) HT) as [E1 E2].
  split; [reflexivity|]. split; [exact E1|]. split; [exact E2|]. intros T HTT.
  pose proof (H7_derive (A_of_C (rC d) (v (rS d)) (v (rH d)) (rTr d)) T HTT) as D1. pose proof (S7_derive (A_of_C (rC d) (v (rS d)) (v (rH d)) (rTr d)) T HTT) as D2.
  rewrite C_A_C in D1, D2 by exact L. split; [exact D1|]. split; [exact D2|].
  pose proof (lgK7_GHS (A_of_C (rC d) (v (rS d)) (v (rH d)) (rTr d)) T HTT) as G. unfold Rln10 in *. lra.
Qed.
Lemma convert_back_same : forall d c t, length (rA d) = 7%nat -> 0 < rTr d -> convert_A_to_C d = Some (c, t) ->
  A_of_C c (S7 (rA d) (rTr d)) (H7 (rA d) (rTr d)) (rTr d) = rA d /\
  forall T, 0 < T -> is_derive (H7 (rA d)) T (Cp5 c T) /\ is_derive (S7 (rA d)) T (Cp5 c T / T).
Proof.
  intros d c t L HT E. unfold convert_A_to_C in E. rewrite L in E. cbn [Nat.ltb Nat.leb] in E.
  assert (Ec : c = C_of_A (rA d)) by (inversion E; reflexivity). rewrite Ec. split; [now apply A_C_A|].
  intros T HTT. split; [now apply H7_derive|now apply S7_derive].
Qed.
(** the reference properties stored on the way are those of the functions exactly when the third coefficient is 0 (or Tr = 1) *)
Definition ref_ok (a c : list R) (t : tpr) (T : R) : Prop :=
  lgK t = lgK7 a T /\ dH t = H7 a T /\ dS t = S7 a T /\ dCp t = Cp5 c T.
Lemma sq1 : forall T x, 0 < T -> T <> 1 -> x / T * T = x / (T * T) -> x = 0.
Proof.
  intros T x HT H1 E. assert (E2 : x * (T * T) = x) by (apply (f_equal (fun z => z * (T * T))) in E; field_simplify in E; [|lra|lra]; nra).
  assert (x * (T * T - 1) = 0) by lra. apply Rmult_integral in H as [H|H]; [exact H|]. exfalso. apply H1. nra.
Qed.
Lemma convert_ref : forall d a t, length (rC d) = 5%nat -> 0 < rTr d -> rTr d <> 1 -> convert_C_to_A d = Some (a, t) ->
  (ref_ok a (rC d) t (rTr d) <-> at_ (rC d) 2 = 0).
Proof.
  intros d a t L HT H1 E. unfold convert_C_to_A in E. rewrite L in E. cbn [Nat.ltb Nat.leb] in E.
  pose proof Rln10_pos as HR.
  remember (A_of_C (rC d) (v (rS d)) (v (rH d)) (rTr d)) as A0 eqn:EA.
  assert (A4 : at_ A0 4 = at_ (rC d) 2 / (2 * Rln10)) by (rewrite EA; reflexivity).
  inversion E; subst a t; clear E. unfold ref_ok. cbn [lgK dH dS dCp]. unfold lgK7, H7, S7, Cp5. set (T := rTr d) in *. split.
  - intros (_ & _ & _ & EC). apply (sq1 T); [exact HT|exact H1|]. lra.
  - intros Z. rewrite A4, Z. clear EA A4. repeat split; field; repeat split; try lra; apply Rgt_not_eq, sqrt_lt_R0; exact HT.
Qed.
Lemma convert_back_ref : forall d c t, length (rA d) = 7%nat -> 0 < rTr d -> rTr d <> 1 -> convert_A_to_C d = Some (c, t) ->
  (ref_ok (rA d) c t (rTr d) <-> at_ (rA d) 4 = 0).
Proof.
  intros d c t L HT H1 E. unfold convert_A_to_C in E. rewrite L in E. cbn [Nat.ltb Nat.leb] in E.
  pose proof Rln10_pos as HR.
  assert (C2 : at_ (C_of_A (rA d)) 2 = Rln10 * 2 * at_ (rA d) 4) by reflexivity.
  remember (C_of_A (rA d)) as C0 eqn:EA.
  inversion E; subst c t; clear E. unfold ref_ok. cbn [lgK dH dS dCp]. unfold lgK7, H7, S7, Cp5. set (T := rTr d) in *. split.
  - intros (EL & _). apply (sq1 T); [exact HT|exact H1|]. lra.
  - intros Z. rewrite C2, Z. clear EA C2. repeat split; field; repeat split; try lra; apply Rgt_not_eq, sqrt_lt_R0; exact HT.
Qed.

(** calc_logK_fT_coefficients reproduces the extrapolation it is for *)
Lemma calc_A_EK : forall d ce P T t, (ce = EK2 \/ ce = EK3) -> given (rH d) -> given (rS d) -> given (rCp d) -> 0 < rTr d -> 0 < T ->
  logK_fT d ce T P = Some t -> lgK t = lgK7 (calc_A d ce) T.
Proof.
  intros d ce P T t Hce GH GS GC HTr HT E. pose proof Rln10_pos. unfold logK_fT in E. rewrite GH, GS in E. rewrite !andb_false_r in E.
  destruct (sqrt_T T HT) as [Hs _].
  assert (LD : ln (T / rTr d) = ln T - ln (rTr d)) by (unfold Rdiv; rewrite ln_mult, ln_Rinv; [ring| | |]; auto; now apply Rinv_0_lt_compat).
  destruct Hce as [-> | ->].
  - inversion E; subst t. cbn [lgK]. unfold lgK7, calc_A, at_. cbn [nth]. field. repeat split; lra.
  - unfold determineMethod in E. rewrite GH, GS, GC in E. cbn [andb] in E. inversion E; subst t. cbn [lgK]. rewrite LD. unfold lgK7, calc_A, at_. cbn [nth]. field. repeat split; lra.
Qed.

(** *** C36: where it fails *)
(** Cp coefficients without logK coefficients: H and S stay at their reference values although Cp is not 0 *)
Lemma logK_Cp_inconsistent : forall d ce P q T, (ce = LGK \/ ce = LGX) -> rA d = [] -> rC d <> [] -> given (rH d) -> given (rS d) ->
  (forall t, 0 < t -> logK_fT d ce t P = Some (q t)) -> 0 < T -> Cp5 (resize 5 (rC d)) T <> 0 -> ~ consistent_T q T.
Proof.
  intros d ce P q T Hce HA HC GH GS Hq HT Hn C. pose proof (c_Cp _ _ C) as D.
  assert (Q : forall t, 0 < t -> dH (q t) = v (rH d) /\ dCp (q t) = Cp5 (resize 5 (rC d)) t).
  { intros t Ht. destruct (logK_from_Cp d ce t P Hce HA HC GH GS Ht) as (z & E & E1 & _ & E3). rewrite Hq in E by exact Ht. inversion E; subst z. now split. }
  apply Hn. destruct (Q T HT) as [_ <-]. apply (d_unique (fun t => dH (q t)) T); [exact D|].
  apply (d_ext_pos (fun _ => v (rH d))); [exact HT|intros t Ht; symmetry; now apply Q|apply d_const].
Qed.
(** entropy missing: it is derived with the temperature asked for instead of the reference temperature *)
Lemma logK_S_missing : forall d P q T, given (rH d) -> given (rG d) -> def (rS d) = false -> v (rH d) <> v (rG d) ->
  (forall t, 0 < t -> logK_fT d EK2 t P = Some (q t)) -> 0 < T -> ~ consistent_T q T.
Proof.
  intros d P q T GH GG GS Hn Hq HT C. pose proof (c_S _ _ C) as D. pose proof Rln10_pos. pose proof Rgas_pos. pose proof lg_pos.
  assert (Q : forall t, 0 < t -> dG (q t) = v (rG d) /\ dS (q t) = (v (rH d) - v (rG d)) / t).
  { intros t Ht. specialize (Hq t Ht). unfold logK_fT in Hq. rewrite GH, GG, GS in Hq. cbn [andb negb v] in Hq. inversion Hq as [E]. cbn [dG dS].
    unfold Rln10. split; [field; repeat split; lra|reflexivity]. }
  destruct (Q T HT) as [_ ES]. rewrite ES in D.
  assert (Z : - ((v (rH d) - v (rG d)) / T) = 0).
  { apply (d_unique (fun t => dG (q t)) T); [exact D|]. apply (d_ext_pos (fun _ => v (rG d))); [exact HT|intros t Ht; symmetry; now apply Q|apply d_const]. }
  apply Hn. apply (f_equal (fun x => x * T)) in Z. field_simplify in Z; lra.
Qed.
(** only an enthalpy: logK is constant although the reported H is not 0 *)
Lemma logK_H_only : forall d P q T, given (rH d) -> def (rG d) = false -> def (rS d) = false -> v (rH d) <> 0 ->
  (forall t, 0 < t -> logK_fT d EK3 t P = Some (q t)) -> 0 < T -> ~ equilibrium lg_to_ln q T.
Proof.
  intros d P q T GH GG GS Hn Hq HT (_ & _ & D). pose proof Rgas_pos.
  assert (Q : forall t, 0 < t -> lnK (q t) = v (rlgK d) * lg_to_ln /\ dH (q t) = v (rH d)).
  { intros t Ht. specialize (Hq t Ht). unfold logK_fT in Hq. rewrite GH, GG, GS in Hq. cbn [andb negb v] in Hq. unfold determineMethod in Hq. rewrite GH, GS in Hq.
    rewrite !andb_false_r in Hq. cbn [andb orb] in Hq. replace (is_zero (v (rH d))) with false in Hq by (unfold is_zero; destruct (Req_EM_T (v (rH d)) 0); congruence).
    cbn [andb orb] in Hq. inversion Hq. split; reflexivity. }
  destruct (Q T HT) as [_ EH]. rewrite EH in D.
  assert (Z : v (rH d) / (Rgas * T ^ 2) = 0).
  { apply (d_unique (fun t => lnK (q t)) T); [exact D|]. apply (d_ext_pos (fun _ => v (rlgK d) * lg_to_ln)); [exact HT|intros t Ht; symmetry; now apply Q|apply d_const]. }
  apply Hn. replace (v (rH d)) with (v (rH d) / (Rgas * T ^ 2) * (Rgas * T ^ 2)) by (field; split; lra). rewrite Z. ring.
Qed.
(** no coefficients at all: the vectors are read outside their bounds *)
Lemma logK_nothing : forall d ce T P, (ce = LGK \/ ce = LGX) -> rA d = [] -> rC d = [] -> logK_fT d ce T P = None.
Proof. intros d ce T P H HA HC. unfold logK_fT. rewrite HA, HC. destruct H as [-> | ->]; reflexivity. Qed.
Lemma logK_both_short : forall d ce T P, (ce = LGK \/ ce = LGX) -> rA d <> [] -> rC d <> [] -> (length (rA d) < 7 \/ length (rC d) < 5)%nat -> logK_fT d ce T P = None.
Proof.
  intros d ce T P H HA HC HL. unfold logK_fT. destruct (rA d) as [|x l] eqn:EA; [congruence|]. destruct (rC d) as [|y m] eqn:EC; [congruence|].
  assert (Z : (Nat.leb 7 (length (x :: l)) && Nat.leb 5 (length (y :: m)))%bool = false).
  { apply andb_false_iff. destruct HL as [HL|HL]; [left|right]; now apply Nat.leb_gt. }
  rewrite Z. destruct H as [-> | ->]; reflexivity.
Qed.
(** zero enthalpy: U and A are reported as 0 although the volume is not *)
Lemma logK_energy_zero : forall d T P t, given (rH d) -> given (rS d) -> v (rH d) = 0 -> P <> 0 -> v (rV d) <> 0 ->
  logK_fT d EK2 T P = Some t -> ~ energies t T P.
Proof.
  intros d T P t GH GS HZ HP HV E EE. destruct EE as [EU _]. unfold logK_fT in E. rewrite GH, GS in E. rewrite !andb_false_r in E. inversion E; subst t. cbn [dU dH dV] in EU.
  rewrite HZ in EU. replace (is_zero 0) with true in EU by (unfold is_zero; destruct (Req_EM_T 0 0); congruence).
  assert (P * v (rV d) = 0) by lra. apply Rmult_integral in H as [H|H]; congruence.
Qed.

(** *** C37: where it fails *)
Lemma frantz_logK_unset : forall fm w T P t, model_frantz fm w T P = Some t -> lgK t = 0.
Proof. intros fm w T P t H. unfold model_frantz, frantz in H. destruct fm as [|a [|b [|c [|d [|e [|f [|g r]]]]]]]; try discriminate H. inversion H. reflexivity. Qed.
Lemma dolejs_ignores_coefficients : forall dm dm' fm w T P, model_dolejs dm fm w T P = model_dolejs dm' fm w T P.
Proof. reflexivity. Qed.
Lemma dolejs_ub : forall dm w T P, model_dolejs dm [] w T P = None.
Proof. reflexivity. Qed.
Lemma ryzhenko_energy : forall co w T Pb t, ryzhenko co w T Pb = Some t -> dU t = dH t - Pb * (dV t / 100000).
Proof.
  intros co w T Pb t H. unfold ryzhenko in H. destruct co as [|a [|b [|c r]]]; try discriminate H. injection H as <-. cbn [dU dH dV].
  assert (F : forall h p y, h - p * y = h - p * (y * 100000 / 100000)) by (intros; field). apply F.
Qed.
Lemma ryzhenko_not_energies : forall co w T Pb t, ryzhenko co w T Pb = Some t -> Pb <> 0 -> dV t <> 0 -> ~ energies t T Pb.
Proof.
  intros co w T Pb t H HP HV EE. destruct EE as [E _]. rewrite (ryzhenko_energy _ _ _ _ _ H) in E. assert (Z : Pb * dV t = 0) by lra. apply Rmult_integral in Z as [Z|Z]; congruence.
Qed.
