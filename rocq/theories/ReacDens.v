(** Calculus proofs about the density models. *)
From Coq Require Import List Bool Reals Lra Lia.
From Coquelicot Require Import Coquelicot.
From Verif Require Import RDeriv ReacModel ReacSpec ReacProofs.
Import ListNotations.
Open Scope R_scope.

(** helper: the derivative of H is Cp and of S is Cp/T from G = H - T S, G' = -S and S' *)
Lemma cons_intro : forall (q : R -> tpr) T, 0 < T -> (forall t, 0 < t -> dG (q t) = dH (q t) - t * dS (q t)) ->
  is_derive (fun t : R => dG (q t)) T (- dS (q T)) -> is_derive (fun t : R => dS (q t)) T (dCp (q T) / T) -> consistent_T q T.
Proof.
  intros q T HT HG DG DS. constructor; [now apply HG|exact DG| |exact DS].
  apply (d_ext_pos (fun t => dG (q t) + t * dS (q t))); [exact HT|intros t Ht; rewrite HG by exact Ht; ring|].
  eapply d_eq; [apply d_plus; [exact DG|apply (d_mult (fun t => t) (fun t => dS (q t))); [apply d_id|exact DS]]|]. cbv beta. field. lra.
Qed.

Section Dens.
Variable w : R -> R -> water.
Notation RHO t P := (rho (w t P) / 1000).
Lemma RHO_T : forall T P, water_ok w T P -> is_derive (fun t : R => RHO t P) T (- alp (w T P) * RHO T P) /\ 0 < RHO T P.
Proof.
  intros T P W. split; [|pose proof (w_pos _ _ _ W); lra]. eapply d_eq; [apply d_scal_r; exact (w_T _ _ _ W)|]. unfold Rdiv. ring.
Qed.
Lemma RHO_P : forall T P, water_ok w T P -> is_derive (fun p : R => RHO T p) P (bet (w T P) * RHO T P).
Proof. intros T P W. eapply d_eq; [apply d_scal_r; exact (w_P _ _ _ W)|]. unfold Rdiv. ring. Qed.
Lemma lnRHO_T : forall T P, water_ok w T P -> is_derive (fun t : R => ln (RHO t P)) T (- alp (w T P)).
Proof. intros T P W. destruct (RHO_T T P W) as [D Hp]. eapply d_eq; [apply d_ln; [exact D|exact Hp]|]. cbv beta. field. pose proof (w_pos _ _ _ W). lra. Qed.
Lemma lnRHO_P : forall T P, water_ok w T P -> is_derive (fun p : R => ln (RHO T p)) P (bet (w T P)).
Proof. intros T P W. destruct (RHO_T T P W) as [_ Hp]. eapply d_eq; [apply d_ln; [apply RHO_P; exact W|exact Hp]|]. cbv beta. field. pose proof (w_pos _ _ _ W). lra. Qed.

(** derivative of an expression in t, L t = ln RHO and A t = alpha *)
Ltac nzz := first [lra | apply pow_nonzero; lra | repeat (apply Rmult_integral_contrapositive_currified; [lra|]); lra | repeat apply Rmult_integral_contrapositive_currified; lra].
Ltac dd := repeat (first [ apply d_const | apply d_id | apply d_plus | apply d_minus | apply d_opp | apply d_div | apply d_mult | apply d_inv | apply d_pow ]).

Lemma dolejs_T : forall a b c d e r P Pb T, 0 < T -> (forall t, 0 < t -> water_ok w t P) -> exists q,
  (forall t, 0 < t -> dolejs (a :: b :: c :: d :: e :: r) (w t P) t Pb = Some (q t)) /\ consistent_T q T /\ energies (q T) T Pb /\
  dG (q T) = - Rgas * T * ((- 1 / Rgas) * (a / T + b + c * ln T + d * T + e * ln (RHO T P))).
Proof.
  intros a b c d e r P Pb T HT W. pose proof Rgas_pos. pose proof (W T HT) as WT. pose proof (lnRHO_T T P WT) as DL. pose proof (w_a _ _ _ WT) as DA.
  eexists (fun t => _). split; [intros t Ht; reflexivity|]. split; [|split; [split; reflexivity|cbn [dG]; field; lra]].
  apply cons_intro; [exact HT|intros; reflexivity| |]; cbn [dG dH dS dCp].
  - set (L := fun t : R => ln (RHO t P)) in *. set (A := fun t : R => alp (w t P)) in *.
    apply (d_ext_pos (fun t => a + b * t + c * (t * ln t) + d * t ^ 2 + e * (t * L t))); [exact HT|intros t Ht; unfold L; ring|].
    assert (Dl : is_derive (fun t : R => ln t) T (1 / T)) by (apply d_ln; [apply d_id|exact HT]).
    eapply d_eq.
    + apply d_plus; [apply d_plus; [apply d_plus; [apply d_plus; [apply d_const|apply d_scal, d_id]|apply d_scal, d_mult; [apply d_id|exact Dl]]|apply d_scal, d_pow, d_id]|].
      apply d_scal. apply d_mult; [apply d_id|exact DL].
    + unfold L. cbv beta. cbn [INR pred pow]. field. lra.
  - set (L := fun t : R => ln (RHO t P)) in *. set (A := fun t : R => alp (w t P)) in *.
    apply (d_ext (fun t => - b - c * (1 + ln t) - 2 * d * t - e * L t + e * t * A t)); [intros; unfold L, A; ring|].
    assert (Dl : is_derive (fun t : R => ln t) T (1 / T)) by (apply d_ln; [apply d_id|exact HT]).
    eapply d_eq.
    + apply d_plus; [apply d_minus; [apply d_minus; [apply d_minus; [apply d_const|apply d_scal, d_plus; [apply d_const|exact Dl]]|apply d_scal, d_id]|apply d_scal; exact DL]|].
      apply d_mult; [apply d_scal, d_id|exact DA].
    + cbv beta. unfold A. cbn [pow]. field. lra.
Qed.
Lemma dolejs_P : forall a b c d e r Pb T P, 0 < T -> water_ok w T P -> exists q,
  (forall p, dolejs (a :: b :: c :: d :: e :: r) (w T p) T Pb = Some (q p)) /\ volume_ok q P.
Proof.
  intros a b c d e r Pb T P HT W. pose proof (lnRHO_P T P W) as DL.
  eexists (fun p => _). split; [intros p; reflexivity|]. unfold volume_ok. cbn [dG dV].
  set (L := fun p : R => ln (RHO T p)) in *.
  apply (d_ext (fun p => a + b * T + c * (T * ln T) + d * T ^ 2 + e * T * L p)); [intros p; unfold L; ring|].
  eapply d_eq; [apply d_plus; [apply d_const|apply d_scal; exact DL]|]. cbv beta. field.
Qed.

(** Frantz-Marshall *)
Lemma frantz_T : forall a b c d e f g r P Pb T, 0 < T -> (forall t, 0 < t -> water_ok w t P) -> exists q,
  (forall t, 0 < t -> frantz (a :: b :: c :: d :: e :: f :: g :: r) (w t P) t Pb = Some (q t)) /\ consistent_T q T /\ energies (q T) T Pb /\
  dG (q T) * lg_to_ln = - Rgas * T * lnK (q T) * LN10.
Proof.
  intros a b c d e f g r P Pb T HT W. pose proof Rgas_pos. pose proof LN10_pos as HL. pose proof lg_pos. pose proof (W T HT) as WT. pose proof (lnRHO_T T P WT) as DL. pose proof (w_a _ _ _ WT) as DA.
  pose proof (w_pos _ _ _ WT) as Hpos.
  assert (NZ : forall t, 0 < t -> rho (w t P) <> 0) by (intros t Ht; pose proof (w_pos _ _ _ (W t Ht)); lra).
  eexists (fun t => _). split; [intros t Ht; reflexivity|]. split; [|split; [split; reflexivity|cbn [dG lnK]; field; lra]].
  set (L := fun t : R => ln (RHO t P)) in *. set (A := fun t : R => alp (w t P)) in *.
  assert (Dj : is_derive (fun t : R => a + b / t + c / t ^ 2 + d / t ^ 3 + (e + f / t + g / t ^ 2) * (L t / LN10)) T
     (- b / T ^ 2 - 2 * c / T ^ 3 - 3 * d / T ^ 4 + (- f / T ^ 2 - 2 * g / T ^ 3) * (L T / LN10) - (e + f / T + g / T ^ 2) / LN10 * A T)).
  { eapply d_eq.
    - apply d_plus; [auto_derive|apply d_mult; [auto_derive|apply d_scal_r; exact DL]]; try reflexivity; repeat split; auto; try lra; nzz.
    - cbv beta. unfold L, A. cbn [pow]. field. lra. }
  assert (E1 : forall t, 0 < t -> (- b / t ^ 2 - 2 * c / t ^ 3 - 3 * d / t ^ 4 + (- f / t ^ 2 - 2 * g / t ^ 3) * log10 (RHO t P)
                + (e + f / t + g / t ^ 2) * 1 / (RHO t P * LN10) * (- alp (w t P) * RHO t P)) =
     (- b / t ^ 2 - 2 * c / t ^ 3 - 3 * d / t ^ 4 + (- f / t ^ 2 - 2 * g / t ^ 3) * (L t / LN10) - (e + f / t + g / t ^ 2) / LN10 * A t)).
  { intros t Ht. unfold L, A, log10. field. repeat split; try lra. apply NZ. exact Ht. }
  apply cons_intro; [exact HT|intros; cbn [dG dH dS]; ring| |]; cbn [dG dH dS dCp].
  - apply (d_ext (fun t => - Rgas * LN10 * (t * (a + b / t + c / t ^ 2 + d / t ^ 3 + (e + f / t + g / t ^ 2) * (L t / LN10))))); [intros t; unfold L, log10; ring|].
    eapply d_eq; [apply d_scal, d_mult; [apply d_id|exact Dj]|]. rewrite E1 by exact HT. fold (L T). unfold log10. fold (L T). ring.
  - apply (d_ext_pos (fun t => Rgas * LN10 * ((a + b / t + c / t ^ 2 + d / t ^ 3 + (e + f / t + g / t ^ 2) * (L t / LN10)) +
       (- b / t ^ 2 - 2 * c / t ^ 3 - 3 * d / t ^ 4 + (- f / t ^ 2 - 2 * g / t ^ 3) * (L t / LN10) - (e + f / t + g / t ^ 2) / LN10 * A t) * t))); [exact HT| |].
    { intros t Ht. rewrite E1 by exact Ht. unfold L, log10. ring. }
    eapply d_eq.
    + apply d_scal, d_plus; [exact Dj|]. apply d_mult; [|apply d_id].
      apply d_minus; [apply d_plus; [auto_derive|apply d_mult; [auto_derive|apply d_scal_r; exact DL]]|apply d_mult; [auto_derive|exact DA]]; try reflexivity; repeat split; auto; try lra; nzz.
    + rewrite E1 by exact HT. unfold L, A, log10. cbn [pow]. field. repeat split; try lra.
Qed.
Lemma frantz_P : forall a b c d e f g r Pb T P, 0 < T -> water_ok w T P -> exists q,
  (forall p, frantz (a :: b :: c :: d :: e :: f :: g :: r) (w T p) T Pb = Some (q p)) /\ volume_ok q P.
Proof.
  intros a b c d e f g r Pb T P HT W. pose proof LN10_pos. pose proof (lnRHO_P T P W) as DL. pose proof (w_pos _ _ _ W).
  eexists (fun p => _). split; [intros p; reflexivity|]. unfold volume_ok. cbn [dG dV].
  set (L := fun p : R => ln (RHO T p)) in *.
  apply (d_ext (fun p => - Rgas * T * LN10 * (a + b / T + c / T ^ 2 + d / T ^ 3 + (e + f / T + g / T ^ 2) / LN10 * L p))); [intros p; unfold L, log10; field; lra|].
  eapply d_eq; [apply d_scal, d_plus; [apply d_const|apply d_scal; exact DL]|]. cbv beta. field. lra.
Qed.

(** Ryzhenko-Bryzgalin *)
Lemma rb_zz_pos : 0 < rb_zz. Proof. unfold rb_zz. lra. Qed.
Lemma ryzhenko_T : forall pK A B r P Pb T, 0 < T -> (forall t, 0 < t -> water_ok w t P) -> exists q,
  (forall t, 0 < t -> ryzhenko (pK :: A :: B :: r) (w t P) t Pb = Some (q t)) /\ consistent_T q T /\
  dG (q T) * lg_to_ln = - Rgas * T * lnK (q T) * LN10 /\ lnK (q T) = lgK (q T) * lg_to_ln.
Proof.
  intros pK A B r P Pb T HT W. pose proof Rgas_pos. pose proof LN10_pos as HL. pose proof rb_zz_pos as HZ. pose proof (W T HT) as WT. pose proof (lnRHO_T T P WT) as DL. pose proof (w_a _ _ _ WT) as DA.
  pose proof (w_pos _ _ _ WT) as Hpos.
  assert (NZ : forall t, 0 < t -> rho (w t P) <> 0) by (intros t Ht; pose proof (w_pos _ _ _ (W t Ht)); lra).
  eexists (fun t => _). split; [intros t Ht; reflexivity|].
  split; [|split; [cbn [dG lnK]; ring|reflexivity]].
  generalize rb_a rb_b rb_c rb_d rb_e rb_f rb_g rb_pKw298. intros a b c d e f g pw.
  set (L := fun t : R => ln (RHO t P)) in *. set (Al := fun t : R => alp (w t P)) in *.
  set (I := fun t : R => a * t + b + c / t + d / t ^ 2 + (e * t + f + g / t) * (L t / LN10) - (- pw) * T298).
  set (I1 := fun t : R => a - c / t ^ 2 - 2 * d / t ^ 3 + (e - g / t ^ 2) * (L t / LN10) - (e * t + f + g / t) / LN10 * Al t).
  assert (DI : is_derive I T (I1 T)).
  { unfold I. eapply d_eq.
    - apply d_minus; [apply d_plus; [auto_derive|apply d_mult; [auto_derive|apply d_scal_r; exact DL]]|apply d_const]; try reflexivity; repeat split; auto; try lra; nzz.
    - unfold I1, L, Al. cbn [pow]. field. lra. }
  assert (DI1 : is_derive I1 T (2 * c / T ^ 3 + 6 * d / T ^ 4 + 2 * g / T ^ 3 * (L T / LN10) - 2 * (e - g / T ^ 2) / LN10 * Al T - (e * T + f + g / T) / LN10 * dal (w T P))).
  { unfold I1. eapply d_eq.
    - apply d_minus; [apply d_plus; [auto_derive|apply d_mult; [auto_derive|apply d_scal_r; exact DL]]|apply d_mult; [auto_derive|exact DA]]; try reflexivity; repeat split; auto; try lra; nzz.
    - unfold L, Al. cbn [pow]. field. lra. }
  assert (DJ : is_derive (fun t : R => A + B / t) T (- B / T ^ 2)) by (auto_derive; [lra|]; field; lra).
  assert (DJ1 : is_derive (fun t : R => - B / t ^ 2) T (2 * B / T ^ 3)) by (auto_derive; [repeat split; auto; nzz|]; field; lra).
  assert (E1 : forall t, 0 < t -> a - c / t ^ 2 - 2 * d / t ^ 3 + (e - g / t ^ 2) * log10 (RHO t P) + (e * t + f + g / t) * 1 / (RHO t P * LN10) * (- alp (w t P) * RHO t P) = I1 t).
  { intros t Ht. unfold I1, L, Al, log10. field. repeat split; try lra. now apply NZ. }
  assert (E0 : forall t, a * t + b + c / t + d / t ^ 2 + (e * t + f + g / t) * log10 (RHO t P) - - pw * T298 = I t) by (intros t; reflexivity).
  apply cons_intro; [exact HT|intros; cbn [dG dH dS]; ring| |]; cbn [dG dH dS dCp].
  - apply (d_ext_pos (fun t => LN10 * Rgas * (pK * T298 - (A + B / t) * I t / rb_zz))); [exact HT| |].
    { intros t Ht. unfold I, L, log10. field. repeat split; lra. }
    eapply d_eq; [apply d_scal, d_minus; [apply d_const|apply d_scal_r, d_mult; [exact DJ|exact DI]]|]. rewrite E1, E0 by exact HT. field. lra.
  - apply (d_ext_pos (fun t => Rgas * LN10 / rb_zz * (I1 t * (A + B / t) + (- B / t ^ 2) * I t))); [exact HT| |].
    { intros t Ht. rewrite E1, E0 by exact Ht. reflexivity. }
    eapply d_eq; [apply d_scal, d_plus; [apply d_mult; [exact DI1|exact DJ]|apply d_mult; [exact DJ1|exact DI]]|]. rewrite E1, E0 by exact HT.
    generalize (I T) (I1 T). intros i i1. unfold Al, L, log10. field. repeat split; lra.
Qed.
Lemma ryzhenko_P : forall pK A B r Pb T P, 0 < T -> water_ok w T P -> exists q,
  (forall p, ryzhenko (pK :: A :: B :: r) (w T p) T Pb = Some (q p)) /\ volume_ok q P.
Proof.
  intros pK A B r Pb T P HT W. pose proof LN10_pos. pose proof rb_zz_pos. pose proof (lnRHO_P T P W) as DL. pose proof (w_pos _ _ _ W).
  eexists (fun p => _). split; [intros p; reflexivity|]. unfold volume_ok. cbn [dG dV].
  generalize rb_a rb_b rb_c rb_d rb_e rb_f rb_g rb_pKw298. intros a b c d e f g pw.
  set (L := fun p : R => ln (RHO T p)) in *.
  apply (d_ext (fun p => LN10 * Rgas * T * (pK * (T298 / T) + (A + B / T) * ((- (a + b / T + c / T ^ 2 + d / T ^ 3 + (e + f / T + g / T ^ 2) / LN10 * L p) - pw * T298 / T) / rb_zz)))).
  { intros p. unfold L, log10. field. repeat split; lra. }
  eapply d_eq.
  - apply d_scal, d_plus; [apply d_const|apply d_scal, d_scal_r, d_minus; [apply d_opp, d_plus; [apply d_const|apply d_scal; exact DL]|apply d_const]].
  - field. repeat split; lra.
Qed.
End Dens.
