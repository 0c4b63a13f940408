(** Lemmas: the parametric potential and its derivatives along paths. *)
From Coq Require Import Reals Lra Nsatz.
From Coquelicot Require Import Coquelicot.
From Verif Require Import RDeriv LvsModel LvsSpec.
Open Scope R_scope.

Section Term.
Variables (c : lvs) (deli k p0 p2 p4 q0 q2 : R).
Let ai := l_al c - deli.
Let bi := l_b c + deli.
Let d := l_b c * l_del c.
Hypothesis E0 : l_al c + l_b c * (l_del c + 1) = 2.
Hypothesis OP : one_potential c ai p0 p2 p4 q0 q2.
Variables (r th : R -> R) (x r' th' : R).
Hypothesis r0 : 0 < r x.
Hypothesis Hr : is_derive r x r'.
Hypothesis Ht : is_derive th x th'.
Hypothesis G : gx c (th x) <> 0.
Definition hd : R := l_a c * (d * Rpower (r x) (d - 1) * r' * (th x * (1 - th x * th x)) + Rpower (r x) d * (1 - 3 * (th x * th x)) * th').
Definition td : R := r' * (1 - l_b2 c * (th x * th x)) - 2 * l_b2 c * r x * th x * th'.
Definition mi (r th : R) : R := k * (th * Rpower r bi).
Definition si (r th : R) : R := (q0 + q2 * (th * th)) * l_a c * k * Rpower r (1 - ai).
Definition pi_ (r th : R) : R := l_a c * (k * (p0 + p2 * (th * th) + p4 * ((th * th) * (th * th))) * Rpower r (2 - ai)).
Lemma th2_d : is_derive (fun y => th y * th y) x (2 * th x * th').
Proof. eapply d_eq; [exact (d_mult th th x _ _ Ht Ht)|]. ring. Qed.
Lemma amu_d : is_derive (fun y => amu_ c (r y) (th y)) x hd.
Proof.
  unfold amu_, hd. fold d. eapply d_eq.
  - apply d_mult; [apply d_mult; [apply d_scal; apply (d_Rpower r d x r' Hr r0)|exact Ht]|]. apply d_minus; [apply d_const|exact th2_d].
  - cbv beta. ring.
Qed.
Lemma t_d : is_derive (fun y => r y * (1 - l_b2 c * (th y * th y))) x td.
Proof. unfold td. eapply d_eq; [apply d_mult; [exact Hr|apply d_minus; [apply d_const|apply d_scal; exact th2_d]]|]. cbv beta. ring. Qed.
(** the powers through two of them *)
Let A := Rpower (r x) (- ai).
Let B := Rpower (r x) (bi - 1).
Lemma A0 : A <> 0. Proof. unfold A, Rpower. apply Rgt_not_eq, exp_pos. Qed.
Lemma B0 : B <> 0. Proof. unfold B, Rpower. apply Rgt_not_eq, exp_pos. Qed.
Lemma up : forall e, Rpower (r x) (e + 1) = r x * Rpower (r x) e.
Proof. intros e. rewrite Rpower_plus, Rpower_1 by exact r0. ring. Qed.
Lemma A1 : Rpower (r x) (1 - ai) = r x * A. Proof. unfold A. rewrite <- up. f_equal. ring. Qed.
Lemma A2 : Rpower (r x) (2 - ai) = r x * (r x * A). Proof. rewrite <- A1, <- up. f_equal. ring. Qed.
Lemma A1' : Rpower (r x) (1 - ai - 1) = A. Proof. unfold A. f_equal. ring. Qed.
Lemma A2' : Rpower (r x) (2 - ai - 1) = r x * A. Proof. rewrite <- A1. f_equal. ring. Qed.
Lemma B1 : Rpower (r x) bi = r x * B. Proof. unfold B. rewrite <- up. f_equal. ring. Qed.
Lemma D1 : Rpower (r x) (d - 1) = A / B.
Proof.
  pose proof B0 as Bn. apply Rmult_eq_reg_r with B; [|exact Bn]. replace (A / B * B) with A by (field; exact Bn). unfold A, B. rewrite <- Rpower_plus. f_equal. unfold d, bi, ai. lra.
Qed.
Lemma D0 : Rpower (r x) d = r x * (A / B). Proof. rewrite <- D1, <- up. f_equal. ring. Qed.
Lemma G1 : Rpower (r x) (- (gam c - deli)) = B * B / A.
Proof.
  pose proof A0 as An. apply Rmult_eq_reg_r with A; [|exact An]. replace (B * B / A * A) with (B * B) by (field; exact An). unfold A, B. rewrite <- !Rpower_plus. f_equal. unfold gam, bi, ai. lra.
Qed.
Lemma hd_eq : hd = l_a c * (A / B) * (d * (th x * (1 - th x * th x)) * r' + r x * (1 - 3 * (th x * th x)) * th').
Proof. unfold hd. rewrite D0, D1. ring. Qed.

(** dPi = m dh + s dt *)
Lemma pi_d : is_derive (fun y => pi_ (r y) (th y)) x (mi (r x) (th x) * hd + si (r x) (th x) * td).
Proof.
  unfold pi_. destruct OP as [R1 [R2 [R3 [R4 R5]]]]. fold d in R3, R5. eapply d_eq.
  - apply d_scal. apply d_mult; [apply d_scal; apply d_plus; [apply d_plus; [apply d_const|apply d_scal; exact th2_d]|apply d_scal; apply d_mult; exact th2_d]|apply (d_Rpower r (2 - ai) x r' Hr r0)].
  - cbv beta. rewrite A2, A2'. unfold mi, si. rewrite A1, B1, hd_eq. unfold td. pose proof B0 as Bn.
    transitivity (l_a c * k * (r x * A) * (r' * ((2 - ai) * p0 + (2 - ai) * p2 * (th x * th x) + (2 - ai) * p4 * ((th x * th x) * (th x * th x))) + r x * th' * th x * (2 * p2 + 4 * p4 * (th x * th x)))); [ring|].
    rewrite R1, R2, R3, R4, R5. field. exact Bn.
Qed.
(** the derivatives of m and s *)
Lemma gx_eq : gx c (th x) = (1 - l_b2 c * (th x * th x)) * (1 - 3 * (th x * th x)) + 2 * l_b2 c * (th x * th x) * d * (1 - th x * th x).
Proof. unfold gx, ter, d. ring. Qed.
Lemma bi_eq : bi = 2 - ai - d. Proof. unfold bi, ai, d. lra. Qed.
Lemma m_d : l_a c <> 0 -> is_derive (fun y => mi (r y) (th y)) x (zi c deli k (r x) (th x) / l_a c * hd + yi c deli k (r x) (th x) * td).
Proof.
  intros a0. unfold mi. eapply d_eq; [apply d_scal; apply d_mult; [exact Ht|apply (d_Rpower r bi x r' Hr r0)]|].
  cbv beta. unfold zi, yi. fold bi d. rewrite G1, hd_eq, B1. fold B. unfold td. pose proof A0 as An. pose proof B0 as Bn. pose proof gx_eq as Eg. set (g := gx c (th x)) in *.
  apply Rmult_eq_reg_l with (g); [|exact G]. transitivity (k * B * (th' * r x + th x * bi * r') * g); [ring|]. rewrite Eg at 1.
  replace (g * ((1 - l_b2 c * (1 - 2 * bi) * (th x * th x)) * (B * B / A) * k / g / l_a c * (l_a c * (A / B) * (d * (th x * (1 - th x * th x)) * r' + r x * (1 - 3 * (th x * th x)) * th')) +
    (bi * (1 - 3 * (th x * th x)) * th x - d * (1 - th x * th x) * th x) * B * k / g * (r' * (1 - l_b2 c * (th x * th x)) - 2 * l_b2 c * r x * th x * th')))
    with (k * B * ((1 - l_b2 c * (1 - 2 * bi) * (th x * th x)) * (d * (th x * (1 - th x * th x)) * r' + r x * (1 - 3 * (th x * th x)) * th') +
    (bi * (1 - 3 * (th x * th x)) * th x - d * (1 - th x * th x) * th x) * (r' * (1 - l_b2 c * (th x * th x)) - 2 * l_b2 c * r x * th x * th'))) by (field; repeat split; assumption).
  ring.
Qed.
Lemma s_d : is_derive (fun y => si (r y) (th y)) x (yi c deli k (r x) (th x) * hd + l_a c * wi c deli k (q0 + q2 * (th x * th x)) (2 * q2 * th x) (r x) (th x) * td).
Proof.
  destruct OP as [R1 [R2 [R3 [R4 R5]]]]. fold d in R3, R5. unfold si. eapply d_eq.
  - apply d_mult; [apply d_scal_r; apply d_scal_r; apply d_plus; [apply d_const|apply d_scal; exact th2_d]|apply (d_Rpower r (1 - ai) x r' Hr r0)].
  - cbv beta. unfold yi, wi. fold ai bi d. rewrite A1, A1', hd_eq. fold A B. unfold td. pose proof A0 as An. pose proof B0 as Bn. pose proof gx_eq as Eg. pose proof bi_eq as Eb. set (g := gx c (th x)) in *.
    assert (Q2 : 2 * l_b2 c * ai * q2 = 3 * (2 - ai) - 4 * d) by (assert (4 * ((2 - ai) * p4) = (2 - ai) * (4 * p4)) by ring; rewrite R4, R5 in H; lra).
    assert (Q0 : 2 * l_b2 c * (1 - ai) * q0 = (2 - ai) - 2 * d - 2 * q2) by (assert (2 * ((2 - ai) * p2) = (2 - ai) * (2 * p2)) by ring; rewrite R2, R3 in H; lra).
    apply Rmult_eq_reg_l with g; [|exact G]. set (u := th x) in *. set (b := l_b2 c) in *.
    transitivity (l_a c * k * A * (g * (2 * q2 * u * r x * th' + (q0 + q2 * (u * u)) * (1 - ai) * r'))); [ring|].
    transitivity (l_a c * k * A * ((bi * (1 - 3 * (u * u)) * u - d * (1 - u * u) * u) * (d * (u * (1 - u * u)) * r' + r x * (1 - 3 * (u * u)) * th') +
      ((1 - ai) * (1 - 3 * (u * u)) * (q0 + q2 * (u * u)) - d * (1 - u * u) * u * (2 * q2 * u)) * (r' * (1 - b * (u * u)) - 2 * b * r x * u * th'))); [|field; repeat split; assumption].
    f_equal. rewrite Eg, Eb. clearbody u b g d A B ai. clear - Q0 Q2.
    assert (I1 : ((1 - b * (u * u)) * (1 - 3 * (u * u)) + 2 * b * (u * u) * d * (1 - u * u)) * ((q0 + q2 * (u * u)) * (1 - ai)) =
      ((2 - ai - d) * (1 - 3 * (u * u)) * u - d * (1 - u * u) * u) * (d * (u * (1 - u * u))) + ((1 - ai) * (1 - 3 * (u * u)) * (q0 + q2 * (u * u)) - d * (1 - u * u) * u * (2 * q2 * u)) * (1 - b * (u * u))) by nsatz.
    assert (I2 : ((1 - b * (u * u)) * (1 - 3 * (u * u)) + 2 * b * (u * u) * d * (1 - u * u)) * (2 * q2 * u) =
      ((2 - ai - d) * (1 - 3 * (u * u)) * u - d * (1 - u * u) * u) * (1 - 3 * (u * u)) - ((1 - ai) * (1 - 3 * (u * u)) * (q0 + q2 * (u * u)) - d * (1 - u * u) * u * (2 * q2 * u)) * (2 * b * u)) by nsatz.
    match goal with |- ?g * (?P * r x * th' + ?Q * r') = _ => transitivity (g * Q * r' + r x * th' * (g * P)); [ring|] end.
    rewrite I1, I2. ring.
Qed.
End Term.
