(** The table of Haar, Gallagher and Kell against the derivatives of its function.  *)
From Coq Require Import List Bool Reals Lra Lia.
From Coquelicot Require Import Coquelicot.
From Verif Require Import RDeriv RDiff2 WaterModel WaterSpec HelmModel HelmJet HelmProofs HelmMore SoluteProofs.
Import ListNotations.
Open Scope R_scope.

Definition addTDD (a : helm) (e : R) : helm := mkHelm (h0 a) (hT a) (hD a) (hTT a) (hTD a) (hDD a) (hTTT a) (hTTD a) (hTDD a + e) (hDDD a).
Definition addTTT (a : helm) (e : R) : helm := mkHelm (h0 a) (hT a) (hD a) (hTT a) (hTD a) (hDD a) (hTTT a + e) (hTTD a) (hTDD a) (hDDD a).
Lemma pos_pp : forall t d, Upos t d -> posx t /\ posx d. Proof. intros t d H. exact H. Qed.

(** *** the parts without mistakes *)
Lemma hgk0_jet : jet Upos (fun t _ => hgk0 t).
Proof.
  unfold hgk0. apply (jet_add Upos (fun t _ => mkHelm _ _ _ _ _ _ _ _ _ _)).
  - apply jet_ext with (fun t d => hsep (dmul (dadd (cst hg_a0) (dmul (cst hg_a1) (mkDer t 1 0 0))) (dln t)) (cst 1)); [exact open_pos| |].
    + intros t d [Ht Hd]. generalize hg_a0, hg_a1. intros a b. eqs; field; lra.
    + apply (jet_sep posx posx (fun t => dmul (dadd (cst hg_a0) (dmul (cst hg_a1) (mkDer t 1 0 0))) (dln t)) (fun _ => cst 1)); [|apply j_cst|exact pos_pp].
      apply (jet1_mul posx (fun t => dadd (cst hg_a0) (dmul (cst hg_a1) (mkDer t 1 0 0)))); [|apply j_ln]. apply (jet1_add posx (fun _ => cst hg_a0)); [apply j_cst|].
      apply (jet1_mul posx (fun _ => cst hg_a1)); [apply j_cst|apply jet1_id].
  - apply (jet_sum _ Upos (fun (x : R * R) t _ => let '(a, e) := x in let aux := a * Rpower t e in
       mkHelm aux (aux * e / t) 0 (aux * e * (e - 1) / (t * t)) 0 0 (aux * e * (e - 1) * (e - 2) / (t * t * t)) 0 0 0)). intros [a e] _.
    apply jet_ext with (fun t d => hsep (dmul (cst a) (drp e t)) (cst 1)); [exact open_pos| |].
    + intros t d [Ht Hd]. cbv zeta. eqs; field; lra.
    + apply (jet_sep posx posx (fun t => dmul (cst a) (drp e t)) (fun _ => cst 1)); [|apply j_cst|exact pos_pp]. apply (jet1_mul posx (fun _ => cst a)); [apply j_cst|apply j_rp].
Qed.
Definition rel1 (d : R) (s S : helm) : Prop :=
  h0 s = h0 S /\ hT s = hT S /\ hTT s = hTT S /\ hTTT s = hTTT S /\ h0 s = d * hD S /\ hT s = d * hTD S /\ hTT s = d * hTTD S /\ hDD S = 0 /\ hTDD S = 0 /\ hDDD S = 0.
Lemma rel1_fold : forall t d (l : list (R * R)) s S, 0 < t -> rel1 d s S ->
  rel1 d (fold_left (fun s x => hadd s (let '(a, i) := x in let aux := d * a * Rpower t (1 - i) in
       mkHelm aux (- (aux * (i - 1) / t)) 0 (aux * (i - 1) * i / (t * t)) 0 0 (- (aux * (i - 1) * i * (i + 1) / (t * t * t))) 0 0 0)) l s)
    (fold_left (fun s x => hadd s (hsep (dmul (cst (fst x)) (drp (1 - snd x) t)) (mkDer d 1 0 0))) l S).
Proof.
  intros t d l. induction l as [|[a i] l IH]; intros s S Ht H; cbn [fold_left]; [exact H|]. apply IH; [exact Ht|].
  destruct H as [E1 [E2 [E3 [E4 [E5 [E6 [E7 [E8 [E9 E10]]]]]]]]]. unfold rel1, hadd, hsep, dmul, cst, drp. cbv zeta. hp. cbn [fst snd]. generalize (Rpower t (1 - i)). intro r.
  rewrite E8, E9, E10. split; [rewrite E1; ring|]. split; [rewrite E2; field; lra|]. split; [rewrite E3; field; lra|]. split; [rewrite E4; field; lra|].
  split; [rewrite E5; ring|]. split; [rewrite E6; field; lra|]. split; [rewrite E7; field; lra|]. split; [ring|split; ring].
Qed.
Lemma hgk1_jet : jet Upos hgk1.
Proof.
  apply jet_ext with (fun t d => hsum (fun x : R * R => hsep (dmul (cst (fst x)) (drp (1 - snd x) t)) (mkDer d 1 0 0)) hg_A1); [exact open_pos| |].
  - intros t d [Ht Hd]. unfold hgk1. cbv zeta.
    assert (Z : rel1 d hzero hzero) by (unfold rel1, hzero; hp; repeat match goal with |- _ /\ _ => split end; ring).
    assert (Q := rel1_fold t d hg_A1 hzero hzero Ht Z). unfold hsum.
    match goal with H : rel1 d ?a ?b |- _ => set (s := a) in *; set (S := b) in * end. clearbody s S.
    destruct Q as [E1 [E2 [E3 [E4 [E5 [E6 [E7 [E8 [E9 E10]]]]]]]]]. apply helm_eq; hp; try congruence; symmetry; [rewrite E5|rewrite E6|rewrite E7]; field; lra.
  - apply (jet_sum _ Upos (fun (x : R * R) t d => hsep (dmul (cst (fst x)) (drp (1 - snd x) t)) (mkDer d 1 0 0))). intros [a e] _. cbn [fst snd].
    apply (jet_sep posx posx (fun t => dmul (cst a) (drp (1 - e) t)) (fun d => mkDer d 1 0 0)); [|apply jet1_id|exact pos_pp]. apply (jet1_mul posx (fun _ => cst a)); [apply j_cst|apply j_rp].
Qed.
(** t^-l *)
Definition dnp (l : nat) (x : R) : der := mkDer (/ x ^ l) (- INR l / x * / x ^ l) ((- INR l - 1) / x * (- INR l / x * / x ^ l)) ((- INR l - 2) / x * ((- INR l - 1) / x * (- INR l / x * / x ^ l))).
Definition dinv (x : R) : der := mkDer (/ x) (- / x ^ 2) (2 / x ^ 3) (-6 / x ^ 4).
Lemma open_posx : open1 posx.
Proof.
  intros x Hx. exists (mkposreal x Hx). intros y Hy. unfold ball in Hy; cbn in Hy. unfold AbsRing_ball, abs, minus, plus, opp in Hy; cbn in Hy. apply Rabs_def2 in Hy. unfold posx. lra.
Qed.
Lemma j_np : forall l, jet1 posx (dnp l).
Proof.
  intro l. apply jet1_ext with (fun x => dcomp dinv (dpow l x)); [exact open_posx| |].
  - intros x Hx. unfold posx in Hx. assert (N : x ^ l <> 0) by (apply pow_nonzero; lra). unfold dcomp, dinv, dpow, dnp. cbv zeta. hp.
    generalize dependent (x ^ l). intros p N. f_equal; field; split; lra.
  - apply (jet1_comp nzx posx dinv); [exact jet1_inv|apply j_powp|]. intros x Hx. unfold posx, nzx, dpow in *. hp. apply pow_nonzero. lra.
Qed.
Definition dz (x : R) : der := let z := 1 - exp (- hg_z0 * x) in mkDer z (hg_z0 * (1 - z)) (- hg_z0 * (hg_z0 * (1 - z))) (- hg_z0 * (- hg_z0 * (hg_z0 * (1 - z)))).
Lemma j_z : forall V, jet1 V dz.
Proof.
  intros V x _. assert (K : is_derive (fun x : R => 1 - exp (- hg_z0 * x)) x (hg_z0 * (1 - (1 - exp (- hg_z0 * x))))).
  { generalize hg_z0. intro c. eapply d_eq; [dr|cbv beta; ring]. }
  unfold dz. cbv zeta. split; [|split]; hp; [exact K| |].
  - eapply d_eq; [exact (d_scal _ hg_z0 x _ (d_minus _ _ _ _ _ (d_const 1 x) K))|ring].
  - eapply d_eq; [exact (d_scal _ (- hg_z0) x _ (d_scal _ hg_z0 x _ (d_minus _ _ _ _ _ (d_const 1 x) K)))|ring].
Qed.
Lemma z_rng : forall d, 0 < d -> 0 < 1 - exp (- hg_z0 * d) < 1.
Proof.
  intros d Hd. assert (P := exp_pos (- hg_z0 * d)). split; [|lra]. assert (Q : exp (- hg_z0 * d) < 1); [|lra]. rewrite <- exp_0. apply exp_increasing.
  assert (Z : 0 < hg_z0) by (unfold hg_z0; lra). assert (S := Rmult_lt_0_compat _ _ Z Hd). lra.
Qed.
Lemma hg_lam_jet : forall a k l, a <> 0 -> jet Upos (hg_lam (a, k, l)).
Proof.
  intros a k l Ha. apply jet_ext with (fun t d => hsep (dnp l t) (dmul (cst a) (dcomp (dpow k) (dz d)))); [exact open_pos| |].
  - intros t d [Ht Hd]. assert (Z := z_rng d Hd). unfold hg_lam, dz. cbv zeta. assert (N : t ^ l <> 0) by (apply pow_nonzero; lra).
    assert (Z0 : hg_z0 <> 0) by (unfold hg_z0; lra).
    generalize dependent (1 - exp (- hg_z0 * d)). intros z Z. assert (N2 : z ^ k <> 0) by (apply pow_nonzero; lra). unfold dnp, hsep, dmul, dcomp, cst, dpow. cbv zeta. hp.
    generalize dependent hg_z0. intros c Z0. generalize dependent (t ^ l). generalize dependent (z ^ k). generalize (INR k), (INR l).
    intros a1 a2 a3 N2 a4 N.
    apply helm_eq; hp; field; repeat split; lra.
  - apply (jet_sep posx posx (dnp l) (fun d => dmul (cst a) (dcomp (dpow k) (dz d)))); [apply j_np| |exact pos_pp].
    apply (jet1_mul posx (fun _ => cst a)); [apply j_cst|]. apply (jet1_comp nzx posx (dpow k)); [apply j_pow|apply j_z|]. intros x Hx. unfold dz, nzx. cbv zeta. hp. assert (Q := z_rng x Hx). lra.
Qed.
Lemma hgk3_jet : jet Upos hgk3.
Proof.
  unfold hgk3. apply (jet_sum _ Upos hg_lam). intros x Hx. unfold hg_A3 in Hx. inlist Hx; subst x; apply hg_lam_jet; lra.
Qed.
(** *** the Gaussian terms: one mistake *)
Definition daff (r x : R) : der := mkDer ((x - r) / r) (1 / r) 0 0.
Lemma j_aff : forall V r, r <> 0 -> jet1 V (daff r).
Proof. intros V r Hr x _. unfold daff. split; [|split]; hp; [|apply d_const..]. eapply d_eq; [dr|cbv beta; field]; exact Hr. Qed.
Definition dgt (be ti t : R) : der := let tau := (t - ti) / ti in dcomp dexp (mkDer (- be * tau * tau) (-2 * be * tau / ti) (-2 * be / ti / ti) 0).
Lemma j_gt : forall V be ti, ti <> 0 -> jet1 V (dgt be ti).
Proof.
  intros V be ti N. unfold dgt. cbv zeta. apply (jet1_comp anyx V dexp (fun t => mkDer (- be * ((t - ti) / ti) * ((t - ti) / ti)) (-2 * be * ((t - ti) / ti) / ti) (-2 * be / ti / ti) 0)); [apply j_exp| |now intros].
  intros x _. split; [|split]; hp; [| |apply d_const]; (eapply d_eq; [dr|cbv beta; field]; exact N).
Qed.
Definition dgd (a : R) (m n : nat) (al ri d : R) : der := dmul (dmul (cst a) (dcomp (dpow n) (daff ri d))) (dcomp dexp (dmul (cst (- al)) (dcomp (dpow m) (daff ri d)))).
Definition hg_th_true (p : R * nat * nat * R * R * R * R) (t d : R) : helm := let '(a, m, n, al, be, ri, ti) := p in hsep (dgt be ti t) (dgd a m n al ri d).
Definition Ucen (ri t d : R) : Prop := 0 < t /\ 0 < d /\ d <> ri.
Definition cen (p : R * nat * nat * R * R * R * R) : R := let '(a, m, n, al, be, ri, ti) := p in ri.
Definition pok (p : R * nat * nat * R * R * R * R) : Prop := let '(a, m, n, al, be, ri, ti) := p in ri <> 0 /\ ti <> 0.
Lemma hg_th_true_jet : forall p, pok p -> jet (Ucen (cen p)) (hg_th_true p).
Proof.
  intros [[[[[[a m] n] al] be] ri] ti] [Hr Ht]. unfold hg_th_true, cen.
  apply (jet_sep posx (fun d => d <> ri) (dgt be ti) (dgd a m n al ri)); [now apply j_gt| |intros t d [A [B C]]; now split].
  assert (NZ : forall x, x <> ri -> nzx (d0 (daff ri x))).
  { intros x Hx. unfold daff, nzx; hp. apply Rmult_integral_contrapositive_currified; [lra|now apply Rinv_neq_0_compat]. }
  assert (J : forall k, jet1 (fun d => d <> ri) (fun d => dcomp (dpow k) (daff ri d))) by (intro k; apply (jet1_comp nzx _ (dpow k)); [apply j_pow|now apply j_aff|exact NZ]).
  unfold dgd. apply (jet1_mul _ (fun d => dmul (cst a) (dcomp (dpow n) (daff ri d)))).
  - apply (jet1_mul _ (fun _ => cst a)); [apply j_cst|apply J].
  - apply (jet1_comp anyx _ dexp); [apply j_exp| |now intros]. apply (jet1_mul _ (fun _ => cst (- al))); [apply j_cst|apply J].
Qed.
(** psi_r * (theta_r - theta_t) *)
Definition err4 (p : R * nat * nat * R * R * R * R) (t d : R) : R :=
  let '(a, m, n, al, be, ri, ti) := p in
  let delta := (d - ri) / ri in let tau := (t - ti) / ti in
  let psi := (INR n - al * INR m * delta ^ m) / ri / delta in let psi_r := - (INR n + al * INR m * (INR m - 1) * delta ^ m) / ri / ri / delta / delta in
  psi_r * (a * delta ^ n * exp (- al * delta ^ m - be * tau * tau)) * (psi + 2 * be * tau / ti).
Lemma hg_th_fix : forall p t d, pok p -> d <> cen p -> hg_th p t d = addTDD (hg_th_true p t d) (err4 p t d).
Proof.
  intros [[[[[[a m] n] al] be] ri] ti] t d HP Hd. cbn [cen] in Hd. unfold pok in HP. destruct HP as [Hr Ht].
  assert (E : exp (- al * ((d - ri) / ri) ^ m - be * ((t - ti) / ti) * ((t - ti) / ti)) = exp (- al * ((d - ri) / ri) ^ m) * exp (- be * ((t - ti) / ti) * ((t - ti) / ti))) by (rewrite <- exp_plus; f_equal; ring).
  unfold hg_th, err4, hg_th_true, dgt, dgd, daff, dpow. cbv zeta. rewrite E. clear E.
  generalize ((d - ri) / ri). intro x. generalize ((t - ti) / ti). intro tau. unfold dexp.
  cbv beta iota zeta delta [dmul dcomp cst d0 d1 d2 d3].
  generalize (x ^ m), (x ^ n), (INR m), (INR n). intros a1 a2 a3 a4.
  generalize (exp (- al * a1)), (exp (- be * tau * tau)). intros e1 e2. unfold Rdiv. rewrite !Rmult_1_l. generalize (/ ri), (/ ti), (/ x). intros i1 i2 i3.
  unfold addTDD, hsep. hp. apply helm_eq; hp; ring.
Qed.
(** *** the repulsive part: two mistakes *)
Definition yr (t : R) : R := hg_y0 + hg_y1 * ln t + hg_y2 * / t ^ 3 + hg_y3 * / t ^ 5.
Definition dyr (t : R) : der := dadd (dadd (dadd (cst hg_y0) (dmul (cst hg_y1) (dln t))) (dmul (cst hg_y2) (dnp 3 t))) (dmul (cst hg_y3) (dnp 5 t)).
Lemma j_yr : jet1 posx dyr.
Proof.
  unfold dyr. apply (jet1_add posx (fun t => dadd (dadd (cst hg_y0) (dmul (cst hg_y1) (dln t))) (dmul (cst hg_y2) (dnp 3 t)))); [apply (jet1_add posx (fun t => dadd (cst hg_y0) (dmul (cst hg_y1) (dln t)))); [apply (jet1_add posx (fun t => cst hg_y0))|]|].
  - apply j_cst. - apply (jet1_mul posx (fun _ => cst hg_y1)); [apply j_cst|apply j_ln]. - apply (jet1_mul posx (fun _ => cst hg_y2)); [apply j_cst|apply j_np]. - apply (jet1_mul posx (fun _ => cst hg_y3)); [apply j_cst|apply j_np].
Qed.
Lemma hg_y_e : forall t d, Upos t d -> hsep (dyr t) (mkDer d 1 0 0) = hg_y t d.
Proof.
  intros t d [Ht Hd]. unfold hg_y, dyr, dln, dnp. cbv beta iota zeta delta [dmul dadd cst d0 d1 d2 d3]. generalize hg_y0, hg_y1, hg_y2, hg_y3. intros c0 c1 c2 c3. cbn [INR].
  unfold hsep. hp. apply helm_eq; hp; field; lra.
Qed.
Lemma hg_y_jet : jet Upos hg_y.
Proof.
  apply jet_ext with (fun t d => hsep (dyr t) (mkDer d 1 0 0)); [exact open_pos|exact hg_y_e|].
  apply (jet_sep posx posx dyr (fun d => mkDer d 1 0 0)); [apply j_yr|apply jet1_id|exact pos_pp].
Qed.
(** 1/(1-y) *)
Definition dinv1 (y : R) : der := let x := 1 / (1 - y) in mkDer x (x * x) (2 * x * x * x) (6 * x * x * x * x).
Lemma j_inv1 : jet1 (fun y => y < 1) dinv1.
Proof.
  intros y Hy. assert (N : 1 - y <> 0) by lra.
  assert (K : is_derive (fun y : R => 1 / (1 - y)) y (1 / (1 - y) * (1 / (1 - y)))) by (eapply d_eq; [dr; exact N|cbv beta; field; exact N]).
  unfold dinv1. cbv zeta. split; [|split]; hp; [exact K| |].
  - eapply d_eq; [exact (d_mult _ _ _ _ _ K K)|cbv beta; ring].
  - eapply d_eq; [exact (d_mult _ _ _ _ _ (d_mult _ _ _ _ _ (d_scal _ 2 y _ K) K) K)|cbv beta; ring].
Qed.
Definition Uy (t d : R) : Prop := 0 < t /\ 0 < d /\ d * yr t < 1.
Lemma Uy_y : forall t d, Uy t d -> h0 (hg_y t d) < 1. Proof. intros t d [_ [_ H]]. exact H. Qed.
Lemma Uy_pos : forall t d, Uy t d -> Upos t d. Proof. intros t d [A [B _]]. now split. Qed.
Definition x_true (t d : R) : helm := hcomp dinv1 (hg_y t d).
Lemma x_true_jet : jet Uy x_true.
Proof. unfold x_true. apply (jet_comp (fun y => y < 1) dinv1 Uy hg_y); [exact j_inv1|exact (jet_sub _ _ _ Uy_pos hg_y_jet)|exact Uy_y]. Qed.
Definition u_true (t d : R) : helm := hcomp dln (hmul (hsep (cst 1) (mkDer d 1 0 0)) (x_true t d)).
Lemma x_pos : forall t d, Uy t d -> 0 < h0 (x_true t d).
Proof. intros t d H. apply Uy_y in H. unfold x_true, hcomp, dinv1. cbv zeta. hp. apply Rdiv_lt_0_compat; lra. Qed.
Lemma u_true_jet : jet Uy u_true.
Proof.
  unfold u_true. apply (jet_comp posx dln Uy (fun t d => hmul (hsep (cst 1) (mkDer d 1 0 0)) (x_true t d))); [exact j_ln| |].
  - apply jet_mul; [|exact x_true_jet]. apply (jet_sep posx posx (fun _ => cst 1) (fun d => mkDer d 1 0 0)); [apply j_cst|apply jet1_id|intros t d H; exact (Uy_pos t d H)].
  - intros t d H. assert (P := x_pos t d H). destruct H as [A [B _]]. unfold hmul, hsep, cst, posx. hp. apply Rmult_lt_0_compat; lra.
Qed.
Definition s_true (t d : R) : helm :=
  let x := x_true t d in hmul (hsep (mkDer (hg_A20 * t) hg_A20 0 0) (cst 1)) (hadd (hadd (hadd (u_true t d) (hmul (hsep (cst hg_c1) (cst 1)) x)) (hmul (hsep (cst hg_c2) (cst 1)) (hmul x x))) (hmul (hsep (cst hg_c3) (cst 1)) (hg_y t d))).
Lemma s_true_jet : jet Uy s_true.
Proof.
  assert (K : forall c, jet Uy (fun _ _ => hsep (cst c) (cst 1))) by (intro c; apply (jet_sep posx posx (fun _ => cst c) (fun _ => cst 1)); [apply j_cst..|intros t d H; exact (Uy_pos t d H)]).
  assert (Y := jet_sub _ _ _ Uy_pos hg_y_jet).
  unfold s_true. cbv zeta. apply jet_mul; [|apply jet_add; [apply jet_add; [apply jet_add|]|]].
  - apply (jet_sep posx posx (fun t => mkDer (hg_A20 * t) hg_A20 0 0) (fun _ => cst 1)); [|apply j_cst|intros t d H; exact (Uy_pos t d H)].
    intros x _. split; [|split]; hp; [|apply d_const..]. eapply d_eq; [exact (d_scal _ hg_A20 x _ (d_id x))|ring].
  - exact u_true_jet.
  - apply jet_mul; [apply K|exact x_true_jet].
  - apply jet_mul; [apply K|apply jet_mul; exact x_true_jet].
  - apply jet_mul; [apply K|exact Y].
Qed.
(** what the code's x_rrt has too much, and what this makes of the sum *)
Definition xerr (y : helm) : R := let x := 1 / (1 - h0 y) in 2 * (hTD y * (hD y * (x * x)) + hDD y * (hT y * (x * x))) * (1 - x).
Lemma hg_x_fix : forall y, h0 y < 1 -> hg_x y = addTDD (hcomp dinv1 y) (xerr y).
Proof.
  intros [y0 y1 y2 y3 y4 y5 y6 y7 y8 y9] H. cbn [h0] in H. unfold hg_x, xerr, addTDD, hcomp, dinv1. cbv zeta. hp. generalize (1 / (1 - y0)). intro x. apply helm_eq; hp; ring.
Qed.
Lemma hg_u_fix : forall x d e, h0 x <> 0 -> d <> 0 -> hg_u (addTDD x e) d = addTDD (hcomp dln (hmul (hsep (cst 1) (mkDer d 1 0 0)) x)) (e / h0 x).
Proof.
  intros [x0 x1 x2 x3 x4 x5 x6 x7 x8 x9] d e H Hd. cbn [h0] in H. cbv beta iota zeta delta [hg_u addTDD hcomp dln hmul hsep cst d0 d1 d2 d3 h0 hT hD hTT hTD hDD hTTT hTTD hTDD hDDD].
  apply helm_eq; hp; try (field; now split). rewrite Rmult_1_l. reflexivity.
Qed.
Lemma hg_s_fix : forall u x y t e e', t <> 0 -> hg_s (addTDD u e) (addTDD x e') y t =
  addTTT (addTDD (hmul (hsep (mkDer (hg_A20 * t) hg_A20 0 0) (cst 1)) (hadd (hadd (hadd u (hmul (hsep (cst hg_c1) (cst 1)) x)) (hmul (hsep (cst hg_c2) (cst 1)) (hmul x x))) (hmul (hsep (cst hg_c3) (cst 1)) y)))
    (hg_A20 * t * (e + hg_c1 * e' + 2 * hg_c2 * h0 x * e'))) (- (3 * (hg_A20 * (h0 u + hg_c1 * h0 x + hg_c2 * h0 x * h0 x + hg_c3 * h0 y)) / (t * t))).
Proof.
  intros [u0 u1 u2 u3 u4 u5 u6 u7 u8 u9] [x0 x1 x2 x3 x4 x5 x6 x7 x8 x9] [y0 y1 y2 y3 y4 y5 y6 y7 y8 y9] t e e' H.
  unfold hg_s. cbv zeta. generalize hg_A20, hg_c1, hg_c2, hg_c3. intros A c1 c2 c3. cbv beta iota delta [addTTT addTDD hmul hadd hsep cst d0 d1 d2 d3 h0 hT hD hTT hTD hDD hTTT hTTD hTDD hDDD].
  apply helm_eq; hp; field; exact H.
Qed.
