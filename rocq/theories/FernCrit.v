(** The dielectric constant of Fernandez et al. at the critical point. *)
From Coq Require Import List Bool ZArith Reals Lra Psatz.
From Verif Require Import FernModel FernPf.
Open Scope R_scope.
Lemma g_crit_tight : 1.6508 < f_g f_Tc f_rhoc < 1.6528.
Proof.
  unfold f_g. replace (f_Tc / f_Tc) with 1 by (field; apply Rgt_not_eq, c_Tc). replace (f_rhoc / f_rhoc) with 1 by (field; unfold f_rhoc; lra).
  assert (P1 : forall y, Rpower 1 y = 1) by (intro y; unfold Rpower; rewrite ln_1, Rmult_0_r; apply exp_0).
  assert (Hb : 1 < f_base f_Tc). { unfold f_base. replace (f_Tc / f_Tc) with 1 by (field; apply Rgt_not_eq, c_Tc). unfold f_Tc. lra. }
  assert (Hp : 1 < Rpower (f_base f_Tc) 1.2) by (rewrite <- (Rpower_O (f_base f_Tc)) by lra; apply Rpower_lt; lra).
  set (p := Rpower (f_base f_Tc) 1.2) in *. assert (I1 : / p < 1) by (rewrite <- Rinv_1; apply Rinv_lt_contravar; lra). assert (I0 : 0 < / p) by (apply Rinv_0_lt_compat; lra).
  unfold fTerms. cbn [fold_left fst snd]. rewrite !P1, !pow1. unfold f_n11, Rdiv. set (q := / p) in *. split; lra.
Qed.
Lemma A_crit : 8.46 < f_A f_Tc f_rhoc < 8.475.
Proof.
  assert (G := g_crit_tight). assert (E : f_A f_Tc f_rhoc = f_Na * f_mu ^ 2 * f_rhoc / f_M / f_eps0 / f_k / f_Tc * f_g f_Tc f_rhoc) by (unfold f_A, Rdiv; ring).
  rewrite E. clear E. generalize dependent (f_g f_Tc f_rhoc). intros g G.
  assert (K : 5.126 < f_Na * f_mu ^ 2 * f_rhoc / f_M / f_eps0 / f_k / f_Tc < 5.127) by (unfold f_Na, f_mu, f_rhoc, f_M, f_eps0, f_k, f_Tc; split; lra).
  generalize dependent (f_Na * f_mu ^ 2 * f_rhoc / f_M / f_eps0 / f_k / f_Tc). intros k K. split; nra.
Qed.
Lemma B_crit : 0.0662 < f_B f_rhoc < 0.0663.
Proof. unfold f_B, f_Na, f_alfa, f_rhoc, f_M, f_eps0. split; lra. Qed.
Theorem eps_crit : exists e, epsilonF f_Tc f_rhoc = Some e /\ 5.35 < e < 5.37.
Proof.
  exists (f_eps (f_A f_Tc f_rhoc) (f_B f_rhoc)). split.
  - apply epsilonF_some; [unfold f_Tc; lra|]. assert (L := f_limit_bounds). unfold f_rhoc. unfold f_limit in *. lra.
  - assert (HA := A_crit). assert (HB := B_crit). generalize dependent (f_A f_Tc f_rhoc). generalize dependent (f_B f_rhoc). intros B HB A HA. unfold f_eps.
    assert (D : 104.3 < 9 + 2 * A + 18 * B + A ^ 2 + 10 * A * B + 9 * B ^ 2 < 104.65) by (split; nra).
    set (d := 9 + 2 * A + 18 * B + A ^ 2 + 10 * A * B + 9 * B ^ 2) in *.
    assert (S1 : 10.21 < sqrt d) by (rewrite <- (sqrt_square 10.21) by lra; apply sqrt_lt_1; lra).
    assert (S2 : sqrt d < 10.23) by (rewrite <- (sqrt_square 10.23) by lra; apply sqrt_lt_1; lra).
    generalize dependent (sqrt d). intros s S1 S2. split.
    + apply (Rmult_lt_reg_r (1 - B)); [lra|]. unfold Rdiv. rewrite (Rmult_assoc _ (/ (1 - B))), Rinv_l by lra. nra.
    + apply (Rmult_lt_reg_r (1 - B)); [lra|]. unfold Rdiv. rewrite (Rmult_assoc _ (/ (1 - B))), Rinv_l by lra. nra.
Qed.
