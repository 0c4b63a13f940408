(** Lemmas: the statements and examples of P_LvsFlow. *)
From Coq Require Import List Reals Lra Lia Bool Psatz.
From Coquelicot Require Import Coquelicot.
From Verif Require Import RDeriv LvsModel LvsSpec LvsTab LvsFlow LvsFlowPf LvsDome.
Open Scope R_scope.
Lemma sat_equilibrium : forall c, lvs_constants c -> 1 < l_b2 c -> forall T, 0 < T < l_Tc c ->
  (solves c T (Dvap c T) (coex_r c T) (-1) /\ solves c T (Dliq c T) (coex_r c T) 1) /\
  (Pof c T (coex_r c T) (-1) = sat_P c T /\ Pof c T (coex_r c T) 1 = sat_P c T) /\
  (Dvap c T <> 0 -> Dliq c T <> 0 -> h_G (thmSat c T (-1)) = h_G (thmSat c T 1)).
Proof.
  intros c K b T h. destruct (densities c T) as [A B]. rewrite A, B. split; [split; apply sat_solves; try assumption; unfold side; auto|]. split; [split; apply P_sat; unfold side; auto|].
  intros u v. apply (G_sat c K T h); [rewrite A; exact u|rewrite B; exact v].
Qed.
Lemma den_both : forall pf P D, den_Dmin <= D <= den_Dmax -> den_Dmin <= fst (den_loop pf P 20 D) <= den_Dmax /\
  (snd (den_loop pf P 20 D) = true -> exists D0 Pn sl two, pf D0 = (Pn, sl, two) /\ (sl <> 0 -> Rabs (Pn - P) <= 1 / 10 ^ 6 * Rabs (fst (den_loop pf P 20 D)) * Rabs sl)).
Proof. intros pf P D h. split; [exact (den_range pf P 20 D h)|]. intros e. exact (settled_close pf P _ (den_settled pf P 20 D e)). Qed.
Lemma den_silent : exists pf P, (forall D, fst (fst (pf D)) = P -> ~ den_Dmin <= D <= den_Dmax) /\ den_Dmin <= denLVS_ 322.778 pf P <= den_Dmax.
Proof.
  exists flat, 500. split; [intros D e; unfold flat in e; cbn in e; subst D; unfold den_Dmax; lra|]. rewrite (proj1 silent). unfold den_Dmin, den_Dmax. lra.
Qed.
Definition halving (T : R) : R * R := ((T - 600) / 2, 600 + (T - 600) / 2).
Lemma halving_iter : forall k T, ts_iter halving k T = 600 + (T - 600) / 2 ^ k.
Proof.
  induction k as [|k IH]; intros T; cbn [ts_iter halving snd]; [cbn [pow]; field|]. rewrite IH. cbn [pow]. field. apply pow_nonzero. lra.
Qed.
Lemma halving_slow : (forall k, (k < 20)%nat -> unconverged halving (ts_iter halving k 646)) /\ ~ unconverged halving (ts_iter halving 30 646).
Proof.
  split.
  - intros k h. unfold unconverged. rewrite halving_iter. cbn [halving fst snd]. assert (p : 0 < 2 ^ k) by (apply pow_lt; lra). assert (q : 2 ^ k <= 2 ^ 19) by (apply Rle_pow; [lra|lia]).
    assert (1 / 2 ^ 19 <= / 2 ^ k) by (unfold Rdiv; rewrite Rmult_1_l; apply Rinv_le_contravar; assumption). assert (/ 2 ^ k <= 1) by (rewrite <- Rinv_1; apply Rinv_le_contravar; [lra|apply pow_R1_Rle; lra]). set (u := / 2 ^ k) in *.
    replace ((600 + (646 - 600) / 2 ^ k - 600) / 2) with (23 * u) by (unfold u; field; lra). replace (600 + 23 * u) with (600 + 23 * u) by ring.
    assert (0 < u) by (apply Rinv_0_lt_compat; exact p). rewrite Rabs_right by (apply Rle_ge; left; apply Rdiv_lt_0_compat; lra).
    apply Rlt_le_trans with (23 * u / 700); [lra|]. unfold Rdiv. apply Rmult_le_compat_l; [lra|apply Rinv_le_contravar; lra].
  - unfold unconverged. rewrite halving_iter. cbn [halving fst snd]. intros z. set (u := (600 + (646 - 600) / 2 ^ 30 - 600) / 2) in *. assert (E : u = 23 / 2 ^ 30) by (unfold u; field). assert (0 < u <= 1 / 10 ^ 7) by (rewrite E; split; lra). clearbody u.
    rewrite Rabs_right in z by (apply Rle_ge; left; apply Rdiv_lt_0_compat; lra). apply Rmult_lt_compat_r with (r := 600 + u) in z; [|lra]. unfold Rdiv at 2 in z. rewrite Rmult_assoc, Rinv_l in z by lra. lra.
Qed.
Lemma rtheta_example : exists rho Tee, 0 < rho /\ 0 < Tee /\ rt_dz co_exact rho Tee (1 / 2) = 0 /\ 1 - 1 / 2 * (1 / 2) + 2 * l_b co_exact * (1 / 2 * (1 / 2)) <> 0 /\ 0 < Tee * (1 - 1 / 2 * (1 / 2)).
Proof.
  assert (bp : 0 < rt_bee co_exact) by (unfold rt_bee; apply sqrt_lt_R0; cbn; lra). assert (b : l_b co_exact = 325 / 1000) by reflexivity. assert (k : l_k0 co_exact = 14403 / 10000) by reflexivity.
  exists (14403 / 10000 / rt_bee co_exact * (1 / 2)), (3 / 4). split; [apply Rmult_lt_0_compat; [apply Rdiv_lt_0_compat; lra|lra]|]. split; [lra|]. split; [|rewrite b; split; lra].
  unfold rt_dz, rt_c. cbv zeta. rewrite k, b. replace (Rabs (1 - 1 / 2 * (1 / 2))) with (3 / 4) by (rewrite Rabs_right; lra). rewrite (Rabs_right (3 / 4)) by lra. set (q := Rpower (3 / 4) (325 / 1000)). assert (0 < q) by apply exp_pos. field. split; lra.
Qed.
Lemma sat_example : lvs_constants co_exact /\ 1 < l_b2 co_exact /\ 0 < 646 < l_Tc co_exact /\ 0 < l_k0 co_exact /\ 0 <= l_k1 co_exact /\ 0 < Dvap co_exact 646 < Dliq co_exact 646.
Proof.
  assert (b : 1 < l_b2 co_exact) by (cbn; lra). assert (t : 0 < 646 < l_Tc co_exact) by (cbn; lra). assert (k0 : 0 < l_k0 co_exact) by (cbn; lra). assert (k1 : 0 <= l_k1 co_exact) by (cbn; lra).
  split; [exact exact_constants|]. repeat (split; [assumption|]). split; [|exact (vap_liq co_exact exact_constants 646 k0 k1)].
  assert (E : dTw co_exact 646 = - (1067 / 646000)) by (unfold dTw, Tw; cbn [l_Tc co_exact]; field).
  assert (rb : 0 < coex_r co_exact 646 <= 1 / 16) by (unfold coex_r; rewrite E; cbn [l_b2 co_exact]; lra).
  unfold Dvap, rho1_, rho2_. apply Rmult_lt_0_compat; [cbn; lra|]. rewrite E. set (r := coex_r co_exact 646) in *.
  pose proof (below_half r (325 / 1000) rb ltac:(lra)). pose proof (below_half r (825 / 1000) rb ltac:(lra)).
  assert (N0 : ex_s0 al0 + ex_s2 al0 <= 0) by (unfold ex_s0, ex_p2, ex_s2, ex_p4, al0; lra). assert (N1 : ex_s0 al1 + ex_s2 al1 <= 0) by (unfold ex_s0, ex_p2, ex_s2, ex_p4, al1; lra).
  assert (S0 : s0 co_exact r (-1) <= 0). { unfold s0, sx0. cbn [l_s00 l_s20 l_a l_k0 l_al co_exact]. replace (-1 * -1) with 1 by ring. rewrite Rmult_1_r. assert (0 < Rpower r (1 - al0)) by apply exp_pos. set (p := Rpower r (1 - al0)) in *. set (z := ex_s0 al0 + ex_s2 al0) in *. nra. }
  assert (S1 : s1 co_exact r (-1) <= 0). { unfold s1, sx1. cbn [l_s01 l_s21 l_a l_k1 l_ali co_exact]. replace (-1 * -1) with 1 by ring. rewrite Rmult_1_r. assert (0 < Rpower r (1 - al1)) by apply exp_pos. set (p := Rpower r (1 - al1)) in *. set (z := ex_s0 al1 + ex_s2 al1) in *. nra. }
  cbn [l_p11 l_c l_k0 l_k1 l_b l_bi co_exact]. set (p := Rpower r (325 / 1000)) in *. set (q := Rpower r (825 / 1000)) in *. set (u := s0 co_exact r (-1)) in *. set (v := s1 co_exact r (-1)) in *. clearbody p q u v. lra.
Qed.
