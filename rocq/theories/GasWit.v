(** Numbers: states used as examples and counterexamples for the cubic equations of state. *)
From Coq Require Import List Bool Reals Lra Lia.
From Coquelicot Require Import Coquelicot.
From Verif Require Import RDeriv GasModel GasSpec GasCubic GasProofs GasDeriv GasMore GasPhase GasInst.
Open Scope R_scope.

Lemma sqrt4 : sqrt 4 = 2. Proof. replace 4 with (2 ^ 2) by ring. apply sqrt_pow2. lra. Qed.
Lemma sqrt16 : sqrt 16 = 4. Proof. replace 16 with (4 ^ 2) by ring. apply sqrt_pow2. lra. Qed.
Lemma sqrt14 : sqrt (1 / 4) = 1 / 2. Proof. replace (1 / 4) with ((1 / 2) ^ 2) by field. apply sqrt_pow2. lra. Qed.
Lemma AB_hot : forall a b T P, 0 < T -> 0 < P -> eA a T P <= eB b T P -> a <= b * Rgas * T.
Proof.
  intros a b T P HT HP H. assert (G := Rg_pos). rewrite Rgas_Rg. assert (RT := RT_pos T HT). assert (HK : 0 < (Rg * T) ^ 2 / P) by (apply Rdiv_lt_0_compat; [apply pow_lt; exact RT|exact HP]).
  apply Rmult_le_compat_r with (r := (Rg * T) ^ 2 / P) in H; [|lra]. unfold eA, eB in H.
  replace (a * P / (Rg ^ 2 * T ^ 2) * ((Rg * T) ^ 2 / P)) with a in H by (field; repeat split; lra). replace (b * P / (Rg * T) * ((Rg * T) ^ 2 / P)) with (b * Rg * T) in H by (field; repeat split; lra). exact H.
Qed.
(** *** Soave-Redlich-Kwong at four times the critical temperature *)
Lemma srk_ex : let a := a_srk 300 86.64 0 1200 in let b := b_srk 300 86.64 in
  b * 400 < 1000 * (Rgas * 1200) /\ regular (-1) (rk_a1 a b 1200 400) (rk_a0 a b 1200 400) /\ one_phase (eos_rk a b 1200) (gres_rk a b 1200 400) b 400.
Proof.
  intros a b. assert (EB : eB b 1200 400 = 1 / 10) by (unfold eB, b, b_srk; rewrite <- Rgas_Rg; unfold Rgas; lra).
  assert (EA : eA a 1200 400 = 42747 / 100000 * (1 - 48 / 100) ^ 2 * 300 ^ 2 / 86.64 * 400 / 1200 ^ 2). { unfold eA, a, a_srk, alpha. replace (1200 / 300) with 4 by lra. rewrite sqrt4, <- Rgas_Rg. unfold Rgas. lra. }
  split; [unfold b, b_srk, Rgas; lra|]. split; [unfold regular, rk_a1, rk_a0; rewrite EB, EA; unfold c_q, c_r; split; lra|].
  apply rk_hot; [apply b_srk_pos; lra|lra|apply a_srk_nn; lra|]. apply AB_hot with 400; lra.
Qed.
(** *** Peng-Robinson *)
Lemma k_pr0 : k_pr 0 = 37464 / 100000.
Proof. unfold k_pr. destruct (Rle_dec 0 0.491); lra. Qed.
Lemma pr_ex : let a := a_pr 300 77.7960739 0 1200 in let b := b_pr 300 77.7960739 in
  b * 400 < 1000 * (Rgas * 1200) /\ 0 < 1 + k_pr 0 * (1 - sqrt (1200 / 300)) /\
  regular (pr_a2 b 1200 400) (pr_a1 a b 1200 400) (pr_a0 a b 1200 400) /\ one_phase (eos_pr a b 1200) (gres_pr a b 1200 400) b 400.
Proof.
  intros a b. assert (EB : eB b 1200 400 = 1 / 10) by (unfold eB, b, b_pr; rewrite <- Rgas_Rg; unfold Rgas; lra). assert (Et : 1200 / 300 = 4) by lra.
  assert (EA : eA a 1200 400 = 457235529 / 1000000000 * (1 - 37464 / 100000) ^ 2 * 300 ^ 2 / 77.7960739 * 400 / 1200 ^ 2). { unfold eA, a, a_pr, alpha. rewrite Et, sqrt4, <- Rgas_Rg, k_pr0. unfold Rgas. lra. }
  split; [unfold b, b_pr, Rgas; lra|]. split; [rewrite Et, sqrt4, k_pr0; lra|]. split; [unfold regular, pr_a2, pr_a1, pr_a0; rewrite EB, EA; unfold c_q, c_r; split; lra|].
  apply pr_hot; [apply b_pr_pos; lra|lra|apply a_pr_nn; lra|]. apply AB_hot with 400; lra.
Qed.
Lemma sv_ex : let a := a_sv 300 77.796 0 1 0 0 1200 in let b := b_sv 300 77.796 in
  b * 400 < 1000 * (Rgas * 1200) /\ 0 < 1 + k_sv 0 0 0 0 (1200 / 300) * (1 - sqrt (1200 / 300)) /\
  regular (pr_a2 b 1200 400) (pr_a1 a b 1200 400) (pr_a0 a b 1200 400) /\ one_phase (eos_pr a b 1200) (gres_pr a b 1200 400) b 400.
Proof.
  intros a b. assert (EB : eB b 1200 400 = 1 / 10) by (unfold eB, b, b_sv; rewrite <- Rgas_Rg; unfold Rgas; lra). assert (Et : 1200 / 300 = 4) by lra. assert (Ek : k_sv 0 0 0 0 4 = 378893 / 1000000) by (unfold k_sv; lra).
  assert (EA : eA a 1200 400 = 457235 / 1000000 * (1 - 378893 / 1000000) ^ 2 * 300 ^ 2 / 77.796 * 400 / 1200 ^ 2). { unfold eA, a, a_sv, alpha. destruct (Rle_dec 300 1200); [|lra]. rewrite Et, sqrt4, <- Rgas_Rg, Ek. unfold Rgas. lra. }
  split; [unfold b, b_sv, Rgas; lra|]. split; [rewrite Et, sqrt4, Ek; lra|]. split; [unfold regular, pr_a2, pr_a1, pr_a0; rewrite EB, EA; unfold c_q, c_r; split; lra|].
  apply pr_hot; [apply b_sv_pos; lra|lra|apply a_sv_nn; lra|]. apply AB_hot with 400; lra.
Qed.
(** a cubic with falling linear part has one root *)
Lemma one_root_phase : forall a b T P, 0 < b -> 0 < T -> 0 < P -> c_q (pr_a2 b T P) (pr_a1 a b T P) <= 0 -> one_phase (eos_pr a b T) (gres_pr a b T P) b P.
Proof.
  intros a b T P Hb HT HP Hq v u Hv Hu Ev Eu _. assert (G := Rg_pos). apply (eos_pr_poly a b T P Hb HT HP v Hv) in Ev. apply (eos_pr_poly a b T P Hb HT HP u Hu) in Eu.
  change (poly (pr_a2 b T P) (pr_a1 a b T P) (pr_a0 a b T P) (v * P / (Rg * T)) = 0) in Ev. change (poly (pr_a2 b T P) (pr_a1 a b T P) (pr_a0 a b T P) (u * P / (Rg * T)) = 0) in Eu.
  rewrite depressed' in Ev, Eu. set (q := c_q _ _) in *. set (x := v * P / (Rg * T) + pr_a2 b T P / 3) in *. set (y := u * P / (Rg * T) + pr_a2 b T P / 3) in *.
  assert (Exy : x = y). { assert (Z : (x - y) * (x ^ 2 + x * y + y ^ 2 - 3 * q) = 0) by nra. apply Rmult_integral in Z. destruct Z as [Z|Z]; [lra|]. assert (Hy2 := pow2_ge_0 y). assert (Hx2 := pow2_ge_0 x). assert (Hxy := pow2_ge_0 (x + y)). assert (x ^ 2 = 0 /\ y ^ 2 = 0) as [X0 Y0] by (split; nra). simpl in X0, Y0. rewrite Rmult_1_r in X0, Y0. apply Rsqr_0_uniq in X0, Y0. lra. }
  rewrite <- (zv T P HT HP v), <- (zv T P HT HP u). replace (v * P / (Rg * T)) with (u * P / (Rg * T)) by (unfold x, y in Exy; lra). reflexivity.
Qed.
(** far above the critical temperature the square root of alpha is taken with the wrong sign *)
Lemma pr78_hot : exists F : R -> fug, locally 1600 (fun t => pr78_pure PI 100 77.7960739 0 t 1600 = Some (F t)) /\ exists l, is_derive (fun t => f_g (F t)) 1600 l /\ l <> - f_s (F 1600) /\ f_g (F 1600) = f_h (F 1600) - 1600 * f_s (F 1600).
Proof.
  set (b := b_pr 100 77.7960739). set (a := a_pr 100 77.7960739 0 1600). assert (EB : eB b 1600 1600 = 1 / 10) by (unfold eB, b, b_pr; rewrite <- Rgas_Rg; unfold Rgas; lra). assert (Et : 1600 / 100 = 16) by lra.
  assert (EA : eA a 1600 1600 = 457235529 / 1000000000 * (1 - 3 * 37464 / 100000) ^ 2 * 100 ^ 2 / 77.7960739 * 1600 / 1600 ^ 2). { unfold eA, a, a_pr, alpha. rewrite Et, sqrt16, <- Rgas_Rg, k_pr0. unfold Rgas. lra. }
  assert (Hc : 0 < 100) by lra. assert (Hp : 0 < 77.7960739) by lra. assert (HT : 0 < 1600) by lra.
  assert (Da := proj1 (attr_d (pr_ac 100 77.7960739) (pr_kappa 0) 100 1600 Hc HT)). cbv zeta beta in Da. rewrite Et, sqrt16 in Da. 
  assert (Ea : e_a (pr_ab 100 77.7960739 0 1600) = a) by apply pr_a_eq.
  assert (Eac : a = (12392 / 100000) ^ 2 * pr_ac 100 77.7960739). { unfold a, a_pr, alpha, pr_ac. rewrite Et, sqrt16, k_pr0, Rgas_Rg. unfold Rg. lra. }
  assert (Pac := pr_ac_pos 100 77.7960739 Hc Hp).
  assert (Ek : pr_kk (pr_ac 100 77.7960739) 100 1600 a = Some ((12392 / 100000 - 1) / (1 - 4) * 4 / (12392 / 100000))).
  { unfold pr_kk. rewrite Eac. replace ((12392 / 100000) ^ 2 * pr_ac 100 77.7960739 / pr_ac 100 77.7960739) with ((12392 / 100000) ^ 2) by (field; lra). rewrite sqrt_pow2 by lra. rewrite Et, sqrt16. destruct (Req_EM_T (1 - 4) 0); [lra|reflexivity]. }
  eapply (pr_wrong (pr_ac 100 77.7960739) 100 b (pr_ab 100 77.7960739 0) 1600 1600 _ (b_pr_pos _ _ Hc Hp) Hc (fun t Ht => pr_He 100 77.7960739 0 t Hc Hp Ht) HT HT Da).
  - lra.
  - unfold b, b_pr, Rgas. lra.
  - rewrite Ea. unfold regular, pr_a2, pr_a1, pr_a0. rewrite EB, EA. unfold c_q, c_r. split; lra.
  - rewrite Ea. apply pr_hot; [apply b_pr_pos; lra|lra|apply a_pr_nn; lra|]. apply AB_hot with 1600; lra.
  - rewrite Ea. exact Ek.
  - rewrite Ea, Eac, pr_kappa_eq, k_pr0. set (c := pr_ac 100 77.7960739) in *. clearbody c. lra.
Qed.
(** below the critical temperature the change of kappa is forgotten in the enthalpy *)
Lemma sv_attr_d : forall Tc Pc w k1 T, 0 < Tc -> 0 < T -> T < Tc -> is_derive (fun t => e_a (sv_ab Tc Pc w k1 0 0 t)) T (e_da (sv_ab Tc Pc w k1 0 0 T)).
Proof.
  intros Tc Pc w k1 T Hc HT Hlt. assert (Hr : 0 < T / Tc) by (now apply Rdiv_lt_0_compat). assert (Hs := sqrt_lt_R0 _ Hr).
  apply is_derive_ext_loc with (fun t => (1 + (sv_k0 w + k1 * (1 + sqrt (t / Tc)) * (7 / 10 - t / Tc)) * (1 - sqrt (t / Tc))) ^ 2 * sv_ac Tc Pc).
  - generalize (near_lt _ _ Hlt). apply filter_imp. intros t Ht. unfold sv_ab. cbn [e_a]. destruct (Rle_dec Tc t); [lra|]. match goal with |- ?x = ?y => change (@eq R x y) end. f_equal. ring.
  - assert (Ds : is_derive (fun t => sqrt (t / Tc)) T (/ (2 * sqrt (T / Tc) * Tc))). { eapply d_eq; [apply (d_sqrt (fun t => t / Tc)); [unfold Rdiv; apply d_scal_r, d_id|exact Hr]|]. field. lra. }
    unfold sv_ab. cbn [e_da]. destruct (Rle_dec Tc T); [lra|]. eapply d_eq.
    + apply d_scal_r, d_pow, d_plus; [apply d_const|]. apply d_mult; [|apply d_minus; [apply d_const|exact Ds]]. apply d_plus; [apply d_const|]. apply d_mult; [apply d_scal, d_plus; [apply d_const|exact Ds]|]. apply d_minus; [apply d_const|unfold Rdiv; apply d_scal_r, d_id].
    + cbv beta. cbn [INR pred]. set (s := sqrt (T / Tc)) in *. set (Tr := T / Tc). field. lra.
Qed.
Lemma prsv_k1 : exists F : R -> fug, locally 100 (fun t => prsv_pure PI 400 77.796 0 1 0 0 t 250 = Some (F t)) /\ exists l, is_derive (fun t => f_g (F t)) 100 l /\ l <> - f_s (F 100) /\ f_g (F 100) = f_h (F 100) - 100 * f_s (F 100).
Proof.
  set (b := b_sv 400 77.796). set (a := a_sv 400 77.796 0 1 0 0 100). assert (EB : eB b 100 250 = 1) by (unfold eB, b, b_sv; rewrite <- Rgas_Rg; unfold Rgas; lra). assert (Et : 100 / 400 = 1 / 4) by lra.
  assert (Hc : 0 < 400) by lra. assert (Hp : 0 < 77.796) by lra. assert (HT : 0 < 100) by lra. assert (HP : 0 < 250) by lra. set (q := 1 + (378893 / 1000000 + 3 / 2 * (45 / 100)) / 2).
  assert (Pac := sv_ac_pos 400 77.796 Hc Hp).
  assert (Eac : a = q ^ 2 * sv_ac 400 77.796). { unfold a, a_sv, alpha, sv_ac, q. destruct (Rle_dec 400 100); [lra|]. unfold k_sv. rewrite Et, sqrt14, Rgas_Rg. unfold Rg. lra. }
  assert (EA : eA a 100 250 = 457235 / 1000000 * q ^ 2 * 400 ^ 2 / 77.796 * 250 / 100 ^ 2). { unfold eA. rewrite Eac. unfold sv_ac, q, Rg. lra. }
  assert (Ea : e_a (sv_ab 400 77.796 0 1 0 0 100) = a) by apply sv_a_eq.
  assert (Ek : pr_kk (sv_ac 400 77.796) 400 100 a = Some ((q - 1) / (1 - 1 / 2) * (1 / 2) / q)).
  { unfold pr_kk. rewrite Eac. replace (q ^ 2 * sv_ac 400 77.796 / sv_ac 400 77.796) with (q ^ 2) by (field; lra). rewrite sqrt_pow2 by (unfold q; lra). rewrite Et, sqrt14. destruct (Req_EM_T (1 - 1 / 2) 0); [lra|reflexivity]. }
  eapply (pr_wrong (sv_ac 400 77.796) 400 b (sv_ab 400 77.796 0 1 0 0) 100 250 _ (b_sv_pos _ _ Hc Hp) Hc (fun t Ht => sv_He 400 77.796 0 1 0 0 t Hc Hp Ht) HT HP (sv_attr_d 400 77.796 0 1 100 Hc HT _)).
  - lra.
  - unfold b, b_sv, Rgas. lra.
  - rewrite Ea. unfold regular, pr_a2, pr_a1, pr_a0. rewrite EB, EA. unfold c_q, c_r, q. split; lra.
  - rewrite Ea. apply one_root_phase; [apply b_sv_pos; lra|lra|lra|]. unfold pr_a2, pr_a1, pr_a0. rewrite EB, EA. unfold c_q, q. lra.
  - rewrite Ea. exact Ek.
  - rewrite Ea, Eac. unfold sv_ab. cbn [e_da]. destruct (Rle_dec 400 100); [lra|]. rewrite Et, sqrt14. set (c := sv_ac 400 77.796) in *. clearbody c. unfold q, sv_k0. lra.
  Unshelve. lra.
Qed.
