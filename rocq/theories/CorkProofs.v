(** Volumes, fugacities and residual functions of the compensated Redlich-Kwong fluids. *)
From Coq Require Import List Bool Reals Lra Lia.
From Coquelicot Require Import Coquelicot.
From Verif Require Import RDeriv GasModel GasSpec GasCubic GasProofs GasDeriv GasMore GasPhase CorkModel CorkSpec CorkCubic.
Open Scope R_scope.

Lemma RR_Rg : 1000 * RR = Rgas. Proof. unfold RR, Rgas. lra. Qed.
Lemma RR_Rg' : Rg = 1000 * RR. Proof. unfold RR, Rg. lra. Qed.
Lemma RR_pos : 0 < RR. Proof. unfold RR. lra. Qed.
Definition mrk_poly (a b T p : R) : R -> R := poly (mrk_cb T p) (mrk_cc a b T p) (mrk_cd a b T p).
Definition mrk_regular (a b T p : R) : Prop := regular (mrk_cb T p) (mrk_cc a b T p) (mrk_cd a b T p).
Section At.
Variables (a b T p : R).
Hypothesis Hb : 0 < b.
Hypothesis HT : 0 < T.
Hypothesis Hp : 0 < p.
Lemma s_pos : 0 < sqrt T. Proof. now apply sqrt_lt_R0. Qed.
Lemma RT_kpos : 0 < RR * T. Proof. generalize RR_pos. intros. now apply Rmult_lt_0_compat. Qed.
Lemma poly_at_b : mrk_poly a b T p b < 0.
Proof.
  assert (S := s_pos). assert (Q := RT_kpos). unfold mrk_poly, poly, mrk_cb, mrk_cc, mrk_cd.
  replace (b ^ 3 + -1 * RR * T / p * b ^ 2 + -1 * (b * RR * T + b ^ 2 * p - a / sqrt T) / p * b + -1 * a * b / (sqrt T * p)) with (- (2 * (b ^ 2 * (RR * T) / p))) by (field; split; lra).
  assert (0 < b ^ 2 * (RR * T) / p); [|lra]. apply Rdiv_lt_0_compat; [|exact Hp]. apply Rmult_lt_0_compat; [nra|exact Q].
Qed.
Lemma eos_poly : forall v, b < v -> eos_rk (att a T) b T v = 1000 * p <-> mrk_poly a b T p v = 0.
Proof.
  intros v Hv. assert (S := s_pos). assert (E : mrk_poly a b T p v = v * (v + b) * (v - b) / (1000 * p) * (1000 * p - eos_rk (att a T) b T v)).
  { unfold mrk_poly, poly, mrk_cb, mrk_cc, mrk_cd, eos_rk, att. rewrite <- RR_Rg. field. repeat split; lra. }
  rewrite E. split; intros H; [rewrite H; ring|]. apply Rmult_integral in H. destruct H as [H|H]; [|lra]. exfalso. revert H. apply Rgt_not_eq. apply Rdiv_lt_0_compat; [|lra]. apply Rmult_lt_0_compat; [apply Rmult_lt_0_compat|]; lra.
Qed.
Lemma lng_gres : forall v, b < v -> Rgas * T * mrk_lng a b T p v = gres_rk (att a T) b T (1000 * p) v.
Proof.
  intros v Hv. assert (S := s_pos). assert (Q := RT_kpos). unfold mrk_lng, gres_rk, att. rewrite <- RR_Rg.
  replace (1 + b / v) with ((v + b) / v) by (field; lra). replace (1000 * p * (v - b) / (1000 * RR * T)) with ((v - b) * p / (RR * T)) by (field; generalize RR_pos; lra). field. generalize RR_pos. repeat split; lra.
Qed.
Lemma h_hres : forall da d2a v, b < v -> mrk_h (mkAB a b da d2a) T p v = hres_rk (att a T) (datt a da T) b T (1000 * p) v.
Proof.
  intros da d2a v Hv. assert (S := s_pos). assert (G := RR_pos). unfold mrk_h, hres_rk, att, datt. cbn [e_a e_b e_da]. rewrite <- RR_Rg, RR_Rg'.
  replace (ln (v / (v + b))) with (- ln ((v + b) / v)).
  - assert (E : T = sqrt T * sqrt T) by (symmetry; apply sqrt_sqrt; lra). generalize dependent (sqrt T). intros q Hq E. rewrite E. field. repeat split; lra.
  - rewrite <- ln_Rinv by (apply Rdiv_lt_0_compat; lra). f_equal. field. lra.
Qed.
End At.
Lemma vol_log : forall b v p T, 0 < b -> 0 < T -> 0 < p -> b < v <-> (0 < (v - b) * p / (RR * T)).
Proof.
  intros b v p T Hb HT Hp. assert (Q := RT_kpos T HT). split; intros H.
  - apply Rdiv_lt_0_compat; [|exact Q]. apply Rmult_lt_0_compat; lra.
  - assert (K : 0 < (v - b) * p). { apply Rmult_lt_reg_r with (/ (RR * T)); [apply Rinv_0_lt_compat; exact Q|]. rewrite Rmult_0_l. exact H. }
    assert (0 < v - b); [|lra]. apply Rmult_lt_reg_r with p; [exact Hp|]. rewrite Rmult_0_l. exact K.
Qed.
(** what a result means *)
Lemma vf_inv : forall ph k T p v g, 0 < e_b (k_ab k) -> 0 < T -> 0 < p -> volume_fugacity PI ph k T p = Some (v, g) -> let a := e_a (k_ab k) in let b := e_b (k_ab k) in
  exists r, cork_cardano PI (mrk_cb T p) (mrk_cc a b T p) (mrk_cd a b T p) = Some r /\ b < chosen_root ph r /\
  v = chosen_root ph r + vir_v (k_p0 k) (k_c k) (k_d k) (k_e k) p /\ g = mrk_lng a b T p (chosen_root ph r) + vir_g (k_p0 k) (k_c k) (k_d k) (k_e k) p / (RR * T).
Proof.
  intros ph k T p v g Hb HT Hp. unfold volume_fugacity. cbv zeta. destruct (cork_cardano _ _ _ _) as [r|]; [|discriminate].
  destruct (Rlt_dec 0 ((chosen_root ph r - e_b (k_ab k)) * p / (RR * T))) as [L|L]; [|discriminate]. destruct (Rlt_dec 0 (1 + _ / _)) as [L'|L']; [|discriminate]. intros [= <- <-]. exists r. split; [reflexivity|]. split; [|split; reflexivity]. now apply (vol_log _ _ p T Hb HT Hp).
Qed.
Lemma vf_some : forall ph k T p r, 0 < e_b (k_ab k) -> 0 < T -> 0 < p -> let a := e_a (k_ab k) in let b := e_b (k_ab k) in
  cork_cardano PI (mrk_cb T p) (mrk_cc a b T p) (mrk_cd a b T p) = Some r -> b < chosen_root ph r ->
  volume_fugacity PI ph k T p = Some (chosen_root ph r + vir_v (k_p0 k) (k_c k) (k_d k) (k_e k) p, mrk_lng a b T p (chosen_root ph r) + vir_g (k_p0 k) (k_c k) (k_d k) (k_e k) p / (RR * T)).
Proof.
  intros ph k T p r Hb HT Hp a b E L. unfold volume_fugacity. cbv zeta. fold a b. rewrite E. destruct (Rlt_dec 0 ((chosen_root ph r - b) * p / (RR * T))) as [_|N]; [|exfalso; apply N; now apply (vol_log b _ p T Hb HT Hp)].
  destruct (Rlt_dec 0 (1 + b / chosen_root ph r)) as [_|N]; [reflexivity|]. exfalso. apply N. assert (0 < b / chosen_root ph r); [|lra]. fold b in Hb. apply Rdiv_lt_0_compat; lra.
Qed.
Lemma vf_none : forall ph k T p r, 0 < e_b (k_ab k) -> 0 < T -> 0 < p -> let a := e_a (k_ab k) in let b := e_b (k_ab k) in
  cork_cardano PI (mrk_cb T p) (mrk_cc a b T p) (mrk_cd a b T p) = Some r -> chosen_root ph r <= b -> volume_fugacity PI ph k T p = None.
Proof.
  intros ph k T p r Hb HT Hp a b E L. unfold volume_fugacity. cbv zeta. fold a b. rewrite E. destruct (Rlt_dec 0 ((chosen_root ph r - b) * p / (RR * T))) as [N|_]; [|reflexivity]. exfalso. apply (vol_log b _ p T Hb HT Hp) in N. lra.
Qed.
Lemma regular_some : forall a2 a1 a0, regular a2 a1 a0 -> exists z1 z2 z3, cork_cardano PI a2 a1 a0 = Some (z1, z2, z3) /\ solved a2 a1 a0 (z1, z2, z3).
Proof.
  intros a2 a1 a0 [H1 H2]. assert (S := cork_cardano_same _ _ _ H1). destruct (cardano PI a2 a1 a0) as [[[z1 z2] z3]|] eqn:E.
  - exists z1, z2, z3. split; [exact S|]. now apply cardano_solved.
  - exfalso. apply H2. now apply cardano_none in E.
Qed.
(** the vapour root exists, is above the co-volume and is the largest volume that solves the equation *)
Lemma vapour_ok : forall k T p, 0 < e_b (k_ab k) -> 0 < T -> 0 < p -> let a := e_a (k_ab k) in let b := e_b (k_ab k) in mrk_regular a b T p ->
  exists u, b < u /\ eos_rk (att a T) b T u = 1000 * p /\ (forall w, b < w -> eos_rk (att a T) b T w = 1000 * p -> w <= u) /\
  volume_fugacity PI vapour k T p = Some (u + vir_v (k_p0 k) (k_c k) (k_d k) (k_e k) p, mrk_lng a b T p u + vir_g (k_p0 k) (k_c k) (k_d k) (k_e k) p / (RR * T)).
Proof.
  intros k T p Hb HT Hp a b Hr. destruct (regular_some _ _ _ Hr) as (z1 & z2 & z3 & E & S). assert (B := above_root _ _ _ _ _ _ b S (poly_at_b a b T p Hb HT Hp)).
  assert (Hb' : 0 < b) by exact Hb. assert (M := vapour_max z1 z2 z3 ltac:(lra)). set (u := vapour_root (z1, z2, z3)) in *. assert (Hu : b < u) by lra.
  destruct (solved_zero _ _ _ _ _ _ S) as (R1 & R2 & R3). exists u. split; [exact Hu|]. split; [|split].
  - apply (eos_poly a b T p Hb' HT Hp u Hu). unfold mrk_poly. destruct (chosen_in vapour z1 z2 z3) as [I|[I|I]]; cbn [chosen_root] in I; fold u in I; rewrite I; assumption.
  - intros w Hw Ew. apply (eos_poly a b T p Hb' HT Hp w Hw) in Ew. destruct (all_roots _ _ _ _ _ _ w S (proj1 Hr) Ew) as [I|[I|I]]; lra.
  - exact (vf_some vapour k T p _ Hb HT Hp E Hu).
Qed.
(** a liquid root, when there is a result, is the least volume above the co-volume that solves the equation *)
Lemma liquid_ok : forall k T p v g, 0 < e_b (k_ab k) -> 0 < T -> 0 < p -> let a := e_a (k_ab k) in let b := e_b (k_ab k) in 0 < a -> c_q (mrk_cb T p) (mrk_cc a b T p) ^ 3 <> c_r (mrk_cb T p) (mrk_cc a b T p) (mrk_cd a b T p) ^ 2 ->
  volume_fugacity PI liquid k T p = Some (v, g) ->
  exists u, b < u /\ eos_rk (att a T) b T u = 1000 * p /\ (forall w, b < w -> eos_rk (att a T) b T w = 1000 * p -> u <= w) /\
  v = u + vir_v (k_p0 k) (k_c k) (k_d k) (k_e k) p /\ g = mrk_lng a b T p u + vir_g (k_p0 k) (k_c k) (k_d k) (k_e k) p / (RR * T).
Proof.
  intros k T p v g Hb HT Hp a b Ha Hr E. destruct (vf_inv _ _ _ _ _ _ Hb HT Hp E) as (r & Er & Hu & Ev & Eg). fold a b in Er, Hu, Eg. assert (S := cork_solved _ _ _ _ Hr Er). destruct r as [[z1 z2] z3]. cbn [chosen_root] in *. set (u := liquid_root (z1, z2, z3)) in *.
  assert (Hb' : 0 < b) by exact Hb. assert (Hs := s_pos T HT). destruct (solved_zero _ _ _ _ _ _ S) as (R1 & R2 & R3). exists u. split; [exact Hu|]. split; [|split; [|split; assumption]].
  - apply (eos_poly a b T p Hb' HT Hp u Hu). unfold mrk_poly. destruct (chosen_in liquid z1 z2 z3) as [I|[I|I]]; cbn [chosen_root] in I; fold u in I; rewrite I; assumption.
  - intros w Hw Ew. apply (eos_poly a b T p Hb' HT Hp w Hw) in Ew. assert (Iw := all_roots _ _ _ _ _ _ w S Hr Ew).
    assert (Iu := chosen_in liquid z1 z2 z3). cbn [chosen_root] in Iu. fold u in Iu.
    assert (Pd : poly (mrk_cb T p) (mrk_cc a b T p) (mrk_cd a b T p) 0 < 0).
    { unfold poly, mrk_cd. replace (0 ^ 3 + mrk_cb T p * 0 ^ 2 + mrk_cc a b T p * 0 + -1 * a * b / (sqrt T * p)) with (- (a * b / (sqrt T * p))) by (field; split; lra). assert (0 < a * b / (sqrt T * p)); [|lra]. apply Rdiv_lt_0_compat; apply Rmult_lt_0_compat; assumption. }
    inversion S as [u1 u2 u3 F Eq|z c d Hd F Eq]; subst.
    + rewrite F in Pd. destruct (Rlt_dec 0 z1) as [P1|P1]; destruct (Rlt_dec 0 z2) as [P2|P2]; destruct (Rlt_dec 0 z3) as [P3|P3].
      * destruct (liquid_min z1 z2 z3 P1 P2 P3) as (M1 & M2 & M3). fold u in M1, M2, M3. destruct Iw as [I|[I|I]]; lra.
      * exfalso. assert (0 <= (0 - z1) * (0 - z2) * (0 - z3)) by (replace ((0 - z1) * (0 - z2) * (0 - z3)) with (z1 * z2 * (- z3)) by ring; apply Rmult_le_pos; [apply Rmult_le_pos|]; lra). lra.
      * exfalso. assert (0 <= (0 - z1) * (0 - z2) * (0 - z3)) by (replace ((0 - z1) * (0 - z2) * (0 - z3)) with (z1 * (- z2) * z3) by ring; apply Rmult_le_pos; [apply Rmult_le_pos|]; lra). lra.
      * destruct Iw as [I|[I|I]]; destruct Iu as [J|[J|J]]; lra.
      * exfalso. assert (0 <= (0 - z1) * (0 - z2) * (0 - z3)) by (replace ((0 - z1) * (0 - z2) * (0 - z3)) with ((- z1) * z2 * z3) by ring; apply Rmult_le_pos; [apply Rmult_le_pos|]; lra). lra.
      * destruct Iw as [I|[I|I]]; destruct Iu as [J|[J|J]]; lra.
      * destruct Iw as [I|[I|I]]; destruct Iu as [J|[J|J]]; lra.
      * destruct Iw as [I|[I|I]]; destruct Iu as [J|[J|J]]; lra.
    + destruct Iw as [I|[I|I]]; destruct Iu as [J|[J|J]]; lra.
Qed.

(** *** the pressure correction *)
Lemma sqrt_nonpos : forall x, x <= 0 -> sqrt x = 0.
Proof. intros x [H|H]; [|rewrite H; apply sqrt_0]. unfold sqrt. destruct (Rcase_abs x) as [|N]; [reflexivity|]. exfalso. lra. Qed.
Lemma flat_at : forall (f h : R -> R) x0, f x0 = 0 -> (forall x, Rabs (f x) <= Rabs (x - x0) * h x) -> h x0 = 0 -> continuous h x0 -> is_derive f x0 0.
Proof.
  intros f h x0 F0 B H0 C. apply is_derive_Reals. intros eps He. assert (L := proj1 (filterlim_locally _ _) C (mkposreal eps He)). cbn [pos] in L. destruct L as [dl L]. exists dl. intros y Hy Hd.
  specialize (L (x0 + y)). assert (Lb : ball x0 dl (x0 + y)). { unfold ball; cbn. unfold AbsRing_ball, abs, minus, plus, opp; cbn. replace (x0 + y + - x0) with y by ring. exact Hd. }
  specialize (L Lb). unfold ball in L; cbn in L. unfold AbsRing_ball, abs, minus, plus, opp in L; cbn in L. rewrite H0 in L. replace (h (x0 + y) + - 0) with (h (x0 + y)) in L by ring.
  rewrite F0, !Rminus_0_r. specialize (B (x0 + y)). replace (x0 + y - x0) with y in B by ring. unfold Rdiv. rewrite Rabs_mult, Rabs_inv. assert (Hy' : 0 < Rabs y) by (now apply Rabs_pos_lt).
  apply Rle_lt_trans with (h (x0 + y)); [|apply Rle_lt_trans with (Rabs (h (x0 + y))); [apply Rle_abs|exact L]].
  apply Rmult_le_reg_r with (Rabs y); [exact Hy'|]. rewrite Rmult_assoc, Rinv_l by lra. lra.
Qed.
Lemma vir_d : forall p0 c d e p, is_derive (vir_g p0 c d e) p (vir_v p0 c d e p).
Proof.
  intros p0 c d e p. destruct (Rtotal_order p p0) as [L|[L|L]].
  - apply is_derive_ext_loc with (fun _ => 0); [generalize (near_lt p0 p L); apply filter_imp; intros t Ht; unfold vir_g; destruct (Rlt_dec p0 t); [lra|reflexivity]|]. unfold vir_v. destruct (Rlt_dec p0 p); [lra|]. apply d_const.
  - subst p0. unfold vir_v. destruct (Rlt_dec p p); [lra|].
    apply (flat_at _ (fun x => 2 / 3 * Rabs c * sqrt (x - p) + Rabs d / 2 * Rabs (x - p) + 4 / 5 * Rabs e * sqrt (sqrt (x - p)))).
    + unfold vir_g. destruct (Rlt_dec p p); [lra|reflexivity].
    + intros x. unfold vir_g. destruct (Rlt_dec p x) as [H|H].
      * set (y := x - p). assert (Hy : 0 < y) by (unfold y; lra). rewrite (Rabs_right y) by lra. assert (S1 := sqrt_pos y). assert (S2 := sqrt_pos (sqrt y)).
        replace (2 / 3 * c * y * sqrt y + d / 2 * y ^ 2 + 4 / 5 * e * y * sqrt (sqrt y)) with (y * (2 / 3 * c * sqrt y + d / 2 * y + 4 / 5 * e * sqrt (sqrt y))) by field. rewrite Rabs_mult, (Rabs_right y) by lra. apply Rmult_le_compat_l; [lra|].
        eapply Rle_trans; [apply Rabs_triang|]. apply Rplus_le_compat; [eapply Rle_trans; [apply Rabs_triang|]; apply Rplus_le_compat|].
        -- rewrite !Rabs_mult, (Rabs_right (2 / 3)), (Rabs_right (sqrt y)) by lra. lra.
        -- unfold Rdiv. rewrite !Rabs_mult, (Rabs_right (/ 2)), (Rabs_right y) by lra. lra.
        -- rewrite !Rabs_mult, (Rabs_right (4 / 5)), (Rabs_right (sqrt (sqrt y))) by lra. lra.
      * rewrite Rabs_R0. apply Rmult_le_pos; [apply Rabs_pos|]. generalize (Rabs_pos c) (Rabs_pos d) (Rabs_pos e) (sqrt_pos (x - p)) (sqrt_pos (sqrt (x - p))) (Rabs_pos (x - p)). intros. assert (0 <= Rabs c * sqrt (x - p)) by now apply Rmult_le_pos. assert (0 <= Rabs d * Rabs (x - p)) by now apply Rmult_le_pos. assert (0 <= Rabs e * sqrt (sqrt (x - p))) by now apply Rmult_le_pos. lra.
    + rewrite Rminus_eq_0, sqrt_0, sqrt_0, Rabs_R0. ring.
    + assert (C0 : continuous (fun x : R => x - p) p) by (apply (continuous_minus (fun x : R => x) (fun _ : R => p)); [apply continuous_id|apply continuous_const]).
      assert (C1 : continuous (fun x : R => sqrt (x - p)) p) by (apply (continuous_comp (fun x : R => x - p) sqrt); [exact C0|apply continuous_sqrt]).
      assert (C2 : continuous (fun x : R => sqrt (sqrt (x - p))) p) by (apply (continuous_comp (fun x : R => sqrt (x - p)) sqrt); [exact C1|apply continuous_sqrt]).
      assert (C3 : continuous (fun x : R => Rabs (x - p)) p) by (apply (continuous_comp (fun x : R => x - p) Rabs); [exact C0|apply continuous_Rabs]).
      apply (continuous_plus (fun x : R => 2 / 3 * Rabs c * sqrt (x - p) + Rabs d / 2 * Rabs (x - p)) (fun x : R => 4 / 5 * Rabs e * sqrt (sqrt (x - p)))).
      * apply (continuous_plus (fun x : R => 2 / 3 * Rabs c * sqrt (x - p)) (fun x : R => Rabs d / 2 * Rabs (x - p))); [exact (continuous_scal_r (2 / 3 * Rabs c) _ p C1)|exact (continuous_scal_r (Rabs d / 2) _ p C3)].
      * exact (continuous_scal_r (4 / 5 * Rabs e) _ p C2).
  - apply is_derive_ext_loc with (fun p => 2 / 3 * c * (p - p0) * sqrt (p - p0) + d / 2 * (p - p0) ^ 2 + 4 / 5 * e * (p - p0) * sqrt (sqrt (p - p0))).
    + generalize (near_gt p0 p L). apply filter_imp. intros t Ht. unfold vir_g. destruct (Rlt_dec p0 t); [reflexivity|lra].
    + unfold vir_v. destruct (Rlt_dec p0 p) as [_|]; [|lra]. assert (Hy : 0 < p - p0) by lra. assert (H1 := sqrt_lt_R0 _ Hy). assert (H2 := sqrt_lt_R0 _ H1).
      assert (E1 : sqrt (p - p0) * sqrt (p - p0) = p - p0) by (apply sqrt_sqrt; lra). assert (E2 : sqrt (sqrt (p - p0)) * sqrt (sqrt (p - p0)) = sqrt (p - p0)) by (apply sqrt_sqrt; lra).
      eapply d_eq.
      * apply d_plus; [apply d_plus|].
        -- apply d_mult; [apply d_scal, d_minus; [apply d_id|apply d_const]|apply (d_sqrt (fun p => p - p0)); [apply d_minus; [apply d_id|apply d_const]|exact Hy]].
        -- apply d_scal, d_pow, d_minus; [apply d_id|apply d_const].
        -- apply d_mult; [apply d_scal, d_minus; [apply d_id|apply d_const]|apply (d_sqrt (fun p => sqrt (p - p0))); [apply (d_sqrt (fun p => p - p0)); [apply d_minus; [apply d_id|apply d_const]|exact Hy]|exact H1]].
      * cbv beta. cbn [INR pred pow].
        assert (Ey : p - p0 = sqrt (sqrt (p - p0)) * sqrt (sqrt (p - p0)) * (sqrt (sqrt (p - p0)) * sqrt (sqrt (p - p0)))) by (rewrite E2, E1; reflexivity).
        assert (E3 : sqrt (p - p0) = sqrt (sqrt (p - p0)) * sqrt (sqrt (p - p0))) by (symmetry; exact E2). 
        generalize dependent (sqrt (sqrt (p - p0))). intros w Hw Ew Ey E3. rewrite E3, Ey. field. lra.
Qed.
