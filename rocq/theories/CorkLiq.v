(** Water below 695 K at and above its saturation pressure, and the limit of the formula of Cardano. *)
From Coq Require Import List Bool Reals Lra Lia String Ascii.
From Coquelicot Require Import Coquelicot.
From Verif Require Import RDeriv GasModel GasSpec GasCubic GasProofs GasDeriv GasMore GasPhase CorkModel CorkSpec CorkCubic CorkProofs CorkDeriv CorkInst CorkWit.
Open Scope R_scope.

(** the order of the roots *)
Lemma cardano_order : forall cb cc cd z1 z2 z3, c_r cb cc cd ^ 2 < c_q cb cc ^ 3 -> cork_cardano PI cb cc cd = Some (z1, z2, z3) -> z1 <= z3 <= z2.
Proof.
  intros cb cc cd z1 z2 z3 H. assert (Hq := cube_pos _ _ H). unfold cork_cardano. destruct (Rlt_dec 0 (c_r cb cc cd ^ 2 - c_q cb cc ^ 3)) as [N|_]; [lra|]. rewrite (angle_acos _ _ H). set (x := acos _). assert (B : 0 <= x <= PI) by apply acos_bound. intros [= <- <- <-]. assert (Hp := PI_RGT_0). assert (Hs := sqrt_lt_R0 _ Hq).
  assert (E : cos ((x - 2 * PI) / 3) = cos ((2 * PI - x) / 3)) by (rewrite <- (cos_neg ((x - 2 * PI) / 3)); f_equal; field).
  assert (C1 : cos ((2 * PI - x) / 3) <= cos (x / 3)) by (apply cos_decr_1; lra).
  assert (C2 : cos ((x + 2 * PI) / 3) <= cos ((2 * PI - x) / 3)) by (apply cos_decr_1; lra). rewrite E.
  assert (M1 := Rmult_le_compat_l (2 * sqrt (c_q cb cc)) _ _ ltac:(lra) C1). assert (M2 := Rmult_le_compat_l (2 * sqrt (c_q cb cc)) _ _ ltac:(lra) C2). lra.
Qed.
(** three roots of which two are negative: the liquid has none *)
Lemma liquid_fails : forall k T p m, 0 < e_b (k_ab k) -> 0 < T -> 0 < p -> let a := e_a (k_ab k) in let b := e_b (k_ab k) in
  c_r (mrk_cb T p) (mrk_cc a b T p) (mrk_cd a b T p) ^ 2 <> c_q (mrk_cb T p) (mrk_cc a b T p) ^ 3 -> 0 < a -> m < 0 -> 0 < mrk_poly a b T p m -> volume_fugacity PI liquid k T p = None.
Proof.
  intros k T p m Hb HT Hp a b Hne Ha Hm Hpm. assert (Hs := s_pos T HT). assert (Hb' : 0 < b) by exact Hb.
  destruct (cork_cardano PI (mrk_cb T p) (mrk_cc a b T p) (mrk_cd a b T p)) as [[[z1 z2] z3]|] eqn:E; [|unfold volume_fugacity; cbv zeta; fold a b; now rewrite E].
  apply (vf_none liquid k T p _ Hb HT Hp E). cbn [chosen_root]. assert (S := cork_solved _ _ _ _ (not_eq_sym Hne) E).
  assert (P0 : mrk_poly a b T p 0 < 0).
  { unfold mrk_poly, poly, mrk_cd. replace (0 ^ 3 + mrk_cb T p * 0 ^ 2 + mrk_cc a b T p * 0 + -1 * a * b / (sqrt T * p)) with (- (a * b / (sqrt T * p))) by (field; split; lra). assert (0 < a * b / (sqrt T * p)); [|lra]. apply Rdiv_lt_0_compat; apply Rmult_lt_0_compat; assumption. }
  unfold mrk_poly in *. destruct (Rlt_dec (c_r (mrk_cb T p) (mrk_cc a b T p) (mrk_cd a b T p) ^ 2) (c_q (mrk_cb T p) (mrk_cc a b T p) ^ 3)) as [L|L].
  - assert (O := cardano_order _ _ _ _ _ _ L E). inversion S as [u1 u2 u3 F Eq|z c d Hd F Eq]; subst.
    + rewrite F in P0, Hpm. rewrite liquid_bad; fold b.
      * destruct (Rle_dec z3 b) as [|N]; [assumption|]. exfalso. assert (Z : z1 <= m \/ m < z1) by lra. destruct Z as [Z|Z].
        -- assert (0 <= (m - z1) * (z2 - m) * (z3 - m)); [apply Rmult_le_pos; [apply Rmult_le_pos|]; lra|]. assert (0 <= (0 - z1) * (0 - z2) * (0 - z3)); [|lra]. replace ((0 - z1) * (0 - z2) * (0 - z3)) with ((0 - z1) * (z2 * z3)) by ring. apply Rmult_le_pos; [lra|]. apply Rmult_le_pos; lra.
        -- assert (0 <= (z1 - m) * (z2 - m) * (z3 - m)); [apply Rmult_le_pos; [apply Rmult_le_pos|]; lra|]. lra.
      * destruct (Rle_dec z1 0) as [|N]; [assumption|]. exfalso. assert (0 <= (z1 - m) * (z2 - m) * (z3 - m)); [apply Rmult_le_pos; [apply Rmult_le_pos|]; lra|]. lra.
      * destruct (Rlt_dec 0 z2) as [|N]; [assumption|]. exfalso. assert (0 <= (0 - z1) * (0 - z2) * (0 - z3)); [apply Rmult_le_pos; [apply Rmult_le_pos|]; lra|]. lra.
      * destruct (Rle_dec z3 0) as [|N]; [assumption|]. exfalso. assert (Z : z1 <= m \/ m < z1) by lra. destruct Z as [Z|Z].
        -- assert (0 <= (0 - z1) * (0 - z2) * (0 - z3)); [|lra]. replace ((0 - z1) * (0 - z2) * (0 - z3)) with ((0 - z1) * (z2 * z3)) by ring. apply Rmult_le_pos; [lra|]. apply Rmult_le_pos; lra.
        -- assert (0 <= (z1 - m) * (z2 - m) * (z3 - m)); [apply Rmult_le_pos; [apply Rmult_le_pos|]; lra|]. lra.
    + rewrite F in P0, Hpm. exfalso. assert (0 <= (m - c) ^ 2 + d) by (generalize (pow2_ge_0 (m - c)); lra). assert (0 <= (0 - c) ^ 2 + d) by (generalize (pow2_ge_0 (0 - c)); lra). destruct (Rle_dec z3 m) as [N|N]; [assert (0 <= (0 - z3) * ((0 - c) ^ 2 + d)) by (apply Rmult_le_pos; lra)|assert (0 <= (z3 - m) * ((m - c) ^ 2 + d)) by (apply Rmult_le_pos; lra)]; lra.
  - exfalso. inversion S as [u1 u2 u3 F Eq|z c d Hd F Eq]; subst.
    + assert (Lc : c_q (mrk_cb T p) (mrk_cc a b T p) ^ 3 < c_r (mrk_cb T p) (mrk_cc a b T p) (mrk_cd a b T p) ^ 2) by lra.
      unfold cork_cardano in E. destruct (Rlt_dec 0 _) as [L2|L2]; [|lra]. destruct (Req_EM_T _ 0); [discriminate|]. injection E as E1 E2 E3. assert (Q1 : z1 = z3) by congruence. assert (Q2 : z2 = z3) by congruence. rewrite F in P0, Hpm. rewrite Q1, Q2 in P0, Hpm.
      replace ((m - z3) * (m - z3) * (m - z3)) with ((m - z3) ^ 2 * (m - z3)) in Hpm by ring. replace ((0 - z3) * (0 - z3) * (0 - z3)) with ((- z3) ^ 3) in P0 by ring.
      assert (0 < z3) by (destruct (Rlt_dec 0 z3) as [|N]; [assumption|]; exfalso; assert (0 <= (- z3) ^ 3) by (apply pow_le; lra); lra). assert (0 <= (m - z3) ^ 2 * (z3 - m)) by (apply Rmult_le_pos; [apply pow2_ge_0|lra]). lra.
    + rewrite F in P0, Hpm. assert (0 <= (m - c) ^ 2 + d) by (generalize (pow2_ge_0 (m - c)); lra). assert (0 <= (0 - c) ^ 2 + d) by (generalize (pow2_ge_0 (0 - c)); lra). destruct (Rle_dec z3 m) as [N|N]; [assert (0 <= (0 - z3) * ((0 - c) ^ 2 + d)) by (apply Rmult_le_pos; lra)|assert (0 <= (z3 - m) * ((m - c) ^ 2 + d)) by (apply Rmult_le_pos; lra)]; lra.
Qed.
Lemma h2o_dense_none : forall Tc Pc T P, 0 < T -> T < 673 -> 1000 * h2o_psat T <= P -> 0 < P -> let a := a_h2o_liq T in let b := b_h2o in mrk_regular a b T (P / 1000) -> 0 < a ->
  12 * att a T * b < 2 * Rgas * T * b ^ 2 + 3 * P * b ^ 3 -> cork_pure PI "H2O" Tc Pc T P = None.
Proof.
  intros Tc Pc T P H0 HT Hs HP a b Hr Ha Hc. rewrite h2o_pure. unfold h2o_state. destruct (Rlt_dec 695 T); [lra|]. destruct (Rlt_dec (P / 1000) (h2o_psat T)); [lra|].
  assert (Ec : h2o_con T = h2o_liq T) by (unfold h2o_con; destruct (Rlt_dec T 673); [reflexivity|lra]). assert (Sq := s_pos T H0).
  assert (X : volume_fugacity PI liquid (h2o_par (h2o_con T)) T (P / 1000) = None).
  { assert (Ea : e_a (k_ab (h2o_par (h2o_con T))) = a) by (cbn [h2o_par k_ab]; rewrite Ec; apply liq_a). assert (Eb : e_b (k_ab (h2o_par (h2o_con T))) = b) by (cbn [h2o_par k_ab]; apply con_b).
    assert (Hb : 0 < b) by exact b_h2o_pos. apply (liquid_fails _ T (P / 1000) (- b / 2)); rewrite ?Ea, ?Eb; try assumption; try lra.
    - exact (not_eq_sym (proj1 Hr)).
    - unfold mrk_poly, poly, mrk_cb, mrk_cc, mrk_cd. unfold att in Hc. rewrite <- RR_Rg in Hc.
      apply Rmult_lt_reg_r with (8 * P); [lra|]. rewrite Rmult_0_l.
      replace (((- b / 2) ^ 3 + -1 * RR * T / (P / 1000) * (- b / 2) ^ 2 + -1 * (b * RR * T + b ^ 2 * (P / 1000) - a / sqrt T) / (P / 1000) * (- b / 2) + -1 * a * b / (sqrt T * (P / 1000))) * (8 * P)) with (3 * P * b ^ 3 + 2 * (1000 * RR) * T * b ^ 2 - 12 * (1000 * a / sqrt T) * b) by (field; split; lra). lra. }
  rewrite X. destruct (volume_fugacity PI vapour _ T (h2o_psat T)) as [[]|]; [|reflexivity]. destruct (volume_fugacity PI liquid _ T (h2o_psat T)) as [[]|]; reflexivity.
Qed.
Lemma dense_reg : mrk_regular (a_h2o_liq 625) b_h2o 625 (90000 / 1000).
Proof. reg_num 25. split; [apply Rgt_not_eq; lra|]. intros [H _]. revert H. apply Rlt_not_eq. lra. Qed.
Lemma h2o_dense_ex : forall Tc Pc, cork_pure PI "H2O" Tc Pc 625 90000 = None.
Proof.
  intros. apply h2o_dense_none; try lra.
  - unfold h2o_psat. lra.
  - exact dense_reg.
  - unfold a_h2o_liq. lra.
  - unfold att, a_h2o_liq, b_h2o, Rgas. rewrite (sqrt_is 625 25) by lra. lra.
Qed.
(** a double root: the arc tangent loses the sign *)
Lemma cardano_double : cork_cardano PI (-6) 9 (-4) = Some (0, 3, 3) /\ (forall x, poly (-6) 9 (-4) x = (x - 4) * (x - 1) ^ 2).
Proof.
  split; [|intros; unfold poly; ring]. unfold cork_cardano, c_q, c_r. replace ((2 * (-6) ^ 3 - 9 * -6 * 9 + 27 * -4) / 54) with (-1) by field. replace (((-6) ^ 2 - 3 * 9) / 9) with 1 by field.
  destruct (Rlt_dec 0 _) as [L|_]; [lra|]. unfold cork_angle. destruct (Req_EM_T 1 0); [lra|]. destruct (Req_EM_T (-1) 0); [lra|]. replace (1 - (-1) ^ 2 / 1 ^ 3) with 0 by field. rewrite sqrt_0. replace (0 / (-1 / sqrt (1 ^ 3))) with 0 by (unfold Rdiv; ring). rewrite atan_0. destruct (Rlt_dec 0 0); [lra|].
  rewrite sqrt_1. replace (0 / 3) with 0 by field. rewrite cos_0. replace ((0 + 2 * PI) / 3) with (2 * (PI / 3)) by field. replace ((0 - 2 * PI) / 3) with (- (2 * (PI / 3))) by field. rewrite cos_neg, cos_2PI3. do 2 f_equal; [f_equal|]; lra.
Qed.
