(** Water: work above saturation, continuity at saturation, the jump at 695 K. *)
From Coq Require Import List Bool Reals Lra Lia String Ascii.
From Coquelicot Require Import Coquelicot.
From Verif Require Import RDeriv GasModel GasSpec GasCubic GasProofs GasDeriv GasMore GasPhase CorkModel CorkSpec CorkCubic CorkProofs CorkDeriv CorkInst CorkWit CorkLiq.
Open Scope R_scope.

(** the Gibbs energy of the liquid differs from its own Redlich-Kwong value by a constant along a pressure *)
Lemma liquid_res : forall Tc Pc T P f, T <= 695 -> 1000 * h2o_psat T <= P -> cork_pure PI "H2O" Tc Pc T P = Some f ->
  exists v1 g1 v2 g2, volume_fugacity PI vapour (h2o_par (h2o_vap T)) T (h2o_psat T) = Some (v1, g1) /\ volume_fugacity PI liquid (h2o_par (h2o_con T)) T (h2o_psat T) = Some (v2, g2) /\
  forall q, 1000 * h2o_psat T <= q -> cork_pure PI "H2O" Tc Pc T q = match volume_fugacity PI liquid (h2o_par (h2o_con T)) T (q / 1000) with Some (v, g) => Some (mrk_fug (h2o_con T) T (q / 1000) v (g1 - g2 + g)) | None => None end.
Proof.
  intros Tc Pc T P f HT Hs. rewrite h2o_pure. unfold h2o_state at 1. destruct (Rlt_dec 695 T); [lra|]. destruct (Rlt_dec (P / 1000) (h2o_psat T)); [lra|].
  destruct (volume_fugacity PI vapour (h2o_par (h2o_vap T)) T (h2o_psat T)) as [[v1 g1]|] eqn:E1; [|discriminate]. destruct (volume_fugacity PI liquid (h2o_par (h2o_con T)) T (h2o_psat T)) as [[v2 g2]|] eqn:E2; [|discriminate]. intros _.
  exists v1, g1, v2, g2. split; [reflexivity|]. split; [reflexivity|]. intros q Hq. rewrite h2o_pure. unfold h2o_state. destruct (Rlt_dec 695 T); [lra|]. destruct (Rlt_dec (q / 1000) (h2o_psat T)); [lra|]. rewrite E1, E2. destruct (volume_fugacity PI liquid (h2o_par (h2o_con T)) T (q / 1000)) as [[v g]|]; reflexivity.
Qed.
Lemma con_reg_P : forall T P, 0 < T -> 0 < P -> e_a (h2o_con T) <> 0 -> mrk_regular (e_a (h2o_con T)) b_h2o T (P / 1000) -> volume_fugacity PI liquid (h2o_par (h2o_con T)) T (P / 1000) <> None ->
  exists (v g : R -> R), locally P (fun q => volume_fugacity PI liquid (h2o_par (h2o_con T)) T (q / 1000) = Some (v q, g q)) /\ is_derive (fun q => Rg * T * g q) P (v P - Rgas * T / P).
Proof.
  intros T P HT HP Ha Hr Hn. rewrite <- (con_b T) in Hr. destruct (ck_P (h2o_par (h2o_con T)) liquid T P ltac:(cbn [h2o_par k_ab]; rewrite con_b; exact b_h2o_pos) HT HP Hr (or_intror (conj Ha Hn))) as (F & L & D).
  exists (fun q => f_v (F q)), (fun q => ln (f_phi (F q))). split.
  - generalize L. apply filter_imp. intros q Eq. unfold mf in Eq. destruct (volume_fugacity PI liquid (h2o_par (h2o_con T)) T (q / 1000)) as [[v g]|]; [|discriminate Eq]. injection Eq as Eq. rewrite <- Eq. cbn [mrk_fug f_v f_phi]. now rewrite ln_exp.
  - apply is_derive_ext_loc with (fun q => f_g (F q)); [|exact D]. generalize L. apply filter_imp. intros q Eq. unfold mf in Eq. destruct (volume_fugacity PI liquid (h2o_par (h2o_con T)) T (q / 1000)) as [[v g]|]; [|discriminate Eq]. injection Eq as Eq. rewrite <- Eq. cbn [mrk_fug f_g f_phi]. now rewrite ln_exp.
Qed.
Lemma res_some : forall Tc Pc T P f, T <= 695 -> 1000 * h2o_psat T <= P -> cork_pure PI "H2O" Tc Pc T P = Some f -> volume_fugacity PI liquid (h2o_par (h2o_con T)) T (P / 1000) <> None.
Proof. intros Tc Pc T P f HT Hs E. destruct (liquid_res _ _ _ _ _ HT Hs E) as (v1 & g1 & v2 & g2 & _ & _ & K). rewrite (K P Hs) in E. destruct (volume_fugacity _ _ _ _ _); [discriminate|discriminate E]. Qed.
Lemma h2o_liquid_work : forall Tc Pc T P f, 0 < T -> T <= 695 -> 0 < P -> 1000 * h2o_psat T < P -> e_a (h2o_con T) <> 0 -> mrk_regular (e_a (h2o_con T)) b_h2o T (P / 1000) -> cork_pure PI "H2O" Tc Pc T P = Some f ->
  exists F : R -> fug, locally P (fun q => cork_pure PI "H2O" Tc Pc T q = Some (F q)) /\ is_derive (fun q => f_g (F q)) P (f_v (F P) - Rgas * T / P).
Proof.
  intros Tc Pc T P f H0 HT HP Hs Ha Hr E. assert (Hn := res_some Tc Pc T P f HT (Rlt_le _ _ Hs) E). destruct (liquid_res Tc Pc T P f HT (Rlt_le _ _ Hs) E) as (v1 & g1 & v2 & g2 & _ & _ & K). destruct (con_reg_P T P H0 HP Ha Hr Hn) as (v & g & L & D).
  exists (fun q => mrk_fug (h2o_con T) T (q / 1000) (v q) (g1 - g2 + g q)). split.
  - generalize (near_both _ _ _ (near_gt _ P Hs) L). apply filter_imp. intros q [A B]. rewrite (K q) by (apply Rlt_le; exact A). now rewrite B.
  - cbn [mrk_fug f_g f_v]. apply is_derive_ext with (fun q => Rg * T * (g1 - g2) + Rg * T * g q); [intros q; match goal with |- ?x = ?y => change (@eq R x y) end; ring|]. eapply d_eq; [apply d_plus; [apply d_const|exact D]|]. ring.
Qed.
(** two branches that agree at a point *)
Lemma glue : forall (f g h : R -> R) x, continuous f x -> continuous g x -> f x = g x -> locally x (fun y => (y < x -> h y = f y) /\ (x <= y -> h y = g y)) -> continuous h x.
Proof.
  intros f g h x Cf Cg E L. assert (Hx : h x = g x) by (apply (locally_singleton _ _ L); lra). apply filterlim_locally. intros eps.
  assert (Lf := proj1 (filterlim_locally _ _) Cf eps). assert (Lg := proj1 (filterlim_locally _ _) Cg eps). generalize (near_both _ _ _ L (near_both _ _ _ Lf Lg)). apply filter_imp. intros y [[A1 A2] [B1 B2]]. destruct (Rlt_dec y x) as [H|H].
  - rewrite (A1 H), Hx, <- E. exact B1.
  - rewrite A2, Hx by lra. exact B2.
Qed.
Lemma h2o_saturation : forall Tc Pc T f, 0 < T -> T <= 695 -> let P := 1000 * h2o_psat T in 0 < P -> e_a (h2o_con T) <> 0 -> mrk_regular (e_a (h2o_vap T)) b_h2o T (P / 1000) -> mrk_regular (e_a (h2o_con T)) b_h2o T (P / 1000) ->
  cork_pure PI "H2O" Tc Pc T P = Some f -> exists F : R -> fug, locally P (fun q => cork_pure PI "H2O" Tc Pc T q = Some (F q)) /\ continuous (fun q => f_g (F q)) P.
Proof.
  intros Tc Pc T f H0 HT P HP Ha Hv Hl E. assert (Hn := res_some _ _ _ _ _ HT (Rle_refl _) E). destruct (liquid_res _ _ _ _ _ HT (Rle_refl _) E) as (v1 & g1 & v2 & g2 & E1 & E2 & K). destruct (con_reg_P T P H0 HP Ha Hl Hn) as (v & g & L & D).
  rewrite <- (vap_b T) in Hv. destruct (ck_P (h2o_par (h2o_vap T)) vapour T P ltac:(cbn [h2o_par k_ab]; rewrite vap_b; exact b_h2o_pos) H0 HP Hv (or_introl eq_refl)) as (F1 & L1 & D1).
  assert (EP : P / 1000 = h2o_psat T) by (unfold P; field). assert (A1 := locally_singleton _ _ L1). assert (A2 := locally_singleton _ _ L). cbv beta in A1, A2. unfold mf in A1. rewrite EP in A1, A2. rewrite E1 in A1. rewrite E2 in A2. injection A1 as A1. injection A2 as A2 A3.
  exists (fun q => match cork_pure PI "H2O" Tc Pc T q with Some x => x | None => f end). split.
  - generalize (near_both _ _ _ L L1). apply filter_imp. intros q [B C]. destruct (Rlt_dec q P) as [Hq|Hq]; [rewrite (h2o_pure_vap Tc Pc T q HT Hq), C; reflexivity|]. rewrite (K q) by (unfold P in Hq; lra). rewrite B. reflexivity.
  - apply (glue (fun q => f_g (F1 q)) (fun q => Rg * T * (g1 - g2) + Rg * T * g q)).
    + apply (ex_derive_continuous (fun q => f_g (F1 q)) P). eexists. exact D1.
    + apply (ex_derive_continuous (fun q => Rg * T * (g1 - g2) + Rg * T * g q) P). eexists. apply d_plus; [apply d_const|exact D].
    + rewrite <- A1. cbn [mrk_fug f_g]. rewrite <- A3. ring.
    + generalize (near_both _ _ _ L L1). apply filter_imp. intros q [B C]. split; intros Hq.
      * now rewrite (h2o_pure_vap Tc Pc T q HT Hq), C.
      * rewrite (K q) by exact Hq. rewrite B. cbn [mrk_fug f_g]. ring.
Qed.
(** 695 K, 300 bar: just above, the attraction of the steam changes *)
Lemma r695 : 26.3628 < sqrt 695 < 26.3629.
Proof. split; [apply Rsqr_incrst_0|apply Rsqr_incrst_0]; rewrite ?Rsqr_sqrt by lra; unfold Rsqr; try lra; apply sqrt_pos. Qed.
Lemma inv695 : exists w, w = / sqrt 695 /\ 0.037932 < w < 0.0379325.
Proof.
  exists (/ sqrt 695). destruct r695 as [A B]. split; [reflexivity|]. split.
  - apply Rmult_lt_reg_r with (sqrt 695); [lra|]. rewrite Rinv_l by lra. lra.
  - apply Rmult_lt_reg_r with (sqrt 695); [lra|]. rewrite Rinv_l by lra. lra.
Qed.
Lemma reg_bound : forall q r Q S, 0 <= q -> q <= Q -> 0 < S -> r <= - S -> Q ^ 3 < S ^ 2 -> q ^ 3 <> r ^ 2 /\ ~ (r = 0 /\ q <= 0).
Proof.
  intros q r Q S H0 HQ HS Hr H. split.
  - apply Rlt_not_eq. apply Rle_lt_trans with (Q ^ 3); [apply pow_incr; lra|]. apply Rlt_le_trans with (S ^ 2); [exact H|]. replace (r ^ 2) with ((- r) ^ 2) by ring. apply pow_incr. lra.
  - intros [Z _]. lra.
Qed.
Lemma jump_reg : forall a, 1108 < a < 1119 -> mrk_regular a b_h2o 695 (300 / 1000).
Proof.
  intros a Ha. destruct inv695 as (w & Ew & Hw). unfold mrk_regular, regular, mrk_cb, mrk_cc, mrk_cd, c_q, c_r, RR, b_h2o. replace (sqrt 695) with (/ w) by (rewrite Ew; field; destruct r695; lra).
  assert (X : 42.02 < a * w < 42.45) by (split; nra). assert (W : w <> 0) by lra.
  replace (a / / w) with (a * w) by (field; exact W). replace (-1 * a * 1.465 / (/ w * (300 / 1000))) with (-1 * (a * w) * 1.465 / (300 / 1000)) by (field; exact W). generalize dependent (a * w). intros y Y.
  apply (reg_bound _ _ 4.66 11.55); lra.
Qed.
Lemma psat695 : 0.3 < h2o_psat 695. Proof. unfold h2o_psat. lra. Qed.
Lemma h2o_jump : forall Tc Pc, ~ exists F : R -> fug, locally 695 (fun t => cork_pure PI "H2O" Tc Pc t 300 = Some (F t)) /\ continuous (fun t => f_v (F t)) 695.
Proof.
  intros Tc Pc (F & L & C). assert (P0 := psat695). assert (Hp : 0 < 300 / 1000) by lra.
  assert (R1 : mrk_regular (e_a (h2o_vap 695)) (e_b (h2o_vap 695)) 695 (300 / 1000)).
  { rewrite vap_b. apply jump_reg. unfold h2o_vap. destruct (Rlt_dec 695 673); [lra|]. unfold h2o_fl, h2o_cubic, h2o_a0. cbn [e_a]. lra. }
  assert (R2 : mrk_regular (e_a (h2o_sup 695)) b_h2o 695 (300 / 1000)). { apply jump_reg. unfold h2o_sup, h2o_a0. cbn [e_a]. lra. }
  destruct (mf_vapour (h2o_par (h2o_vap 695)) 695 300 ltac:(cbn [h2o_par k_ab]; rewrite vap_b; exact b_h2o_pos) ltac:(lra) ltac:(lra) R1) as (f & u0 & E0 & Hu0 & S0 & _ & V0 & _). cbn [h2o_par k_ab k_c k_d k_e k_p0] in *.
  assert (EF := locally_singleton _ _ L). cbv beta in EF. rewrite h2o_pure_vap in EF by lra. rewrite EF in E0. injection E0 as E0. rewrite <- E0 in V0. unfold vcorr in V0. destruct (Rlt_dec (1000 * h2o_p0) 300) as [X|_]; [unfold h2o_p0 in X; lra|]. rewrite Rplus_0_r in V0.
  destruct (vf_T h2o_sup b_h2o vapour (fun _ => h2o_c) (fun _ => h2o_d) h2o_e h2o_p0 695 (300 / 1000) b_h2o_pos sup_b ltac:(lra) Hp (ex_intro _ _ (sup_da 695)) R2 (or_introl eq_refl)) as (u & Du & Lu).
  destruct (locally_singleton _ _ Lu) as (_ & Hu & Su & _).
  assert (Q : f_v (F 695) = u 695).
  { apply Rminus_diag_uniq. assert (Cu := ex_derive_continuous _ _ Du). assert (Cd : continuous (fun t => f_v (F t) - u t) 695) by exact (continuous_minus _ _ _ C Cu).
    destruct (Req_dec (f_v (F 695) - u 695) 0) as [|N]; [assumption|]. exfalso. assert (Pos : 0 < Rabs (f_v (F 695) - u 695)) by (now apply Rabs_pos_lt).
    assert (Lc := proj1 (filterlim_locally _ _) Cd (mkposreal _ Pos)). generalize (near_both _ _ _ L (near_both _ _ _ Lu Lc)). intros [eps He].
    assert (Hb : ball 695 eps (695 + eps / 2)). { unfold ball; cbn. unfold AbsRing_ball, abs, minus, plus, opp; cbn. replace (695 + eps / 2 + - 695) with (eps / 2) by ring. destruct eps as [e Pe]; cbn. rewrite Rabs_right; lra. }
    destruct (He _ Hb) as (B1 & (_ & _ & _ & B2) & B3). destruct eps as [e Pe]. cbn [pos] in *. rewrite h2o_pure_sup in B1 by lra. unfold mf in B1. unfold h2o_par in B1. rewrite B2 in B1. injection B1 as B1. rewrite <- B1 in B3. cbn [mrk_fug f_v] in B3. destruct (vir_low h2o_p0 h2o_c h2o_d h2o_e (300 / 1000) ltac:(unfold h2o_p0; lra)) as [Z _]. rewrite Z in B3.
    unfold ball in B3; cbn in B3. unfold AbsRing_ball, abs, minus, plus, opp in B3; cbn in B3. replace (u (695 + e / 2) + 0 - u (695 + e / 2)) with 0 in B3 by ring. rewrite Rplus_0_l, Rabs_Ropp in B3. lra. }
  rewrite V0 in Q. rewrite <- Q in Su, Hu. rewrite vap_b in S0. replace (1000 * (300 / 1000)) with 300 in Su by field. rewrite <- S0 in Su. unfold eos_rk in Su. assert (Y : att (e_a (h2o_sup 695)) 695 / (u0 * (u0 + b_h2o)) = att (e_a (h2o_vap 695)) 695 / (u0 * (u0 + b_h2o))) by lra.
  assert (Pb := b_h2o_pos). unfold Rdiv in Y. apply Rmult_eq_reg_r in Y; [|apply Rinv_neq_0_compat, Rgt_not_eq, Rmult_lt_0_compat; lra]. unfold att, Rdiv in Y. apply Rmult_eq_reg_r in Y; [|apply Rinv_neq_0_compat; destruct r695; lra].
  unfold h2o_vap in Y. destruct (Rlt_dec 695 673); [lra|]. unfold h2o_sup, h2o_fl, h2o_cubic in Y. cbn [e_a] in Y. lra.
Qed.
(** a state with a liquid *)
Lemma liquid_exists : forall k T p m1 m2, 0 < e_b (k_ab k) -> 0 < T -> 0 < p -> let a := e_a (k_ab k) in let b := e_b (k_ab k) in mrk_regular a b T p ->
  b < m1 -> m1 < m2 -> 0 < mrk_poly a b T p m1 -> mrk_poly a b T p m2 < 0 -> exists v g, volume_fugacity PI liquid k T p = Some (v, g).
Proof.
  intros k T p m1 m2 Hb HT Hp a b Hr H1 H2 P1 P2. assert (Hb' : 0 < b) by exact Hb. assert (Pb := poly_at_b a b T p Hb HT Hp). destruct (regular_some _ _ _ Hr) as (z1 & z2 & z3 & E & S). unfold mrk_poly in *.
  assert (X : b < liquid_root (z1, z2, z3)).
  { assert (K : b < z1 /\ b < z2 /\ b < z3).
    { destruct (Rlt_dec (c_r (mrk_cb T p) (mrk_cc a b T p) (mrk_cd a b T p) ^ 2) (c_q (mrk_cb T p) (mrk_cc a b T p) ^ 3)) as [L|L].
      - assert (O := cardano_order _ _ _ _ _ _ L E). inversion S as [u1 u2 u3 F Eq|z c d Hd F Eq]; subst; rewrite F in Pb, P1, P2.
        + enough (b < z1) by lra. destruct (Rlt_dec b z1) as [|N]; [assumption|]. exfalso.
          destruct (Rle_dec m1 z3) as [N3|N3]; [assert (0 <= (b - z1) * (z2 - b) * (z3 - b)) by (apply Rmult_le_pos; [apply Rmult_le_pos|]; lra); lra|].
          destruct (Rle_dec m1 z2) as [N2|N2]; [assert (0 <= (m1 - z1) * (z2 - m1) * (m1 - z3)) by (apply Rmult_le_pos; [apply Rmult_le_pos|]; lra); lra|].
          assert (0 <= (m2 - z1) * (m2 - z2) * (m2 - z3)) by (apply Rmult_le_pos; [apply Rmult_le_pos|]; lra). lra.
        + exfalso. assert (0 <= (m1 - c) ^ 2 + d) by (generalize (pow2_ge_0 (m1 - c)); lra). assert (0 <= (m2 - c) ^ 2 + d) by (generalize (pow2_ge_0 (m2 - c)); lra). destruct (Rle_dec z3 m1) as [N|N]; [assert (0 <= (m2 - z3) * ((m2 - c) ^ 2 + d)) by (apply Rmult_le_pos; lra)|assert (0 <= (z3 - m1) * ((m1 - c) ^ 2 + d)) by (apply Rmult_le_pos; lra)]; lra.
      - unfold cork_cardano in E. destruct (Rlt_dec 0 _) as [L2|L2]; [|exfalso; apply (proj1 Hr); lra]. destruct (Req_EM_T _ 0); [discriminate|]. injection E as E1 E2 E3. assert (Q1 : z1 = z3) by congruence. assert (Q2 : z2 = z3) by congruence. assert (B := above_root _ _ _ _ _ _ b S Pb). lra. }
    destruct (chosen_in liquid z1 z2 z3) as [I|[I|I]]; cbn [chosen_root] in I; rewrite I; tauto. }
  do 2 eexists. exact (vf_some liquid k T p _ Hb HT Hp E X).
Qed.
Lemma liquid_single : forall k T p, 0 < e_b (k_ab k) -> 0 < T -> 0 < p -> let a := e_a (k_ab k) in let b := e_b (k_ab k) in mrk_regular a b T p ->
  c_q (mrk_cb T p) (mrk_cc a b T p) ^ 3 < c_r (mrk_cb T p) (mrk_cc a b T p) (mrk_cd a b T p) ^ 2 -> exists v g, volume_fugacity PI liquid k T p = Some (v, g).
Proof.
  intros k T p Hb HT Hp a b Hr L. assert (Pb := poly_at_b a b T p Hb HT Hp). destruct (regular_some _ _ _ Hr) as (z1 & z2 & z3 & E & S). assert (B := above_root _ _ _ _ _ _ b S Pb). assert (E' := E). unfold cork_cardano in E. destruct (Rlt_dec 0 _) as [L2|L2]; [|exfalso; lra]. destruct (Req_EM_T _ 0); [discriminate|]. injection E as E1 E2 E3. assert (Q1 : z1 = z3) by congruence. assert (Q2 : z2 = z3) by congruence.
  do 2 eexists. apply (vf_some liquid k T p _ Hb HT Hp E'). rewrite Q1, Q2, chosen_same. fold b. lra.
Qed.
Lemma liq625 : h2o_con 625 = h2o_liq 625. Proof. unfold h2o_con. destruct (Rlt_dec 625 673); [reflexivity|lra]. Qed.
Lemma vap625 : h2o_vap 625 = h2o_gas 625. Proof. unfold h2o_vap. destruct (Rlt_dec 625 673); [reflexivity|lra]. Qed.
Lemma gas625_reg : mrk_regular (e_a (h2o_vap 625)) b_h2o 625 (1000 * h2o_psat 625 / 1000).
Proof. rewrite vap625, gas_a. unfold h2o_psat. reg_num 25. split; [apply Rgt_not_eq; lra|]. intros [H _]. revert H. apply Rgt_not_eq. lra. Qed.
Lemma liq625_reg : mrk_regular (e_a (h2o_con 625)) b_h2o 625 (1000 * h2o_psat 625 / 1000).
Proof. rewrite liq625, liq_a. unfold h2o_psat. reg_num 25. split; [apply Rgt_not_eq; lra|]. intros [H _]. revert H. apply Rlt_not_eq. lra. Qed.
Lemma liq625_reg1 : mrk_regular (e_a (h2o_con 625)) b_h2o 625 (1000 / 1000).
Proof. rewrite liq625, liq_a. reg_num 25. split; [apply Rlt_not_eq; lra|]. intros [H _]. revert H. apply Rlt_not_eq. lra. Qed.
Lemma psat625 : 0 < h2o_psat 625 < 1. Proof. unfold h2o_psat. lra. Qed.
Lemma h2o625 : forall Tc Pc P, P = 1000 * h2o_psat 625 \/ P = 1000 -> exists f, cork_pure PI "H2O" Tc Pc 625 P = Some f.
Proof.
  intros Tc Pc P HP. assert (S := psat625). rewrite h2o_pure. unfold h2o_state. destruct (Rlt_dec 695 625); [lra|]. destruct (Rlt_dec (P / 1000) (h2o_psat 625)); [lra|].
  assert (Hbv : 0 < e_b (k_ab (h2o_par (h2o_vap 625)))) by (cbn [h2o_par k_ab]; rewrite vap_b; exact b_h2o_pos). assert (Hbl : 0 < e_b (k_ab (h2o_par (h2o_con 625)))) by (cbn [h2o_par k_ab]; rewrite con_b; exact b_h2o_pos).
  assert (R1 := gas625_reg). assert (R2 := liq625_reg). assert (R3 := liq625_reg1). replace (1000 * h2o_psat 625 / 1000) with (h2o_psat 625) in R1, R2 by field. rewrite <- (vap_b 625) in R1. rewrite <- (con_b 625) in R2, R3.
  destruct (vapour_ok (h2o_par (h2o_vap 625)) 625 (h2o_psat 625) Hbv ltac:(lra) ltac:(lra) R1) as (u & _ & _ & _ & V1). rewrite V1.
  destruct (liquid_exists (h2o_par (h2o_con 625)) 625 (h2o_psat 625) 4 15 Hbl ltac:(lra) ltac:(lra) R2) as (v2 & g2 & V2); try lra; try (cbn [h2o_par k_ab]; rewrite liq625; unfold h2o_liq, h2o_cubic, h2o_b; cbn [e_a e_b]; unfold mrk_poly, poly, mrk_cb, mrk_cc, mrk_cd, RR, h2o_psat, h2o_a0; rewrite ?(sqrt_is 625 25) by lra; lra).
  rewrite V2. destruct HP as [HP|HP]; rewrite HP.
  - replace (1000 * h2o_psat 625 / 1000) with (h2o_psat 625) by field. rewrite V2. eexists. reflexivity.
  - destruct (liquid_single (h2o_par (h2o_con 625)) 625 (1000 / 1000) Hbl ltac:(lra) ltac:(lra) R3) as (v3 & g3 & V3).
    { cbn [h2o_par k_ab]; rewrite liq625; unfold h2o_liq, h2o_cubic, h2o_b; cbn [e_a e_b]; unfold c_q, c_r, mrk_cb, mrk_cc, mrk_cd, RR, h2o_a0; rewrite ?(sqrt_is 625 25) by lra; lra. }
    rewrite V3. eexists. reflexivity.
Qed.
