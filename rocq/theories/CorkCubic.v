(** Proofs about the cubic solver of the compensated Redlich-Kwong fluids and the choice among its roots. *)
From Coq Require Import List Bool Reals Lra Lia.
From Coquelicot Require Import Coquelicot.
From Verif Require Import RDeriv GasModel GasSpec GasCubic GasProofs GasDeriv GasMore GasPhase CorkModel.
Open Scope R_scope.

Lemma sqrt_cube : forall q, 0 < q -> sqrt (q ^ 3) = q * sqrt q.
Proof. intros q Hq. replace (q ^ 3) with (q ^ 2 * q) by ring. rewrite sqrt_mult by (try apply pow2_ge_0; lra). rewrite sqrt_pow2 by lra. reflexivity. Qed.
Lemma cube_pos : forall q r, r ^ 2 < q ^ 3 -> 0 < q.
Proof. intros q r H. destruct (Rlt_dec 0 q) as [|N]; [assumption|]. assert (q ^ 3 <= 0); [|generalize (pow2_ge_0 r); lra]. replace (q ^ 3) with (q * q ^ 2) by ring. generalize (pow2_ge_0 q). nra. Qed.
(** the angle of the code is the arc cosine, inside the region of three roots *)
Lemma angle_acos : forall cp cq, cp ^ 2 < cq ^ 3 -> cork_angle PI cp cq = Some (acos (cp / sqrt (cq ^ 3))).
Proof.
  intros cp cq H. assert (Hq := cube_pos _ _ H). assert (H3 : 0 < cq ^ 3) by (generalize (pow2_ge_0 cp); lra). assert (Hs := sqrt_lt_R0 _ H3). assert (Es : sqrt (cq ^ 3) * sqrt (cq ^ 3) = cq ^ 3) by (apply sqrt_sqrt; lra).
  unfold cork_angle. destruct (Req_EM_T cq 0); [lra|]. destruct (Req_EM_T cp 0) as [Z|NZ]; [subst cp; unfold Rdiv at 2; rewrite Rmult_0_l, acos_0; reflexivity|]. f_equal.
  set (x := cp / sqrt (cq ^ 3)). assert (Ex : cp ^ 2 / cq ^ 3 = Rsqr x). { unfold x, Rsqr. rewrite <- Es at 1. field. lra. }
  assert (Hx : Rsqr x < 1). { rewrite <- Ex. apply Rmult_lt_reg_r with (cq ^ 3); [exact H3|]. replace (cp ^ 2 / cq ^ 3 * cq ^ 3) with (cp ^ 2) by (field; lra). lra. }
  rewrite Ex. assert (Hn : x <> 0) by (unfold x; intros Z; apply NZ; apply Rmult_integral in Z; destruct Z as [Z|Z]; [exact Z|]; exfalso; revert Z; apply Rinv_neq_0_compat; lra).
  assert (Hw : 0 < sqrt (1 - Rsqr x)) by (apply sqrt_lt_R0; lra).
  destruct (Rlt_dec 0 x) as [P|N].
  - destruct (Rlt_dec (atan (sqrt (1 - Rsqr x) / x)) 0) as [L|_].
    + exfalso. assert (0 < atan (sqrt (1 - Rsqr x) / x)); [|lra]. rewrite <- atan_0. apply atan_increasing. apply Rdiv_lt_0_compat; assumption.
    + symmetry. apply acos_atan. exact P.
  - assert (Hneg : x < 0) by lra. destruct (Rlt_dec (atan (sqrt (1 - Rsqr x) / x)) 0) as [_|L].
    + replace x with (- (- x)) at 3 by ring. rewrite acos_opp. rewrite (acos_atan (- x)) by lra. rewrite <- Rsqr_neg. replace (sqrt (1 - Rsqr x) / - x) with (- (sqrt (1 - Rsqr x) / x)) by (field; lra). rewrite atan_opp. ring.
    + exfalso. apply L. rewrite <- atan_0. apply atan_increasing. replace (sqrt (1 - Rsqr x) / x) with (- (sqrt (1 - Rsqr x) / (- x))) by (field; lra). apply Ropp_lt_gt_0_contravar, Rlt_gt, Rdiv_lt_0_compat; lra.
Qed.
(** away from double roots it is the solver of the other cubic gases *)
Lemma cork_cardano_same : forall cb cc cd, c_q cb cc ^ 3 <> c_r cb cc cd ^ 2 -> cork_cardano PI cb cc cd = cardano PI cb cc cd.
Proof.
  intros cb cc cd Hne. unfold cork_cardano, cardano. set (q := c_q cb cc) in *. set (r := c_r cb cc cd) in *. destruct (Rlt_dec 0 (r ^ 2 - q ^ 3)) as [H|H]; destruct (Rlt_dec (r ^ 2) (q ^ 3)) as [H3|H3]; try (exfalso; lra).
  - destruct (Req_EM_T r 0) as [Z|NZ]; [reflexivity|].
    assert (Ha : 0 < Rabs r) by (now apply Rabs_pos_lt). assert (E : - r / Rabs r = -1 * (r / Rabs r)) by (field; lra). rewrite E. destruct (Req_EM_T _ 0) as [Z|_]; [|reflexivity].
    exfalso. apply Rmult_integral in Z. destruct Z as [Z|Z]; [|revert Z; apply Rgt_not_eq, exp_pos]. assert (r / Rabs r <> 0); [|lra]. unfold Rdiv. apply Rmult_integral_contrapositive_currified; [exact NZ|apply Rinv_neq_0_compat; lra].
  - rewrite (angle_acos r q H3). set (th := acos (r / sqrt (q ^ 3))). f_equal. f_equal; [f_equal|]; do 3 f_equal; field.
Qed.
(** every answer of the solver inside its domain *)
Lemma cork_solved : forall cb cc cd r, c_q cb cc ^ 3 <> c_r cb cc cd ^ 2 -> cork_cardano PI cb cc cd = Some r -> solved cb cc cd r.
Proof. intros cb cc cd r Hne E. rewrite cork_cardano_same in E by exact Hne. now apply cardano_solved. Qed.
Lemma above_root : forall a2 a1 a0 z1 z2 z3 b, solved a2 a1 a0 (z1, z2, z3) -> poly a2 a1 a0 b < 0 -> b < z1 \/ b < z2 \/ b < z3.
Proof.
  intros a2 a1 a0 z1 z2 z3 b S H. inversion S as [u1 u2 u3 F E|z c d Hd F E]; subst; rewrite F in H.
  - destruct (Rlt_dec b z1) as [|N1]; [tauto|]. destruct (Rlt_dec b z2) as [|N2]; [tauto|]. destruct (Rlt_dec b z3) as [|N3]; [tauto|]. exfalso. assert (0 <= (b - z1) * (b - z2) * (b - z3)); [|lra]. apply Rmult_le_pos; [apply Rmult_le_pos|]; lra.
  - destruct (Rlt_dec b z3) as [|N]; [tauto|]. exfalso. assert (0 <= (b - z3) * ((b - c) ^ 2 + d)); [|lra]. apply Rmult_le_pos; [lra|]. generalize (pow2_ge_0 (b - c)). lra.
Qed.
(** every real root is among those returned *)
Lemma all_roots : forall a2 a1 a0 z1 z2 z3 y, solved a2 a1 a0 (z1, z2, z3) -> c_q a2 a1 ^ 3 <> c_r a2 a1 a0 ^ 2 -> poly a2 a1 a0 y = 0 -> y = z1 \/ y = z2 \/ y = z3.
Proof.
  intros a2 a1 a0 z1 z2 z3 y S Hne H. inversion S as [u1 u2 u3 F E|z c d Hd F E]; subst.
  - rewrite F in H. apply Rmult_integral in H. destruct H as [H|H]; [apply Rmult_integral in H; destruct H|]; lra.
  - assert (H' := H). rewrite F in H. apply Rmult_integral in H. destruct H as [H|H]; [lra|]. exfalso. apply Hne. symmetry. apply (double_root _ _ _ y H'). assert (d = 0 /\ y = c) as [-> ->]. { generalize (pow2_ge_0 (y - c)). intros. assert (D0 : d = 0) by lra. split; [exact D0|]. assert (Q : (y - c) ^ 2 = 0) by lra. assert (Q' : Rsqr (y - c) = 0) by (unfold Rsqr; nra). apply Rsqr_0_uniq in Q'. lra. }
    apply (d_unique (poly a2 a1 a0) c); [apply poly_d|]. eapply d_ext; [intros t; symmetry; apply F|]. auto_derive; [exact I|]. ring.
Qed.

Ltac inner x := lazymatch x with context[Rlt_dec _ _] => fail | _ => idtac end.
Ltac dec_lra := repeat (match goal with |- context[Rlt_dec ?x ?y] => inner x; inner y; destruct (Rlt_dec x y) end); try (exfalso; lra); try lra.
Lemma chosen_same : forall ph z, chosen_root ph (z, z, z) = z.
Proof. intros [|] z; unfold chosen_root, vapour_root, liquid_root, first_pos; dec_lra. Qed.
Lemma chosen_in : forall ph z1 z2 z3, chosen_root ph (z1, z2, z3) = z1 \/ chosen_root ph (z1, z2, z3) = z2 \/ chosen_root ph (z1, z2, z3) = z3.
Proof. intros [|] z1 z2 z3; unfold chosen_root, vapour_root, liquid_root, first_pos; dec_lra; tauto. Qed.
(** the vapour root is the largest one as soon as some root is positive *)
Lemma vapour_max : forall z1 z2 z3, 0 < z1 \/ 0 < z2 \/ 0 < z3 -> z1 <= vapour_root (z1, z2, z3) /\ z2 <= vapour_root (z1, z2, z3) /\ z3 <= vapour_root (z1, z2, z3).
Proof. intros z1 z2 z3 H. unfold vapour_root, first_pos. dec_lra; destruct H as [H|[H|H]]; try (exfalso; lra); repeat split; lra. Qed.
(** the liquid root is the least one when all are positive *)
Lemma liquid_min : forall z1 z2 z3, 0 < z1 -> 0 < z2 -> 0 < z3 -> liquid_root (z1, z2, z3) <= z1 /\ liquid_root (z1, z2, z3) <= z2 /\ liquid_root (z1, z2, z3) <= z3.
Proof. intros z1 z2 z3 H1 H2 H3. unfold liquid_root, first_pos. dec_lra; repeat split; lra. Qed.
(** with one positive and two negative roots, the positive one in the second place, a negative root is taken *)
Lemma liquid_bad : forall z1 z2 z3, z1 <= 0 -> 0 < z2 -> z3 <= 0 -> liquid_root (z1, z2, z3) = z3.
Proof. intros z1 z2 z3 H1 H2 H3. unfold liquid_root, first_pos. dec_lra; reflexivity. Qed.

(** *** the choice does not jump while the roots are distinct *)
Section Jump.
Variables (z1 z2 z3 : R -> R) (x : R).
Hypothesis D1 : ex_derive z1 x.
Hypothesis D2 : ex_derive z2 x.
Hypothesis D3 : ex_derive z3 x.
Lemma near_lt2 : forall f g : R -> R, ex_derive f x -> ex_derive g x -> f x < g x -> locally x (fun t => f t < g t).
Proof.
  intros f g Df Dg H. assert (L : locally x (fun t => 0 < g t - f t)) by (apply (near_cont (fun t => g t - f t)); [destruct Df as [lf Hf], Dg as [lg Hg]; eexists; apply d_minus; eassumption|lra]).
  revert L. apply filter_imp. intros t Ht. lra.
Qed.
Lemma vapour_near : (0 < z1 x \/ 0 < z2 x \/ 0 < z3 x) -> z1 x <> z2 x -> z2 x <> z3 x -> z1 x <> z3 x ->
  exists z : R -> R, ex_derive z x /\ locally x (fun t => vapour_root (z1 t, z2 t, z3 t) = z t).
Proof.
  intros Hp N12 N23 N13. assert (M := vapour_max _ _ _ Hp). assert (I := chosen_in vapour (z1 x) (z2 x) (z3 x)). cbn [chosen_root] in I.
  assert (Pz : 0 < vapour_root (z1 x, z2 x, z3 x)) by (destruct Hp as [H|[H|H]]; lra).
  destruct I as [I|[I|I]]; rewrite I in M, Pz.
  - exists z1. split; [exact D1|]. assert (A := near_lt2 z2 z1 D2 D1 ltac:(lra)). assert (B := near_lt2 z3 z1 D3 D1 ltac:(lra)). assert (C := near_cont z1 x 0 D1 Pz). generalize (near_both _ _ _ A (near_both _ _ _ B C)). apply filter_imp. intros t (E1 & E2 & E3). unfold vapour_root, first_pos. dec_lra; reflexivity.
  - exists z2. split; [exact D2|]. assert (A := near_lt2 z1 z2 D1 D2 ltac:(lra)). assert (B := near_lt2 z3 z2 D3 D2 ltac:(lra)). assert (C := near_cont z2 x 0 D2 Pz). generalize (near_both _ _ _ A (near_both _ _ _ B C)). apply filter_imp. intros t (E1 & E2 & E3). unfold vapour_root, first_pos. dec_lra; reflexivity.
  - exists z3. split; [exact D3|]. assert (A := near_lt2 z1 z3 D1 D3 ltac:(lra)). assert (B := near_lt2 z2 z3 D2 D3 ltac:(lra)). assert (C := near_cont z3 x 0 D3 Pz). generalize (near_both _ _ _ A (near_both _ _ _ B C)). apply filter_imp. intros t (E1 & E2 & E3). unfold vapour_root, first_pos. dec_lra; reflexivity.
Qed.
(** a comparison that is strict at x stays as it is *)
Definition stays (f g : R -> R) : Prop := f x < g x /\ locally x (fun t => f t < g t) \/ ~ f x < g x /\ locally x (fun t => ~ f t < g t).
Lemma stays_ne : forall f g : R -> R, ex_derive f x -> ex_derive g x -> f x <> g x -> stays f g.
Proof.
  intros f g Df Dg N. destruct (Rlt_dec (f x) (g x)) as [L|L]; [left|right]; (split; [exact L|]); [now apply near_lt2|]. assert (Q := near_lt2 g f Dg Df ltac:(lra)). revert Q. apply filter_imp. intros t Ht. lra.
Qed.
Lemma stays_id : forall f : R -> R, stays f f.
Proof. intros f. right. split; [lra|]. apply filter_forall. intros t. lra. Qed.
Lemma liquid_near : z1 x <> 0 -> z2 x <> 0 -> z1 x <> z2 x -> z2 x <> z3 x -> z1 x <> z3 x ->
  exists z : R -> R, ex_derive z x /\ locally x (fun t => liquid_root (z1 t, z2 t, z3 t) = z t).
Proof.
  intros Z1 Z2 N12 N23 N13. assert (D0 : ex_derive (fun _ : R => 0) x) by (exists 0; apply d_const).
  assert (S1 := stays_ne (fun _ => 0) z1 D0 D1 ltac:(cbv beta; lra)). assert (S2 := stays_ne (fun _ => 0) z2 D0 D2 ltac:(cbv beta; lra)).
  assert (S21 := stays_ne z2 z1 D2 D1 ltac:(lra)). assert (S32 := stays_ne z3 z2 D3 D2 ltac:(lra)). assert (S31 := stays_ne z3 z1 D3 D1 ltac:(lra)).
  assert (G : exists z, (z = z1 \/ z = z2 \/ z = z3) /\ locally x (fun t => liquid_root (z1 t, z2 t, z3 t) = z t)).
  { destruct S1 as [[A1 L1]|[A1 L1]], S2 as [[A2 L2]|[A2 L2]], S21 as [[A3 L3]|[A3 L3]], S32 as [[A4 L4]|[A4 L4]], S31 as [[A5 L5]|[A5 L5]]; cbv beta in *;
    generalize (near_both _ _ _ L1 (near_both _ _ _ L2 (near_both _ _ _ L3 (near_both _ _ _ L4 L5)))); intros L;
    (destruct (chosen_in liquid (z1 x) (z2 x) (z3 x)) as [I|[I|I]]; cbn [chosen_root] in I;
     [exists z1; split; [tauto|]|exists z2; split; [tauto|]|exists z3; split; [tauto|]]; revert L; apply filter_imp; intros t (B1 & B2 & B3 & B4 & B5);
     revert I; unfold liquid_root, first_pos;
     repeat (match goal with |- context[Rlt_dec ?u ?v] => inner u; inner v; destruct (Rlt_dec u v); try (exfalso; lra) end); intros I; try reflexivity; exfalso; lra). }
  destruct G as (z & [E | [E | E]] & L); rewrite E in L; [exists z1|exists z2|exists z3]; split; assumption.
Qed.
End Jump.
(** the chosen root as a function of a parameter *)
Lemma chosen_smooth : forall ph (a2 a1 a0 : R -> R) x d2 d1 d0, is_derive a2 x d2 -> is_derive a1 x d1 -> is_derive a0 x d0 ->
  regular (a2 x) (a1 x) (a0 x) -> (ph = vapour /\ exists b, 0 < b /\ poly (a2 x) (a1 x) (a0 x) b < 0) \/ a0 x <> 0 ->
  exists z : R -> R, ex_derive z x /\ locally x (fun t => c_q (a2 t) (a1 t) ^ 3 <> c_r (a2 t) (a1 t) (a0 t) ^ 2 /\ exists r, cork_cardano PI (a2 t) (a1 t) (a0 t) = Some r /\ chosen_root ph r = z t).
Proof.
  intros ph a2 a1 a0 x d2 d1 d0 H2 H1 H0 [Hne Hn] Hz. destruct (cardano_smooth a2 a1 a0 x d2 d1 d0 H2 H1 H0 Hne Hn) as (z1 & z2 & z3 & D1 & D2 & D3 & Lo & Cs).
  assert (Q : locally x (fun t => c_q (a2 t) (a1 t) ^ 3 <> c_r (a2 t) (a1 t) (a0 t) ^ 2)).
  { destruct (qf_d a2 a1 x d2 d1 H2 H1) as [lq Dq]. destruct (rf_d a2 a1 a0 x d2 d1 d0 H2 H1 H0) as [lr Dr].
    assert (E3 : ex_derive (fun t => qf a2 a1 t ^ 3) x) by (eexists; apply d_pow; exact Dq). assert (E2 : ex_derive (fun t => rf a2 a1 a0 t ^ 2) x) by (eexists; apply d_pow; exact Dr).
    destruct (Rtotal_order (qf a2 a1 x ^ 3) (rf a2 a1 a0 x ^ 2)) as [L|[L|L]]; idtac.
    - generalize (near_lt2 x _ _ E3 E2 L). apply filter_imp. unfold qf, rf. intros t Ht. lra.
    - exfalso. apply Hne. exact L.
    - generalize (near_lt2 x _ _ E2 E3 L). apply filter_imp. unfold qf, rf. intros t Ht. lra. }
  assert (K : forall z : R -> R, locally x (fun t => chosen_root ph (z1 t, z2 t, z3 t) = z t) -> locally x (fun t => c_q (a2 t) (a1 t) ^ 3 <> c_r (a2 t) (a1 t) (a0 t) ^ 2 /\ exists r, cork_cardano PI (a2 t) (a1 t) (a0 t) = Some r /\ chosen_root ph r = z t)).
  { intros z Lz. generalize (near_both _ _ _ Q (near_both _ _ _ Lo Lz)). apply filter_imp. intros t (T0 & T1 & T2). split; [exact T0|]. exists (z1 t, z2 t, z3 t). split; [rewrite cork_cardano_same by exact T0; exact T1|exact T2]. }
  assert (E := locally_singleton _ _ Lo). cbv beta in E. assert (S := cardano_solved _ _ _ _ E). destruct Cs as [[<- <-]|(N12 & N23 & N13)].
  - exists z1. split; [exact D1|]. apply K. apply filter_forall. intros t. apply chosen_same.
  - destruct ph.
    + destruct (Rlt_dec 0 (z1 x)) as [P1|P1]; [|destruct (Rlt_dec 0 (z2 x)) as [P2|P2]; [|destruct (Rlt_dec 0 (z3 x)) as [P3|P3]]].
      1-3: destruct (vapour_near z1 z2 z3 x D1 D2 D3) as (z & Dz & Lz); [tauto|exact N12|exact N23|exact N13|exists z; split; [exact Dz|now apply K]].
      destruct Hz as [(_ & b & Hb & Pb)|Hz].
      * exfalso. destruct (above_root _ _ _ _ _ _ b S Pb) as [B|[B|B]]; lra.
      * destruct (solved_zero _ _ _ _ _ _ S) as (R1 & R2 & R3).
        assert (NZ : forall y, poly (a2 x) (a1 x) (a0 x) y = 0 -> y <> 0) by (intros y Py ->; apply Hz; unfold poly in Py; lra). assert (z1 x < 0) by (generalize (NZ _ R1); lra). assert (z2 x < 0) by (generalize (NZ _ R2); lra). assert (z3 x < 0) by (generalize (NZ _ R3); lra).
        assert (L1 := near_cont_lt z1 x 0 D1 ltac:(assumption)). assert (L2 := near_cont_lt z2 x 0 D2 ltac:(assumption)). assert (L3 := near_cont_lt z3 x 0 D3 ltac:(assumption)).
        destruct (Rlt_dec (z3 x) (z2 x)) as [C|C].
        -- exists z2. split; [exact D2|]. apply K. generalize (near_both _ _ _ L1 (near_both _ _ _ L2 (near_both _ _ _ L3 (near_lt2 x z3 z2 D3 D2 C)))). apply filter_imp. intros t (U1 & U2 & U3 & U4). unfold chosen_root, vapour_root, first_pos. dec_lra; reflexivity.
        -- exists z3. split; [exact D3|]. apply K. generalize (near_both _ _ _ L1 (near_both _ _ _ L2 (near_both _ _ _ L3 (near_lt2 x z2 z3 D2 D3 ltac:(lra))))). apply filter_imp. intros t (U1 & U2 & U3 & U4). unfold chosen_root, vapour_root, first_pos. dec_lra; reflexivity.
    + destruct Hz as [[Hz _]|Hz]; [discriminate|]. destruct (solved_zero _ _ _ _ _ _ S) as (R1 & R2 & R3).
      assert (NZ : forall y, poly (a2 x) (a1 x) (a0 x) y = 0 -> y <> 0) by (intros y Py ->; apply Hz; unfold poly in Py; lra).
      destruct (liquid_near z1 z2 z3 x D1 D2 D3 (NZ _ R1) (NZ _ R2) N12 N23 N13) as (z & Dz & Lz). exists z. split; [exact Dz|now apply K].
Qed.
