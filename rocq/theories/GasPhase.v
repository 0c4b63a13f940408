(** The single-phase case: the reported volume varies smoothly; the three models; counterexamples. *)
From Coq Require Import List Bool Reals Lra Lia.
From Coquelicot Require Import Coquelicot.
From Verif Require Import RDeriv GasModel GasSpec GasCubic GasProofs GasDeriv GasMore.
Open Scope R_scope.

Definition dpoly (a2 a1 z : R) : R := 3 * z ^ 2 + 2 * a2 * z + a1.
Lemma poly_d : forall a2 a1 a0 z, is_derive (poly a2 a1 a0) z (dpoly a2 a1 z).
Proof. intros. unfold poly, dpoly. auto_derive; [exact I|]. ring. Qed.
Lemma double_root : forall a2 a1 a0 z, poly a2 a1 a0 z = 0 -> dpoly a2 a1 z = 0 -> c_r a2 a1 a0 ^ 2 = c_q a2 a1 ^ 3.
Proof.
  intros a2 a1 a0 z H0 H1. assert (E1 : a1 = - (3 * z ^ 2 + 2 * a2 * z)) by (unfold dpoly in H1; lra).
  assert (E0 : a0 = - (z ^ 3 + a2 * z ^ 2 + a1 * z)) by (unfold poly in H0; lra). rewrite E0, E1. unfold c_r, c_q. field.
Qed.
(** outside the region of three roots the solution is smooth *)
Lemma near_cont : forall (f : R -> R) x c, ex_derive f x -> c < f x -> locally x (fun t => c < f t).
Proof. intros f x c H Hc. apply ex_derive_continuous in H. exact (H _ (open_gt c (f x) Hc)). Qed.
Lemma near_cont_lt : forall (f : R -> R) x c, ex_derive f x -> f x < c -> locally x (fun t => f t < c).
Proof. intros f x c H Hc. apply ex_derive_continuous in H. exact (H _ (open_lt c (f x) Hc)). Qed.
Lemma ex_d : forall (f : R -> R) x l, is_derive f x l -> ex_derive f x.
Proof. intros f x l H. now exists l. Qed.
Section Smooth.
Variables (a2 a1 a0 : R -> R) (x d2 d1 d0 : R).
Hypothesis H2 : is_derive a2 x d2.
Hypothesis H1 : is_derive a1 x d1.
Hypothesis H0 : is_derive a0 x d0.
Definition qf (t : R) := c_q (a2 t) (a1 t).
Definition rf (t : R) := c_r (a2 t) (a1 t) (a0 t).
Lemma qf_d : exists l, is_derive qf x l.
Proof. eexists. unfold qf, c_q, Rdiv. apply d_scal_r, d_minus; [apply d_pow; exact H2|apply d_scal; exact H1]. Qed.
Lemma rf_d : exists l, is_derive rf x l.
Proof. eexists. unfold rf, c_r, Rdiv. apply d_scal_r, d_plus; [apply d_minus; [apply d_scal, d_pow; exact H2|apply d_mult; [apply d_scal; exact H2|exact H1]]|apply d_scal; exact H0]. Qed.
Hypothesis Hone : qf x ^ 3 < rf x ^ 2.
Hypothesis Hnz : rf x <> 0.
Definition sgf (t : R) : R := rf t / Rabs (rf t).
Definition acf (t : R) : R := -1 * (rf x / Rabs (rf x)) * Rpower (rf x / Rabs (rf x) * rf t + sqrt (rf t ^ 2 - qf t ^ 3)) (1 / 3).
Definition zf (t : R) : R := acf t + qf t / acf t - a2 t / 3.
Lemma sg : rf x / Rabs (rf x) = 1 /\ 0 < rf x \/ rf x / Rabs (rf x) = -1 /\ rf x < 0.
Proof. destruct (Rtotal_order (rf x) 0) as [N|[N|N]]; [right|contradiction|left]; (split; [|lra]); [rewrite Rabs_left by lra|rewrite Rabs_right by lra]; field; lra. Qed.
Lemma zf_smooth : exists l, is_derive zf x l.
Proof.
  destruct qf_d as [ql Dq]. destruct rf_d as [rl Dr]. set (s := rf x / Rabs (rf x)).
  assert (Hs : 0 < rf x ^ 2 - qf x ^ 3) by lra. assert (Hq := sqrt_lt_R0 _ Hs).
  assert (Hr : 0 < s * rf x). { unfold s. destruct sg as [[-> N]|[-> N]]; lra. }
  assert (Da : exists l, is_derive acf x l).
  { eexists. unfold acf. fold s. apply d_scal, (d_Rpower (fun t => s * rf t + sqrt (rf t ^ 2 - qf t ^ 3))).
    - apply d_plus; [apply d_scal; exact Dr|]. apply (d_sqrt (fun t => rf t ^ 2 - qf t ^ 3)); [apply d_minus; apply d_pow; [exact Dr|exact Dq]|exact Hs].
    - cbv beta. lra. }
  destruct Da as [al Da]. assert (Na : acf x <> 0).
  { unfold acf. apply Rmult_integral_contrapositive. split; [|apply Rgt_not_eq; unfold Rpower; apply exp_pos]. apply Rmult_integral_contrapositive. split; [lra|]. fold s. intros Z. rewrite Z in Hr. lra. }
  eexists. unfold zf. apply d_minus; [apply d_plus; [exact Da|apply d_div; [exact Dq|exact Da|exact Na]]|unfold Rdiv; apply d_scal_r; exact H2].
Qed.
Lemma zf_root : locally x (fun t => cardano PI (a2 t) (a1 t) (a0 t) = Some (zf t, zf t, zf t)).
Proof.
  destruct qf_d as [ql Dq]. destruct rf_d as [rl Dr].
  assert (N1 : locally x (fun t => 0 < rf t ^ 2 - qf t ^ 3)). { apply near_cont; [|lra]. eexists. apply d_minus; apply d_pow; [exact Dr|exact Dq]. }
  assert (N2 : locally x (fun t => 0 < rf x / Rabs (rf x) * rf t)). { apply near_cont; [eexists; apply d_scal; exact Dr|]. destruct sg as [[-> N]|[-> N]]; lra. }
  generalize (near_both _ _ _ N1 N2). apply filter_imp. intros t [L1 L2]. unfold cardano. fold (qf t) (rf t). destruct (Rlt_dec (rf t ^ 2) (qf t ^ 3)); [lra|].
  destruct (Req_EM_T (rf t) 0) as [Z|Z]; [rewrite Z, Rmult_0_r in L2; lra|].
  assert (Ea : rf t / Rabs (rf t) = rf x / Rabs (rf x) /\ Rabs (rf t) = rf x / Rabs (rf x) * rf t).
  { destruct sg as [[E N]|[E N]]; rewrite E in *; [rewrite Rabs_right by lra|rewrite Rabs_left by lra]; split; try ring; field; lra. }
  destruct Ea as [Ea Eb]. rewrite Ea, Eb. reflexivity.
Qed.
End Smooth.
(** in the region of three roots *)
Lemma d_acos : forall (g : R -> R) x l, is_derive g x l -> -1 < g x < 1 -> exists l', is_derive (fun t => acos (g t)) x l'.
Proof. intros g x l D H. eexists. apply (d_comp acos g); [|exact D]. exact (proj2 (is_derive_Reals _ _ _) (derive_pt_eq_1 acos (g x) _ (derivable_pt_acos (g x) H) (derive_pt_acos (g x) H))). Qed.
Lemma d_cos : forall (g : R -> R) x l, is_derive g x l -> is_derive (fun t => cos (g t)) x (- sin (g x) * l).
Proof. intros g x l D. apply (d_comp cos g); [|exact D]. apply is_derive_Reals, derivable_pt_lim_cos. Qed.
Section Three.
Variables (a2 a1 a0 : R -> R) (x d2 d1 d0 : R).
Hypothesis H2 : is_derive a2 x d2.
Hypothesis H1 : is_derive a1 x d1.
Hypothesis H0 : is_derive a0 x d0.
Let q := qf a2 a1.
Let r := rf a2 a1 a0.
Hypothesis Hthree : r x ^ 2 < q x ^ 3.
Definition tf (s : R) (t : R) : R := -2 * sqrt (qf a2 a1 t) * cos (acos (rf a2 a1 a0 t / sqrt (qf a2 a1 t ^ 3)) / 3 + s) - a2 t / 3.
Lemma tf_smooth : forall s, exists l, is_derive (tf s) x l.
Proof.
  intros s. destruct (qf_d _ _ _ _ _ H2 H1) as [ql Dq]. destruct (rf_d _ _ _ _ _ _ _ H2 H1 H0) as [rl Dr]. assert (Hq := proj1 (three_roots _ _ Hthree)). fold q in Dq. fold r in Dr.
  assert (Hq3 : 0 < q x ^ 3) by (now apply pow_lt). assert (Hs := sqrt_lt_R0 _ Hq3).
  assert (D3 : exists l, is_derive (fun t => r t / sqrt (q t ^ 3)) x l). { eexists. apply d_div; [exact Dr|apply (d_sqrt (fun t => q t ^ 3)); [apply d_pow; exact Dq|exact Hq3]|lra]. }
  destruct D3 as [l3 D3]. destruct (d_acos _ _ _ D3) as [la Da].
  - assert (Hr : Rabs (r x) < sqrt (q x ^ 3)). { rewrite <- sqrt_Rsqr_abs. apply sqrt_lt_1; [apply Rle_0_sqr|lra|]. unfold Rsqr. simpl in Hthree |- *. lra. }
    apply Rabs_def2 in Hr. split; apply Rmult_lt_reg_r with (sqrt (q x ^ 3)); try exact Hs; unfold Rdiv; rewrite Rmult_assoc, Rinv_l by lra; lra.
  - eexists. unfold tf. fold q r. apply d_minus; [|unfold Rdiv; apply d_scal_r; exact H2]. apply d_mult; [apply d_scal, (d_sqrt q); [exact Dq|exact Hq]|]. apply d_cos. apply d_plus; [unfold Rdiv; apply d_scal_r; exact Da|apply d_const].
Qed.
Lemma tf_root : locally x (fun t => cardano PI (a2 t) (a1 t) (a0 t) = Some (tf 0 t, tf (2 / 3 * PI) t, tf (- (2 / 3 * PI)) t)).
Proof.
  destruct (qf_d _ _ _ _ _ H2 H1) as [ql Dq]. destruct (rf_d _ _ _ _ _ _ _ H2 H1 H0) as [rl Dr].
  assert (N : locally x (fun t => 0 < q t ^ 3 - r t ^ 2)). { apply near_cont; [|lra]. eexists. apply d_minus; apply d_pow; [exact Dq|exact Dr]. }
  generalize N. apply filter_imp. intros t L1. unfold cardano, tf. fold (qf a2 a1 t) (rf a2 a1 a0 t). destruct (Rlt_dec (rf a2 a1 a0 t ^ 2) (qf a2 a1 t ^ 3)) as [|Nn]; [|unfold q, r in L1; lra]. rewrite Rplus_0_r. reflexivity.
Qed.
End Three.
(** both regions *)
Lemma cardano_smooth : forall (a2 a1 a0 : R -> R) x d2 d1 d0, is_derive a2 x d2 -> is_derive a1 x d1 -> is_derive a0 x d0 -> c_q (a2 x) (a1 x) ^ 3 <> c_r (a2 x) (a1 x) (a0 x) ^ 2 -> ~ (c_r (a2 x) (a1 x) (a0 x) = 0 /\ c_q (a2 x) (a1 x) <= 0) ->
  exists z1 z2 z3 : R -> R, ex_derive z1 x /\ ex_derive z2 x /\ ex_derive z3 x /\ locally x (fun t => cardano PI (a2 t) (a1 t) (a0 t) = Some (z1 t, z2 t, z3 t)) /\ (z1 = z2 /\ z2 = z3 \/ z1 x <> z2 x /\ z2 x <> z3 x /\ z1 x <> z3 x).
Proof.
  intros a2 a1 a0 x d2 d1 d0 H2 H1 H0 Hne Hn. destruct (Rlt_dec (c_r (a2 x) (a1 x) (a0 x) ^ 2) (c_q (a2 x) (a1 x) ^ 3)) as [L|L].
  - assert (T := tf_root _ _ _ _ _ _ _ H2 H1 H0 L). exists (tf a2 a1 a0 0), (tf a2 a1 a0 (2 / 3 * PI)), (tf a2 a1 a0 (- (2 / 3 * PI))).
    split; [destruct (tf_smooth _ _ _ _ _ _ _ H2 H1 H0 L 0) as [l D]; now exists l|]. split; [destruct (tf_smooth _ _ _ _ _ _ _ H2 H1 H0 L (2 / 3 * PI)) as [l D]; now exists l|]. split; [destruct (tf_smooth _ _ _ _ _ _ _ H2 H1 H0 L (- (2 / 3 * PI))) as [l D]; now exists l|].
    split; [exact T|]. right. assert (E := locally_singleton _ _ T). cbv beta in E. assert (F := cardano_three _ _ _ _ _ _ L E).
    set (y1 := tf a2 a1 a0 0 x) in *. set (y2 := tf a2 a1 a0 (2 / 3 * PI) x) in *. set (y3 := tf a2 a1 a0 (- (2 / 3 * PI)) x) in *.
    assert (W : forall y, poly (a2 x) (a1 x) (a0 x) y = 0 -> dpoly (a2 x) (a1 x) y <> 0). { intros y Py Z. apply Hne. symmetry. exact (double_root _ _ _ _ Py Z). }
    assert (W' : forall y, dpoly (a2 x) (a1 x) y = (y - y1) * (y - y2) + (y - y1) * (y - y3) + (y - y2) * (y - y3)).
    { intros y. apply (d_unique (poly (a2 x) (a1 x) (a0 x)) y); [apply poly_d|]. eapply d_ext; [intros t; symmetry; apply F|]. auto_derive; [exact I|]. ring. }
    split; [|split]; intros Z; [apply (W y1)|apply (W y2)|apply (W y1)]; rewrite ?F, ?W', ?Z; ring.
  - assert (L' : qf a2 a1 x ^ 3 < rf a2 a1 a0 x ^ 2) by (unfold qf, rf; lra). assert (Hnz : rf a2 a1 a0 x <> 0).
    { intros Z. apply Hn. split; [exact Z|]. unfold rf, qf in *. rewrite Z in L'. destruct (Rle_dec (c_q (a2 x) (a1 x)) 0) as [|G]; [assumption|]. assert (0 < c_q (a2 x) (a1 x) ^ 3) by (apply pow_lt; lra). lra. }
    set (z := zf a2 a1 a0 x). exists z, z, z. assert (S : ex_derive z x) by (destruct (zf_smooth _ _ _ _ _ _ _ H2 H1 H0 L' Hnz) as [l D]; now exists l). split; [exact S|]. split; [exact S|]. split; [exact S|]. split; [exact (zf_root _ _ _ _ _ _ _ H2 H1 H0 L' Hnz)|]. left. split; reflexivity.
Qed.
(** the choice among the roots does not jump while one of them is strictly the best *)
Section Jump.
Variables (B : R -> R) (L : R -> R -> R) (x : R).
Hypothesis HB : ex_derive B x.
Hypothesis HL : forall z, ex_derive z x -> B x < z x -> ex_derive (fun t => L t (z t)) x.
Let lnf (t : R) : R -> R := lnf_of (B t) (L t).
Lemma minus_near : forall f g : R -> R, ex_derive f x -> ex_derive g x -> f x < g x -> locally x (fun t => f t < g t).
Proof.
  intros f g [lf Df] [lg Dg] H. assert (N : locally x (fun t => 0 < g t - f t)) by (apply (near_cont (fun t => g t - f t)); [eexists; apply d_minus; [exact Dg|exact Df]|lra]).
  revert N. apply filter_imp. intros t Ht. lra.
Qed.
Lemma beats : forall z y : R -> R, ex_derive z x -> ex_derive y x -> B x < z x -> L x (z x) < 1000 -> y x <> B x -> (B x < y x -> L x (z x) < L x (y x)) -> locally x (fun t => lnf t (z t) < lnf t (y t)).
Proof.
  intros z y Dz Dy Hz H1000 Hy Hs. assert (N1 := minus_near B z HB Dz Hz). assert (Hc : ex_derive (fun _ : R => 1000) x) by (exists 0; apply d_const). destruct (Rlt_dec (B x) (y x)) as [Y|Y].
  - assert (N2 := minus_near B y HB Dy Y). assert (N3 := minus_near _ _ (HL z Dz Hz) (HL y Dy Y) (Hs Y)). generalize (near_both _ _ _ N1 (near_both _ _ _ N2 N3)). apply filter_imp. intros t (T1 & T2 & T3). unfold lnf, lnf_of. destruct (Rlt_dec (B t) (z t)); [|contradiction]. destruct (Rlt_dec (B t) (y t)); [|contradiction]. exact T3.
  - assert (Y' : y x < B x) by lra. assert (N2 := minus_near y B Dy HB Y'). assert (N3 := minus_near _ _ (HL z Dz Hz) Hc H1000). generalize (near_both _ _ _ N1 (near_both _ _ _ N2 N3)). apply filter_imp. intros t (T1 & T2 & T3). unfold lnf, lnf_of. destruct (Rlt_dec (B t) (z t)); [|contradiction]. destruct (Rlt_dec (B t) (y t)); [lra|]. exact T3.
Qed.
Lemma pick_near : forall z1 z2 z3 : R -> R, ex_derive z1 x -> ex_derive z2 x -> ex_derive z3 x -> z1 x <> z2 x -> z2 x <> z3 x -> z1 x <> z3 x -> (z1 x <> B x /\ z2 x <> B x /\ z3 x <> B x) ->
  let c := pick (lnf x) (z1 x, z2 x, z3 x) in B x < c -> L x c < 1000 -> (forall y, y = z1 x \/ y = z2 x \/ y = z3 x -> B x < y -> y <> c -> L x c < L x y) ->
  exists z : R -> R, ex_derive z x /\ locally x (fun t => pick (lnf t) (z1 t, z2 t, z3 t) = z t).
Proof.
  intros z1 z2 z3 D1 D2 D3 N12 N23 N13 (B1 & B2 & B3) c Hc H1000 Hs. destruct (pick_in (lnf x) (z1 x) (z2 x) (z3 x)) as [[E|[E|E]] _]; fold c in E; rewrite E in *.
  - exists z1. split; [exact D1|]. assert (W2 := beats z1 z2 D1 D2 Hc H1000 B2 (fun h => Hs _ (or_intror (or_introl eq_refl)) h (not_eq_sym N12))). assert (W3 := beats z1 z3 D1 D3 Hc H1000 B3 (fun h => Hs _ (or_intror (or_intror eq_refl)) h (not_eq_sym N13))).
    generalize (near_both _ _ _ W2 W3). apply filter_imp. intros t [T2 T3]. unfold pick. destruct (Rlt_dec (lnf t (z2 t)) (lnf t (z1 t))); [lra|]. destruct (Rlt_dec _ _); [lra|reflexivity].
  - exists z2. split; [exact D2|]. assert (W1 := beats z2 z1 D2 D1 Hc H1000 B1 (fun h => Hs _ (or_introl eq_refl) h N12)). assert (W3 := beats z2 z3 D2 D3 Hc H1000 B3 (fun h => Hs _ (or_intror (or_intror eq_refl)) h (not_eq_sym N23))).
    generalize (near_both _ _ _ W1 W3). apply filter_imp. intros t [T2 T3]. unfold pick. destruct (Rlt_dec (lnf t (z2 t)) (lnf t (z1 t))); [|lra]. destruct (Rlt_dec _ _); [lra|reflexivity].
  - exists z3. split; [exact D3|]. assert (W1 := beats z3 z1 D3 D1 Hc H1000 B1 (fun h => Hs _ (or_introl eq_refl) h N13)). assert (W3 := beats z3 z2 D3 D2 Hc H1000 B2 (fun h => Hs _ (or_intror (or_introl eq_refl)) h N23)).
    generalize (near_both _ _ _ W1 W3). apply filter_imp. intros t [T2 T3]. unfold pick. destruct (Rlt_dec (lnf t (z2 t)) (lnf t (z1 t))); (destruct (Rlt_dec _ _); [reflexivity|lra]).
Qed.
End Jump.
Lemma pick_same : forall f z, pick f (z, z, z) = z.
Proof. intros f z. unfold pick. destruct (Rlt_dec (f z) (f z)); destruct (Rlt_dec _ _); reflexivity. Qed.

Lemma root_smooth : forall (a2 a1 a0 B : R -> R) (L : R -> R -> R) (x d2 d1 d0 : R), is_derive a2 x d2 -> is_derive a1 x d1 -> is_derive a0 x d0 -> ex_derive B x -> (forall z, ex_derive z x -> B x < z x -> ex_derive (fun t => L t (z t)) x) ->
  c_q (a2 x) (a1 x) ^ 3 <> c_r (a2 x) (a1 x) (a0 x) ^ 2 -> ~ (c_r (a2 x) (a1 x) (a0 x) = 0 /\ c_q (a2 x) (a1 x) <= 0) -> poly (a2 x) (a1 x) (a0 x) (B x) < 0 ->
  (forall r, cardano PI (a2 x) (a1 x) (a0 x) = Some r -> let c := pick (lnf_of (B x) (L x)) r in B x < c /\ L x c < 1000 /\ forall y, poly (a2 x) (a1 x) (a0 x) y = 0 -> B x < y -> y <> c -> L x c < L x y) ->
  exists z : R -> R, ex_derive z x /\ locally x (fun t => exists r, cardano PI (a2 t) (a1 t) (a0 t) = Some r /\ pick (lnf_of (B t) (L t)) r = z t).
Proof.
  intros a2 a1 a0 B L x d2 d1 d0 H2 H1 H0 HB HL Hne Hn HpB Hc. destruct (cardano_smooth a2 a1 a0 x d2 d1 d0 H2 H1 H0 Hne Hn) as (z1 & z2 & z3 & D1 & D2 & D3 & Lo & Cs).
  assert (E := locally_singleton _ _ Lo). cbv beta in E. destruct (Hc _ E) as (C1 & C2 & C3). destruct (solved_zero _ _ _ _ _ _ (cardano_solved _ _ _ _ E)) as (Z1 & Z2 & Z3). destruct Cs as [[<- <-]|(N12 & N23 & N13)].
  - exists z1. split; [exact D1|]. revert Lo. apply filter_imp. intros t Et. exists (z1 t, z1 t, z1 t). split; [exact Et|apply pick_same].
  - destruct (pick_near B L x HB HL z1 z2 z3 D1 D2 D3 N12 N23 N13) as (z & Dz & Hz); [|exact C1|exact C2| |].
    + repeat split; intros Z; [rewrite Z in Z1|rewrite Z in Z2|rewrite Z in Z3]; lra.
    + intros y [E1|[E1|E1]] Hy Hyc; rewrite E1 in *; apply C3; assumption.
    + exists z. split; [exact Dz|]. generalize (near_both _ _ _ Lo Hz). apply filter_imp. intros t [T1 T2]. exists (z1 t, z2 t, z3 t). split; assumption.
Qed.
Lemma exd_ln : forall (f : R -> R) x, ex_derive f x -> 0 < f x -> ex_derive (fun t => ln (f t)) x.
Proof. intros f x [l D] H. eexists. apply d_ln; [exact D|exact H]. Qed.
Lemma L_rk_ex : forall (A B z : R -> R) x, ex_derive A x -> ex_derive B x -> ex_derive z x -> 0 < B x -> B x < z x -> ex_derive (fun t => L_rk (A t) (B t) (z t)) x.
Proof.
  intros A B z x [la DA] [lb DB] [lz Dz] HB Hz. unfold L_rk. eexists. apply d_minus; [apply d_minus; [apply d_minus; [exact Dz|apply d_const]|apply (d_ln (fun t => z t - B t)); [apply d_minus; [exact Dz|exact DB]|lra]]|].
  apply d_mult; [apply d_div; [exact DA|exact DB|lra]|]. apply (d_ln (fun t => 1 + B t / z t)); [apply d_plus; [apply d_const|apply d_div; [exact DB|exact Dz|lra]]|]. assert (0 < B x / z x) by (apply Rdiv_lt_0_compat; lra). lra.
Qed.
Lemma L_pr_ex : forall (A B z : R -> R) x, ex_derive A x -> ex_derive B x -> ex_derive z x -> 0 < B x -> B x < z x -> ex_derive (fun t => L_pr (A t) (B t) (z t)) x.
Proof.
  intros A B z x [la DA] [lb DB] [lz Dz] HB Hz. destruct sqrt2 as [E2 [H1 H2]]. assert (N2 : 0 < z x + (1 - sqrt 2) * B x) by nra. assert (N1 : 0 < z x + (1 + sqrt 2) * B x) by nra. unfold L_pr, pr_log. eexists.
  apply d_minus; [apply d_plus; [apply d_minus; [apply d_scal, (d_ln (fun t => z t - B t)); [apply d_minus; [exact Dz|exact DB]|lra]|]|exact Dz]|apply d_const].
  apply d_mult; [apply d_div; [exact DA|apply d_scal_r; exact DB|]|].
  - rewrite sqrt8. apply Rgt_not_eq, Rmult_lt_0_compat; lra.
  - apply (d_ln (fun t => (z t + (1 + sqrt 2) * B t) / (z t + (1 - sqrt 2) * B t))); [apply d_div; [apply d_plus; [exact Dz|apply d_scal; exact DB]|apply d_plus; [exact Dz|apply d_scal; exact DB]|lra]|]. now apply Rdiv_lt_0_compat.
Qed.
(** *** Soave-Redlich-Kwong *)
(** the condition for a single phase: one real root of the cubic *)
Definition rk_a1 (a b T P : R) : R := eA a T P - eB b T P - eB b T P ^ 2.
Definition rk_a0 (a b T P : R) : R := - eA a T P * eB b T P.
Definition pr_a2 (b T P : R) : R := eB b T P - 1.
Definition pr_a1 (a b T P : R) : R := eA a T P - 3 * eB b T P ^ 2 - 2 * eB b T P.
Definition pr_a0 (a b T P : R) : R := eB b T P ^ 3 + eB b T P ^ 2 - eA a T P * eB b T P.
Lemma eA_dT : forall a T P l, 0 < T -> is_derive a T l -> exists l', is_derive (fun t => eA (a t) t P) T l'.
Proof. intros a T P l HT D. assert (G := Rg_pos). eexists. unfold eA. apply d_div; [apply d_scal_r; exact D|apply d_scal, d_pow, d_id|]. apply Rgt_not_eq, Rmult_lt_0_compat; apply pow_lt; lra. Qed.
Lemma eB_dT : forall b T P, 0 < T -> exists l', is_derive (fun t => eB b t P) T l'.
Proof. intros b T P HT. assert (G := Rg_pos). eexists. unfold eB. apply d_div; [apply d_const|apply d_scal, d_id|]. apply Rgt_not_eq, Rmult_lt_0_compat; lra. Qed.
Lemma eA_dP : forall a T P, exists l', is_derive (fun p => eA a T p) P l'.
Proof. intros. eexists. unfold eA, Rdiv. apply d_scal_r, d_scal, d_id. Qed.
Lemma eB_dP : forall b T P, exists l', is_derive (fun p => eB b T p) P l'.
Proof. intros. eexists. unfold eB, Rdiv. apply d_scal_r, d_scal, d_id. Qed.
Lemma dA_rk : forall (A B : R -> R) x la lb, is_derive A x la -> is_derive B x lb ->
  (exists l1, is_derive (fun t => A t - B t - B t ^ 2) x l1) /\ (exists l0, is_derive (fun t => - A t * B t) x l0) /\ (exists l2, is_derive (fun _ : R => -1) x l2).
Proof.
  intros A B x la lb HA HB. split; [|split]; eexists; [apply d_minus; [apply d_minus; [exact HA|exact HB]|apply d_pow; exact HB]|apply d_mult; [apply d_opp; exact HA|exact HB]|apply d_const].
Qed.
Lemma dA_pr : forall (A B : R -> R) x la lb, is_derive A x la -> is_derive B x lb ->
  (exists l1, is_derive (fun t => A t - 3 * B t ^ 2 - 2 * B t) x l1) /\ (exists l0, is_derive (fun t => B t ^ 3 + B t ^ 2 - A t * B t) x l0) /\ (exists l2, is_derive (fun t => B t - 1) x l2).
Proof.
  intros A B x la lb HA HB. split; [|split]; eexists.
  - apply d_minus; [apply d_minus; [exact HA|apply d_scal, d_pow; exact HB]|apply d_scal; exact HB].
  - apply d_minus; [apply d_plus; apply d_pow; exact HB|apply d_mult; [exact HA|exact HB]].
  - apply d_minus; [exact HB|apply d_const].
Qed.
Definition getF (o : option fug) : fug := match o with Some f => f | None => mkFug 0 0 0 0 0 0 end.
(** the cubic has three different roots or one simple real root, and the solver does not divide by zero *)
Definition regular (a2 a1 a0 : R) : Prop := c_q a2 a1 ^ 3 <> c_r a2 a1 a0 ^ 2 /\ ~ (c_r a2 a1 a0 = 0 /\ c_q a2 a1 <= 0).
(** no other volume is in equilibrium with the stable one *)
Definition one_phase (eos gres : R -> R) (b P : R) : Prop := forall v u, b < v -> b < u -> eos v = P -> eos u = P -> gres v = gres u -> v = u.
Lemma rk_pick : forall a b T P r, 0 < b -> 0 < T -> 0 < P -> 0 <= a -> b * P < 1000 * (Rgas * T) -> one_phase (eos_rk a b T) (gres_rk a b T P) b P -> cardano PI (-1) (rk_a1 a b T P) (rk_a0 a b T P) = Some r ->
  let c := pick (lnf_of (eB b T P) (L_rk (eA a T P) (eB b T P))) r in
  eB b T P < c /\ L_rk (eA a T P) (eB b T P) c < 1000 /\ forall y, poly (-1) (rk_a1 a b T P) (rk_a0 a b T P) y = 0 -> eB b T P < y -> y <> c -> L_rk (eA a T P) (eB b T P) c < L_rk (eA a T P) (eB b T P) y.
Proof.
  intros a b T P r Hb HT HP Ha Hl H1 Er c. assert (G := Rg_pos). assert (RT := RT_pos T HT). rewrite Rgas_Rg in Hl. destruct (rk_chosen a b T P Hb HT HP Ha Hl r Er) as (C1 & C2 & C3 & C4 & C5). rewrite srk_lnf_L in C1, C2, C3, C4, C5. fold c in C1, C2, C3, C4, C5.
  set (v := c * Rg * T / P) in *. assert (Ec : v * P / (Rg * T) = c) by (apply vz; assumption).
  assert (Eg : gres_rk a b T P v = Rg * T * L_rk (eA a T P) (eB b T P) c) by (rewrite (gres_rk_L a b T P Hb HT HP v C2), Ec; reflexivity).
  split; [exact C1|]. split.
  - assert (HB := eB_pos b T P Hb HT HP). assert (Hu : b < (1 + eB b T P) * Rg * T / P) by (apply (v_gt b T P HT HP); lra).
    assert (Hc := C5 _ Hu). rewrite Eg, (gres_rk_L a b T P Hb HT HP _ Hu), (vz T P HT HP) in Hc. apply Rmult_le_reg_l in Hc; [|exact RT]. generalize (L_rk_1B (eA a T P) (eB b T P) HB (eA_nn a T P HT HP Ha)) (eB_lim b T P HT Hl). lra.
  - intros y Py Hy Hyc. set (u := y * Rg * T / P). assert (Hu : b < u) by (now apply (v_gt b T P HT HP)). assert (Ey : u * P / (Rg * T) = y) by (apply vz; assumption).
    assert (Eu : gres_rk a b T P u = Rg * T * L_rk (eA a T P) (eB b T P) y) by (rewrite (gres_rk_L a b T P Hb HT HP u Hu), Ey; reflexivity).
    assert (Hc := C5 _ Hu). rewrite Eg, Eu in Hc. apply Rmult_le_reg_l in Hc; [|exact RT]. destruct Hc as [Hc|Hc]; [exact Hc|]. exfalso. apply Hyc.
    assert (Euv : v = u). { apply H1; [exact C2|exact Hu|exact C3| |rewrite Eg, Eu, Hc; reflexivity]. apply (eos_rk_poly a b T P Hb HT HP u Hu). rewrite Ey. exact Py. } rewrite <- Ey, <- Ec, Euv. reflexivity.
Qed.
Lemma pr_pick : forall a b T P r, 0 < b -> 0 < T -> 0 < P -> 0 <= a -> b * P < 1000 * (Rgas * T) -> one_phase (eos_pr a b T) (gres_pr a b T P) b P -> cardano PI (pr_a2 b T P) (pr_a1 a b T P) (pr_a0 a b T P) = Some r ->
  let c := pick (lnf_of (eB b T P) (L_pr (eA a T P) (eB b T P))) r in
  eB b T P < c /\ L_pr (eA a T P) (eB b T P) c < 1000 /\ forall y, poly (pr_a2 b T P) (pr_a1 a b T P) (pr_a0 a b T P) y = 0 -> eB b T P < y -> y <> c -> L_pr (eA a T P) (eB b T P) c < L_pr (eA a T P) (eB b T P) y.
Proof.
  intros a b T P r Hb HT HP Ha Hl H1 Er c. assert (G := Rg_pos). assert (RT := RT_pos T HT). rewrite Rgas_Rg in Hl. destruct (pr_chosen a b T P Hb HT HP Ha Hl r Er) as (C1 & C2 & C3 & C4 & C5). rewrite pr_lnf_L in C1, C2, C3, C4, C5. fold c in C1, C2, C3, C4, C5.
  set (v := c * Rg * T / P) in *. assert (Ec : v * P / (Rg * T) = c) by (apply vz; assumption).
  assert (Eg : gres_pr a b T P v = Rg * T * L_pr (eA a T P) (eB b T P) c) by (rewrite (gres_pr_L a b T P Hb HT HP v C2), Ec; reflexivity).
  split; [exact C1|]. split.
  - assert (HB := eB_pos b T P Hb HT HP). assert (Hu : b < (1 + eB b T P) * Rg * T / P) by (apply (v_gt b T P HT HP); lra).
    assert (Hc := C5 _ Hu). rewrite Eg, (gres_pr_L a b T P Hb HT HP _ Hu), (vz T P HT HP) in Hc. apply Rmult_le_reg_l in Hc; [|exact RT]. generalize (L_pr_1B (eA a T P) (eB b T P) HB (eA_nn a T P HT HP Ha)) (eB_lim b T P HT Hl). lra.
  - intros y Py Hy Hyc. set (u := y * Rg * T / P). assert (Hu : b < u) by (now apply (v_gt b T P HT HP)). assert (Ey : u * P / (Rg * T) = y) by (apply vz; assumption).
    assert (Eu : gres_pr a b T P u = Rg * T * L_pr (eA a T P) (eB b T P) y) by (rewrite (gres_pr_L a b T P Hb HT HP u Hu), Ey; reflexivity).
    assert (Hc := C5 _ Hu). rewrite Eg, Eu in Hc. apply Rmult_le_reg_l in Hc; [|exact RT]. destruct Hc as [Hc|Hc]; [exact Hc|]. exfalso. apply Hyc.
    assert (Euv : v = u). { apply H1; [exact C2|exact Hu|exact C3| |rewrite Eg, Eu, Hc; reflexivity]. apply (eos_pr_poly a b T P Hb HT HP u Hu). rewrite Ey. exact Py. } rewrite <- Ey, <- Ec, Euv. reflexivity.
Qed.
Lemma srk_smooth_T : forall Tc Pc w T P, 0 < Tc -> 0 < Pc -> 0 < T -> 0 < P -> b_srk Tc Pc * P < 1000 * (Rgas * T) -> let a := a_srk Tc Pc w T in let b := b_srk Tc Pc in
  regular (-1) (rk_a1 a b T P) (rk_a0 a b T P) -> one_phase (eos_rk a b T) (gres_rk a b T P) b P ->
  locally T (fun t => srk_pure PI Tc Pc w t P = Some (getF (srk_pure PI Tc Pc w t P))) /\ ex_derive (fun t => f_v (getF (srk_pure PI Tc Pc w t P))) T.
Proof.
  intros Tc Pc w T P Hc Hp HT HP Hl a b [Hq Hn] H1. assert (G := Rg_pos). assert (Hb := b_srk_pos _ _ Hc Hp). fold b in Hb, Hl. destruct (eA_dT (a_srk Tc Pc w) T P _ HT (a_srk_d Tc Pc w T Hc HT)) as [la DA]. destruct (eB_dT b T P HT) as [lb DB].
  destruct (dA_rk _ _ _ _ _ DA DB) as ((l1 & D1) & (l0 & D0) & l2 & D2).
  destruct (root_smooth _ _ _ (fun t => eB b t P) (fun t => L_rk (eA (a_srk Tc Pc w t) t P) (eB b t P)) T _ _ _ D2 D1 D0) as (z & [lz Dz] & Z).
  - now exists lb.
  - intros z Dz Hz. apply (L_rk_ex (fun t => eA (a_srk Tc Pc w t) t P) (fun t => eB b t P) z); [now exists la|now exists lb|exact Dz|now apply eB_pos|exact Hz].
  - exact Hq.
  - exact Hn.
  - apply rk_poly_B. now apply eB_pos.
  - intros r Er. exact (rk_pick a b T P r Hb HT HP (a_srk_nn _ _ _ _ Hc Hp) Hl H1 Er).
  - assert (E : locally T (fun t => srk_pure PI Tc Pc w t P = Some (getF (srk_pure PI Tc Pc w t P)) /\ z t * Rg * t / P = f_v (getF (srk_pure PI Tc Pc w t P)))).
    { generalize Z. apply filter_imp. intros t (r & Et & Ep). cbv beta in Et, Ep. unfold srk_pure. rewrite srk_a_eq, srk_b_eq. unfold b in Et, Ep. rewrite Et. cbn [getF f_v]. rewrite srk_lnf_L, Ep. split; reflexivity. }
    split; [revert E; apply filter_imp; intros t [E _]; exact E|].
    eexists. apply is_derive_ext_loc with (fun t => z t * Rg * t / P); [revert E; apply filter_imp; intros t [_ E]; exact E|]. unfold Rdiv. apply d_scal_r, d_mult; [apply d_scal_r; exact Dz|apply d_id].
Qed.
Lemma srk_smooth_P : forall Tc Pc w T P, 0 < Tc -> 0 < Pc -> 0 < T -> 0 < P -> b_srk Tc Pc * P < 1000 * (Rgas * T) -> let a := a_srk Tc Pc w T in let b := b_srk Tc Pc in
  regular (-1) (rk_a1 a b T P) (rk_a0 a b T P) -> one_phase (eos_rk a b T) (gres_rk a b T P) b P ->
  locally P (fun p => srk_pure PI Tc Pc w T p = Some (getF (srk_pure PI Tc Pc w T p))) /\ ex_derive (fun p => f_v (getF (srk_pure PI Tc Pc w T p))) P.
Proof.
  intros Tc Pc w T P Hc Hp HT HP Hl a b [Hq Hn] H1. assert (G := Rg_pos). assert (Hb := b_srk_pos _ _ Hc Hp). fold b in Hb, Hl. destruct (eA_dP a T P) as [la DA]. destruct (eB_dP b T P) as [lb DB].
  destruct (dA_rk _ _ _ _ _ DA DB) as ((l1 & D1) & (l0 & D0) & l2 & D2).
  destruct (root_smooth _ _ _ (fun p => eB b T p) (fun p => L_rk (eA a T p) (eB b T p)) P _ _ _ D2 D1 D0) as (z & [lz Dz] & Z).
  - now exists lb.
  - intros z Dz Hz. apply (L_rk_ex (fun p => eA a T p) (fun p => eB b T p) z); [now exists la|now exists lb|exact Dz|now apply eB_pos|exact Hz].
  - exact Hq.
  - exact Hn.
  - apply rk_poly_B. now apply eB_pos.
  - intros r Er. exact (rk_pick a b T P r Hb HT HP (a_srk_nn _ _ _ _ Hc Hp) Hl H1 Er).
  - assert (E : locally P (fun p => srk_pure PI Tc Pc w T p = Some (getF (srk_pure PI Tc Pc w T p)) /\ z p * Rg * T / p = f_v (getF (srk_pure PI Tc Pc w T p)))).
    { generalize Z. apply filter_imp. intros t (r & Et & Ep). cbv beta in Et, Ep. unfold srk_pure. rewrite srk_a_eq, srk_b_eq. unfold a, b in Et, Ep. rewrite Et. cbn [getF f_v]. rewrite srk_lnf_L, Ep. split; reflexivity. }
    split; [revert E; apply filter_imp; intros t [E _]; exact E|].
    eexists. apply is_derive_ext_loc with (fun p => z p * Rg * T / p); [revert E; apply filter_imp; intros t [_ E]; exact E|]. apply d_div; [apply d_scal_r, d_scal_r; exact Dz|apply d_id|lra].
Qed.
(** a simple root of the cubic is not at a spinodal *)
Lemma rk_simple : forall a b T P v, 0 < b -> 0 < T -> 0 < P -> b < v -> eos_rk a b T v = P -> dpoly (-1) (rk_a1 a b T P) (v * P / (Rg * T)) <> 0 -> Derive (eos_rk a b T) v <> 0.
Proof.
  intros a b T P v Hb HT HP Hv E Hd Z. apply Hd. assert (G := Rg_pos). assert (RT : 0 < Rg * T) by (now apply Rmult_lt_0_compat).
  assert (De : is_derive (eos_rk a b T) v (- Rg * T / (v - b) ^ 2 + a * (2 * v + b) / (v * (v + b)) ^ 2)).
  { unfold eos_rk. eapply d_eq; [apply d_minus; apply d_div; [apply d_const|apply d_minus; [apply d_id|apply d_const]|lra|apply d_const|apply d_mult; [apply d_id|apply d_plus; [apply d_id|apply d_const]]|apply Rgt_not_eq, Rmult_lt_0_compat; lra]|]. cbv beta. rewrite Rgas_Rg. field. repeat split; lra. }
  rewrite (is_derive_unique _ _ _ De) in Z. unfold eos_rk in E. rewrite Rgas_Rg in E. unfold dpoly, rk_a1, eA, eB.
  transitivity (- (P / (Rg * T) ^ 2 * ((v - b) * v * (v + b))) * (- Rg * T / (v - b) ^ 2 + a * (2 * v + b) / (v * (v + b)) ^ 2) + P * (3 * v ^ 2 - b ^ 2) / (Rg * T) ^ 2 * (P - (Rg * T / (v - b) - a / (v * (v + b))))); [field; repeat split; lra|]. rewrite Z, E. ring.
Qed.
(** all relations together where there is one phase *)
Lemma srk_single : forall Tc Pc w T P, 0 < Tc -> 0 < Pc -> 0 < T -> 0 < P -> b_srk Tc Pc * P < 1000 * (Rgas * T) -> let a := a_srk Tc Pc w T in let b := b_srk Tc Pc in
  regular (-1) (rk_a1 a b T P) (rk_a0 a b T P) -> one_phase (eos_rk a b T) (gres_rk a b T P) b P ->
  exists F : R -> R -> fug, locally T (fun t => srk_pure PI Tc Pc w t P = Some (F t P)) /\ locally P (fun p => srk_pure PI Tc Pc w T p = Some (F T p)) /\
  is_derive (fun p => f_g (F T p)) P (f_v (F T P) - Rgas * T / P) /\ is_derive (fun t => f_g (F t P)) T (- f_s (F T P)) /\ is_derive (fun t => f_h (F t P)) T (f_c (F T P)).
Proof.
  intros Tc Pc w T P Hc Hp HT HP Hl a b Hq Hn. exists (fun t p => getF (srk_pure PI Tc Pc w t p)). destruct (srk_smooth_T Tc Pc w T P Hc Hp HT HP Hl Hq Hn) as [L1 S1]. destruct (srk_smooth_P Tc Pc w T P Hc Hp HT HP Hl Hq Hn) as [L2 S2].
  split; [exact L1|]. split; [exact L2|]. split; [exact (srk_dP Tc Pc w T P _ Hc Hp HT HP Hl L2 S2)|]. destruct (srk_dT Tc Pc w T P _ Hc Hp HT HP Hl L1 S1) as [D1 D2]. split; [exact D1|]. apply D2.
  assert (E := locally_singleton _ _ L1). cbv beta in E. destruct (srk_vals Tc Pc w T P _ Hc Hp HT HP Hl E) as (V1 & V2 & _).
  apply (rk_simple a b T P); [now apply b_srk_pos|exact HT|exact HP|exact V1|exact V2|].
  intros Z. apply (double_root _ _ (rk_a0 a b T P)) in Z; [destruct Hq as [Hq _]; apply Hq; symmetry; exact Z|]. apply (eos_rk_poly a b T P (b_srk_pos _ _ Hc Hp) HT HP); [exact V1|exact V2].
Qed.
(** *** Peng-Robinson form *)
Lemma pr_simple : forall a b T P v, 0 < b -> 0 < T -> 0 < P -> b < v -> eos_pr a b T v = P -> dpoly (pr_a2 b T P) (pr_a1 a b T P) (v * P / (Rg * T)) <> 0 -> Derive (eos_pr a b T) v <> 0.
Proof.
  intros a b T P v Hb HT HP Hv E Hd Z. apply Hd. assert (G := Rg_pos). assert (RT : 0 < Rg * T) by (now apply Rmult_lt_0_compat). assert (Hq := pr_quad b v Hb Hv).
  assert (De : is_derive (eos_pr a b T) v (- Rg * T / (v - b) ^ 2 + 2 * a * (v + b) / (v ^ 2 + 2 * b * v - b ^ 2) ^ 2)).
  { unfold eos_pr. eapply d_eq; [apply d_minus; apply d_div; [apply d_const|apply d_minus; [apply d_id|apply d_const]|lra|apply d_const|apply d_minus; [apply d_plus; [apply d_pow, d_id|apply d_scal, d_id]|apply d_const]|lra]|]. cbv beta. cbn [INR pred]. rewrite Rgas_Rg. field. repeat split; lra. }
  rewrite (is_derive_unique _ _ _ De) in Z. unfold eos_pr in E. rewrite Rgas_Rg in E. unfold dpoly, pr_a1, pr_a2, eA, eB.
  transitivity (- (P / (Rg * T) ^ 2 * ((v - b) * (v ^ 2 + 2 * b * v - b ^ 2))) * (- Rg * T / (v - b) ^ 2 + 2 * a * (v + b) / (v ^ 2 + 2 * b * v - b ^ 2) ^ 2) + P * (v ^ 2 + 2 * b * v - b ^ 2 + (v - b) * (2 * v + 2 * b)) / (Rg * T) ^ 2 * (P - (Rg * T / (v - b) - a / (v ^ 2 + 2 * b * v - b ^ 2)))); [field; repeat split; lra|]. rewrite Z, E. ring.
Qed.
Section PRS.
Variables (ac Tc b : R) (e : R -> abpar) (T P da : R).
Hypothesis Hb : 0 < b.
Hypothesis HTc : 0 < Tc.
Hypothesis He : forall t, 0 < t -> e_b (e t) = b /\ 0 <= e_a (e t).
Hypothesis HT : 0 < T.
Hypothesis HP : 0 < P.
Hypothesis Da : is_derive (fun t => e_a (e t)) T da.
Hypothesis HTTc : T <> Tc.
Hypothesis Hl : b * P < 1000 * (Rgas * T).
Hypothesis Hq : regular (pr_a2 b T P) (pr_a1 (e_a (e T)) b T P) (pr_a0 (e_a (e T)) b T P).
Hypothesis Hn : one_phase (eos_pr (e_a (e T)) b T) (gres_pr (e_a (e T)) b T P) b P.
Lemma kk_some : forall t a, 0 < t -> t <> Tc -> exists kk, pr_kk ac Tc t a = Some kk.
Proof.
  intros t a Ht Hne. unfold pr_kk. destruct (Req_EM_T (1 - sqrt (t / Tc)) 0) as [Z|Z]; [|eexists; reflexivity]. exfalso. apply Hne.
  assert (E : sqrt (t / Tc) = 1) by lra. assert (Hr : 0 < t / Tc) by (now apply Rdiv_lt_0_compat). assert (E2 := sqrt_sqrt (t / Tc) (Rlt_le _ _ Hr)). rewrite E in E2. apply Rmult_eq_reg_r with (/ Tc); [rewrite Rinv_r by lra; unfold Rdiv in E2; lra|]. apply Rinv_neq_0_compat. lra.
Qed.
Lemma near_ne : forall x y : R, x <> y -> locally x (fun t => t <> y).
Proof.
  intros x y H. destruct (Rtotal_order x y) as [L|[L|L]]; [generalize (near_lt _ _ L)|contradiction|generalize (near_gt _ _ L)]; apply filter_imp; intros t Ht; lra.
Qed.
Lemma pr_smooth_T : locally T (fun t => pr_pure PI ac (e t) Tc t P = Some (getF (pr_pure PI ac (e t) Tc t P))) /\ ex_derive (fun t => f_v (getF (pr_pure PI ac (e t) Tc t P))) T.
Proof.
  assert (G := Rg_pos). destruct (eA_dT (fun t => e_a (e t)) T P _ HT Da) as [la DA]. destruct (eB_dT b T P HT) as [lb DB]. destruct Hq as [Hq1 Hq2].
  destruct (dA_pr _ _ _ _ _ DA DB) as ((l1 & D1) & (l0 & D0) & l2 & D2).
  destruct (root_smooth _ _ _ (fun t => eB b t P) (fun t => L_pr (eA (e_a (e t)) t P) (eB b t P)) T _ _ _ D2 D1 D0) as (z & [lz Dz] & Z).
  - now exists lb.
  - intros z Dz Hz. apply (L_pr_ex (fun t => eA (e_a (e t)) t P) (fun t => eB b t P) z); [now exists la|now exists lb|exact Dz|now apply eB_pos|exact Hz].
  - exact Hq1.
  - exact Hq2.
  - apply pr_poly_B. now apply eB_pos.
  - intros r Er. exact (pr_pick _ b T P r Hb HT HP (proj2 (He T HT)) Hl Hn Er).
  - assert (E : locally T (fun t => pr_pure PI ac (e t) Tc t P = Some (getF (pr_pure PI ac (e t) Tc t P)) /\ z t * Rg * t / P = f_v (getF (pr_pure PI ac (e t) Tc t P)))).
    { generalize (near_both _ _ _ Z (near_both _ _ _ (near_gt 0 T HT) (near_ne T Tc HTTc))). apply filter_imp. intros t ((r & Et & Ep) & Ht & Hne). cbv beta in Et, Ep. destruct (He t Ht) as [Eb _]. destruct (kk_some t (e_a (e t)) Ht Hne) as [kk Ek]. unfold pr_pure. rewrite Eb, Et, Ek. cbn [getF f_v]. rewrite pr_lnf_L, Ep. split; reflexivity. }
    split; [revert E; apply filter_imp; intros t [E _]; exact E|].
    eexists. apply is_derive_ext_loc with (fun t => z t * Rg * t / P); [revert E; apply filter_imp; intros t [_ E]; exact E|]. unfold Rdiv. apply d_scal_r, d_mult; [apply d_scal_r; exact Dz|apply d_id].
Qed.
Lemma pr_smooth_P : locally P (fun p => pr_pure PI ac (e T) Tc T p = Some (getF (pr_pure PI ac (e T) Tc T p))) /\ ex_derive (fun p => f_v (getF (pr_pure PI ac (e T) Tc T p))) P.
Proof.
  assert (G := Rg_pos). destruct (eA_dP (e_a (e T)) T P) as [la DA]. destruct (eB_dP b T P) as [lb DB]. destruct Hq as [Hq1 Hq2].
  destruct (dA_pr _ _ _ _ _ DA DB) as ((l1 & D1) & (l0 & D0) & l2 & D2).
  destruct (root_smooth _ _ _ (fun p => eB b T p) (fun p => L_pr (eA (e_a (e T)) T p) (eB b T p)) P _ _ _ D2 D1 D0) as (z & [lz Dz] & Z).
  - now exists lb.
  - intros z Dz Hz. apply (L_pr_ex (fun p => eA (e_a (e T)) T p) (fun p => eB b T p) z); [now exists la|now exists lb|exact Dz|now apply eB_pos|exact Hz].
  - exact Hq1.
  - exact Hq2.
  - apply pr_poly_B. now apply eB_pos.
  - intros r Er. exact (pr_pick _ b T P r Hb HT HP (proj2 (He T HT)) Hl Hn Er).
  - assert (E : locally P (fun p => pr_pure PI ac (e T) Tc T p = Some (getF (pr_pure PI ac (e T) Tc T p)) /\ z p * Rg * T / p = f_v (getF (pr_pure PI ac (e T) Tc T p)))).
    { generalize Z. apply filter_imp. intros p (r & Et & Ep). cbv beta in Et, Ep. destruct (He T HT) as [Eb _]. destruct (kk_some T (e_a (e T)) HT HTTc) as [kk Ek]. unfold pr_pure. rewrite Eb, Et, Ek. cbn [getF f_v]. rewrite pr_lnf_L, Ep. split; reflexivity. }
    split; [revert E; apply filter_imp; intros t [E _]; exact E|].
    eexists. apply is_derive_ext_loc with (fun p => z p * Rg * T / p); [revert E; apply filter_imp; intros t [_ E]; exact E|]. apply d_div; [apply d_scal_r, d_scal_r; exact Dz|apply d_id|lra].
Qed.
Lemma pr_single : (locally T (fun t => is_derive (fun t => e_a (e t)) t (e_da (e t)) /\ forall kk, pr_kk ac Tc t (e_a (e t)) = Some kk -> kk * e_a (e t) = - t * e_da (e t))) -> is_derive (fun t => e_da (e t)) T (e_d2a (e T)) ->
  exists F : R -> R -> fug, locally T (fun t => pr_pure PI ac (e t) Tc t P = Some (F t P)) /\ locally P (fun p => pr_pure PI ac (e T) Tc T p = Some (F T p)) /\
  is_derive (fun p => f_g (F T p)) P (f_v (F T P) - Rgas * T / P) /\ is_derive (fun t => f_g (F t P)) T (- f_s (F T P)) /\ is_derive (fun t => f_h (F t P)) T (f_c (F T P)).
Proof.
  intros Hd D2. exists (fun t p => getF (pr_pure PI ac (e t) Tc t p)). destruct pr_smooth_T as [L1 S1]. destruct pr_smooth_P as [L2 S2].
  split; [exact L1|]. split; [exact L2|]. split; [exact (pr_dP ac Tc b e Hb He T P HT HP Hl _ L2 S2)|]. destruct (pr_dT ac Tc b e Hb He T P HT HP Hl Hd _ L1 S1) as [E1 E2]. split; [exact E1|]. apply E2; [exact D2|].
  assert (E := locally_singleton _ _ L1). cbv beta in E. destruct (pr_vals ac Tc b e Hb He T P _ HT HP Hl E) as (V1 & V2 & _).
  apply (pr_simple _ _ T P); [exact Hb|exact HT|exact HP|exact V1|exact V2|].
  intros Z. apply (double_root _ _ (pr_a0 (e_a (e T)) b T P)) in Z; [destruct Hq as [Hq1 _]; apply Hq1; symmetry; exact Z|]. apply (eos_pr_poly (e_a (e T)) b T P Hb HT HP); [exact V1|exact V2].
Qed.
(** a wrong slope of the attraction gives a wrong entropy *)
Lemma pr_wrong : forall kk, pr_kk ac Tc T (e_a (e T)) = Some kk -> kk * e_a (e T) <> - T * da ->
  exists F : R -> fug, locally T (fun t => pr_pure PI ac (e t) Tc t P = Some (F t)) /\ exists l, is_derive (fun t => f_g (F t)) T l /\ l <> - f_s (F T) /\ f_g (F T) = f_h (F T) - T * f_s (F T).
Proof.
  intros kk Ek Hne. destruct pr_smooth_T as [L1 [v1 S1]]. set (F := fun t => getF (pr_pure PI ac (e t) Tc t P)) in *. exists F. split; [exact L1|].
  assert (E := locally_singleton _ _ L1). cbv beta in E. destruct (pr_vals ac Tc b e Hb He T P _ HT HP Hl E) as (V1 & V2 & _ & V3 & V4 & V5 & _). cbv zeta in V4.
  specialize (V4 kk (- (kk * e_a (e T)) / T) Ek). fold (F T) in *.
  exists (- ((hres_pr (e_a (e T)) da b T P (f_v (F T)) - gres_pr (e_a (e T)) b T P (f_v (F T))) / T)). split; [|split].
  - apply is_derive_ext_loc with (fun t => gres_pr (e_a (e t)) b t P (f_v (F t))).
    + generalize (near_both _ _ _ L1 (lim_near_T _ _ _ HT Hl)). apply filter_imp. intros t [E' [H1 H2]]. symmetry. exact (proj1 (proj2 (proj2 (proj2 (pr_vals ac Tc b e Hb He t P _ H1 HP H2 E'))))).
    + apply (gres_pr_T b T P Hb HT HP (fun t => e_a (e t)) da (fun t => f_v (F t)) v1); [exact V1|exact Da|exact S1|exact V2].
  - rewrite V5, V4, <- V3 by (field; lra). intros Z. apply Hne. destruct sqrt2 as [S2 [Q1 Q2]].
    assert (Hp := prl_pos b Hb (f_v (F T)) V1). unfold hres_pr in Z. fold (prl b (f_v (F T))) in Z.
    assert (Z1 : (T * da - T * (- (kk * e_a (e T)) / T)) / (2 * sqrt 2 * b) * prl b (f_v (F T)) = 0).
    { apply Rmult_eq_reg_r with (/ T); [|apply Rinv_neq_0_compat; lra]. rewrite Rmult_0_l. transitivity (- (- ((P * f_v (F T) - Rgas * T - (e_a (e T) - T * da) / (2 * sqrt 2 * b) * prl b (f_v (F T)) - f_g (F T)) / T)) + (- ((P * f_v (F T) - Rgas * T - (e_a (e T) - T * (- (kk * e_a (e T)) / T)) / (2 * sqrt 2 * b) * prl b (f_v (F T)) - f_g (F T)) / T))); [field; repeat split; lra|]. rewrite Z. ring. }
    apply Rmult_integral in Z1. destruct Z1 as [Z1|Z1]; [|lra]. unfold Rdiv in Z1 at 1. apply Rmult_integral in Z1. destruct Z1 as [Z1|Z1].
    + assert (T * (- (kk * e_a (e T)) / T) = - (kk * e_a (e T))) by (field; lra). lra.
    + exfalso. revert Z1. apply Rinv_neq_0_compat, Rgt_not_eq, Rmult_lt_0_compat; lra.
  - rewrite V5. field. lra.
Qed.
End PRS.
(** hot fluids: the isotherm falls strictly, so there is one phase *)
Lemma falling_inj : forall (f df : R -> R) b, (forall v, b < v -> is_derive f v (df v)) -> (forall v, b < v -> df v < 0) -> forall v u, b < v -> b < u -> f v = f u -> v = u.
Proof.
  intros f df b D N. assert (W : forall v u, b < v -> v < u -> f u < f v).
  { intros v u Hv Hu. destruct (MVT_gen f v u df) as (c & Hc & E).
    - intros t Ht. rewrite Rmin_left, Rmax_right in Ht by lra. apply D. lra.
    - intros t Ht. rewrite Rmin_left, Rmax_right in Ht by lra. apply derivable_continuous_pt. exists (df t). apply is_derive_Reals. apply D. lra.
    - rewrite Rmin_left, Rmax_right in Hc by lra. assert (df c < 0) by (apply N; lra). nra. }
  intros v u Hv Hu E. destruct (Rtotal_order v u) as [L|[L|L]]; [generalize (W v u Hv L); lra|exact L|generalize (W u v Hu L); lra].
Qed.
Lemma rk_hot : forall a b T P, 0 < b -> 0 < T -> 0 <= a -> a <= b * Rgas * T -> one_phase (eos_rk a b T) (gres_rk a b T P) b P.
Proof.
  intros a b T P Hb HT Ha Hh v u Hv Hu E1 E2 _. assert (G := Rg_pos). rewrite Rgas_Rg in Hh. revert Hv Hu. intros Hv Hu.
  refine (falling_inj (eos_rk a b T) (fun v => - Rg * T / (v - b) ^ 2 + a * (2 * v + b) / (v * (v + b)) ^ 2) b _ _ v u Hv Hu _); [| |congruence]; intros t Ht.
  - unfold eos_rk. eapply d_eq; [apply d_minus; apply d_div; [apply d_const|apply d_minus; [apply d_id|apply d_const]|lra|apply d_const|apply d_mult; [apply d_id|apply d_plus; [apply d_id|apply d_const]]|apply Rgt_not_eq, Rmult_lt_0_compat; lra]|]. cbv beta. rewrite Rgas_Rg. field. repeat split; lra.
  - assert (Hp1 : 0 < (t - b) ^ 2) by (apply pow_lt; lra). assert (Hp2 : 0 < (t * (t + b)) ^ 2) by (apply pow_lt, Rmult_lt_0_compat; lra).
    assert (K : a * (2 * t + b) * (t - b) ^ 2 < Rg * T * (t * (t + b)) ^ 2).
    { apply Rle_lt_trans with (b * Rg * T * (2 * t + b) * (t - b) ^ 2); [apply Rmult_le_compat_r; [lra|]; apply Rmult_le_compat_r; lra|].
      replace (b * Rg * T * (2 * t + b) * (t - b) ^ 2) with (Rg * T * (b * (2 * t + b) * (t - b) ^ 2)) by ring. apply Rmult_lt_compat_l; [apply Rmult_lt_0_compat; lra|].
      assert (b * (2 * t + b) < (t + b) ^ 2) by nra. assert ((t - b) ^ 2 <= t ^ 2) by nra. replace ((t * (t + b)) ^ 2) with ((t + b) ^ 2 * t ^ 2) by ring.
      apply Rlt_le_trans with ((t + b) ^ 2 * (t - b) ^ 2); [apply Rmult_lt_compat_r; assumption|]. apply Rmult_le_compat_l; [apply pow2_ge_0|assumption]. }
    replace (- Rg * T / (t - b) ^ 2 + a * (2 * t + b) / (t * (t + b)) ^ 2) with (- ((Rg * T * (t * (t + b)) ^ 2 - a * (2 * t + b) * (t - b) ^ 2) / ((t - b) ^ 2 * (t * (t + b)) ^ 2))) by (field; repeat split; lra).
    apply Ropp_lt_gt_0_contravar, Rlt_gt, Rdiv_lt_0_compat; [lra|]. now apply Rmult_lt_0_compat.
Qed.
Lemma pr_hot : forall a b T P, 0 < b -> 0 < T -> 0 <= a -> a <= b * Rgas * T -> one_phase (eos_pr a b T) (gres_pr a b T P) b P.
Proof.
  intros a b T P Hb HT Ha Hh v u Hv Hu E1 E2 _. assert (G := Rg_pos). rewrite Rgas_Rg in Hh.
  refine (falling_inj (eos_pr a b T) (fun v => - Rg * T / (v - b) ^ 2 + 2 * a * (v + b) / (v ^ 2 + 2 * b * v - b ^ 2) ^ 2) b _ _ v u Hv Hu _); [| |congruence]; intros t Ht; assert (Hq := pr_quad b t Hb Ht).
  - unfold eos_pr. eapply d_eq; [apply d_minus; apply d_div; [apply d_const|apply d_minus; [apply d_id|apply d_const]|lra|apply d_const|apply d_minus; [apply d_plus; [apply d_pow, d_id|apply d_scal, d_id]|apply d_const]|lra]|]. cbv beta. cbn [INR pred]. rewrite Rgas_Rg. field. repeat split; lra.
  - set (q := t ^ 2 + 2 * b * t - b ^ 2) in *. assert (Hp1 : 0 < (t - b) ^ 2) by (apply pow_lt; lra). assert (Hp2 : 0 < q ^ 2) by (apply pow_lt; lra).
    assert (K : 2 * a * (t + b) * (t - b) ^ 2 < Rg * T * q ^ 2).
    { apply Rle_lt_trans with (2 * (b * Rg * T) * (t + b) * (t - b) ^ 2); [apply Rmult_le_compat_r; [lra|]; apply Rmult_le_compat_r; lra|].
      replace (2 * (b * Rg * T) * (t + b) * (t - b) ^ 2) with (Rg * T * (2 * b * (t + b) * (t - b) ^ 2)) by ring. apply Rmult_lt_compat_l; [apply Rmult_lt_0_compat; lra|].
      assert (2 * b * (t + b) < (t + b) ^ 2) by nra. assert (Hm : 0 < (t + b) * (t - b)) by (apply Rmult_lt_0_compat; lra). assert ((t + b) * (t - b) < q) by (unfold q; nra).
      apply Rlt_le_trans with ((t + b) ^ 2 * (t - b) ^ 2); [apply Rmult_lt_compat_r; assumption|]. replace ((t + b) ^ 2 * (t - b) ^ 2) with (((t + b) * (t - b)) ^ 2) by ring. apply pow_incr. lra. }
    replace (- Rg * T / (t - b) ^ 2 + 2 * a * (t + b) / q ^ 2) with (- ((Rg * T * q ^ 2 - 2 * a * (t + b) * (t - b) ^ 2) / ((t - b) ^ 2 * q ^ 2))) by (field; repeat split; lra).
    apply Ropp_lt_gt_0_contravar, Rlt_gt, Rdiv_lt_0_compat; [lra|]. now apply Rmult_lt_0_compat.
Qed.
