From Coq Require Import Reals String List Lra Lia Psatz.
From Coquelicot Require Import Coquelicot.
From Verif Require Import ThermoScalarModel ThermoScalarSpec.
Open Scope R_scope.

Lemma is0_true x : is0 x = true -> x = 0.
Proof. unfold is0. destruct (Req_EM_T x 0); [auto|discriminate]. Qed.
Lemma is0_false x : is0 x = false -> x <> 0.
Proof. unfold is0. destruct (Req_EM_T x 0); [discriminate|auto]. Qed.
Lemma is0_neq x : x <> 0 -> is0 x = false.
Proof. unfold is0. destruct (Req_EM_T x 0); [contradiction|auto]. Qed.
Lemma is0_0 : is0 0 = true.
Proof. unfold is0. destruct (Req_EM_T 0 0); [auto|congruence]. Qed.

(** ** std::pow *)
Lemma Int_part_IZR z : Int_part (IZR z) = z.
Proof.
  unfold Int_part. pose proof (up_tech (IZR z) z) as H.
  rewrite <- (up_tech (IZR z) z); [lia| lra |].
  rewrite plus_IZR. lra.
Qed.
Lemma is_int_IZR z : is_int (IZR z) = true.
Proof. unfold is_int. rewrite Int_part_IZR. destruct Req_EM_T; congruence. Qed.

Lemma Rpower_IZR_pos x p : 0 < x -> Rpower x (IZR (Zpos p)) = x ^ Pos.to_nat p.
Proof.
  intros Hx. rewrite <- Rpower_pow by assumption. rewrite INR_IZR_INZ.
  rewrite positive_nat_Z. reflexivity.
Qed.
Lemma cpow_pos x y : 0 < x -> cpow x y = Rpower x y.
Proof. intros H. unfold cpow. destruct (Rlt_dec 0 x); [auto|contradiction]. Qed.
Lemma cpow_IZR_pos x p : cpow x (IZR (Zpos p)) = x ^ Pos.to_nat p.
Proof.
  unfold cpow. destruct (Rlt_dec 0 x) as [H|H].
  - apply Rpower_IZR_pos; auto.
  - rewrite is_int_IZR, Int_part_IZR. reflexivity.
Qed.
Lemma cpow_IZR_neg x p : cpow x (IZR (Zneg p)) = / (x ^ Pos.to_nat p).
Proof.
  unfold cpow. destruct (Rlt_dec 0 x) as [H|H].
  - replace (IZR (Z.neg p)) with (- IZR (Z.pos p)).
    + rewrite Rpower_Ropp, Rpower_IZR_pos; auto.
    + rewrite <- opp_IZR. reflexivity.
  - rewrite is_int_IZR, Int_part_IZR. reflexivity.
Qed.
Lemma cpow_0 x : cpow x 0 = 1.
Proof.
  unfold cpow. destruct (Rlt_dec 0 x) as [H|H].
  - apply Rpower_O; auto.
  - change 0 with (IZR 0). rewrite is_int_IZR, Int_part_IZR. reflexivity.
Qed.
Lemma cpow_INR x n : cpow x (INR n) = x ^ n.
Proof.
  destruct n as [|n].
  - simpl. apply cpow_0.
  - rewrite INR_IZR_INZ. change (Z.of_nat (S n)) with (Zpos (Pos.of_succ_nat n)).
    rewrite cpow_IZR_pos. rewrite SuccNat2Pos.id_succ. reflexivity.
Qed.

Lemma cpow_derive x c : 0 < x \/ (x <> 0 /\ exists z, c = IZR z) ->
  is_derive (fun x => cpow x c) x (c * cpow x c / x).
Proof.
  intros [H|[H [z ->]]].
  - apply (is_derive_ext_loc (fun x => exp (c * ln x))).
    + exists (mkposreal x H). intros y Hy.
      assert (0 < y).
      { unfold ball in Hy; simpl in Hy; unfold AbsRing_ball, abs, minus, plus, opp in Hy; simpl in Hy.
        apply Rabs_lt_between in Hy. lra. }
      rewrite cpow_pos by auto. reflexivity.
    + rewrite cpow_pos by auto. unfold Rpower. auto_derive; auto. field. lra.
  - destruct z as [|p|p].
    + apply (is_derive_ext (fun _ => 1)).
      * intros. rewrite cpow_0. reflexivity.
      * auto_derive; auto. field. auto.
    + apply (is_derive_ext (fun x => x ^ Pos.to_nat p)).
      * intros. rewrite cpow_IZR_pos. reflexivity.
      * auto_derive; auto. rewrite cpow_IZR_pos. rewrite INR_IZR_INZ, positive_nat_Z.
        destruct (Pos2Nat.is_succ p) as [n ->]. simpl. field. auto.
    + apply (is_derive_ext (fun x => / (x ^ Pos.to_nat p))).
      * intros. rewrite cpow_IZR_neg. reflexivity.
      * auto_derive. { apply pow_nonzero. auto. }
        rewrite cpow_IZR_neg. rewrite INR_IZR_INZ, positive_nat_Z.
        replace (IZR (Z.neg p)) with (- IZR (Z.pos p)) by (rewrite <- opp_IZR; reflexivity).
        destruct (Pos2Nat.is_succ p) as [n ->]. simpl.
        pose proof (pow_nonzero x n H). field. split; auto.
Qed.

Lemma cpow_derive0 c n : n <> 1%nat -> c = INR n -> is_derive (fun x => cpow x c) 0 0.
Proof.
  intros Hn ->. apply (is_derive_ext (fun x => x ^ n)).
  - intros. rewrite cpow_INR. reflexivity.
  - auto_derive; auto. destruct n as [|[|n]]; simpl; try lra; try lia.
Qed.

(** ** value of a formula *)
Lemma val_ctor v a b e s : val (ctor5 v a b e s) = v. Proof. reflexivity. Qed.
Lemma ddt_ctor v a b e s : ddt (ctor5 v a b e s) = a. Proof. reflexivity. Qed.
Lemma ddp_ctor v a b e s : ddp (ctor5 v a b e s) = b. Proof. reflexivity. Qed.
Lemma sta_ctor v a b e s : sta (ctor5 v a b e s) = s. Proof. reflexivity. Qed.

Lemma teval_val e t p : dom e t p -> val (teval e t p) = den e t p.
Proof.
  induction e; simpl; intros Hd;
    repeat match goal with H : _ /\ _ |- _ => destruct H end;
    repeat match goal with IH : ?P -> _, H : ?P |- _ => specialize (IH H) end;
    unfold ts_add_d, ts_mul_d, ts_div_d, ts_log10, ts_div_d, d_mul_ts, d_div_ts, ts_sqrt, ts_log, ts_pow_d, ts_pow;
    repeat match goal with |- context [is0 ?x] => let E := fresh in destruct (is0 x) eqn:E end;
    simpl; rewrite ?IHe, ?IHe1, ?IHe2; auto; try (unfold Rdiv; ring).
  - apply is0_true in H2. rewrite IHe1 in H2. lra.
  - rewrite cpow_pos by auto. reflexivity.
Qed.

(** ** derivatives of a formula: the T and P cases share one argument over a path *)
Lemma comp_derive (f g : R -> R) (x df dg : R) :
  is_derive g x dg -> is_derive f (g x) df -> is_derive (fun x => f (g x)) x (df * dg).
Proof.
  intros Hg Hf. pose proof (is_derive_comp f g x df dg Hf Hg) as H.
  unfold scal in H; simpl in H; unfold mult in H; simpl in H.
  replace (df * dg) with (dg * df) by ring. exact H.
Qed.

Lemma mult_derive (f g : R -> R) (x df dg : R) :
  is_derive f x df -> is_derive g x dg ->
  is_derive (fun x => f x * g x) x (df * g x + f x * dg).
Proof.
  intros. apply (is_derive_mult f g); auto. intros; apply Rmult_comm.
Qed.

Lemma ext_val (f : R -> R) (x d d' : R) : is_derive f x d -> d = d' -> is_derive f x d'.
Proof. intros; subst; auto. Qed.

Lemma derive_locally_pos (f : R -> R) (x d : R) : is_derive f x d -> 0 < f x -> locally x (fun y => 0 < f y).
Proof.
  intros Hd Hp. assert (Hc : continuous f x) by (apply (ex_derive_continuous f x); exists d; exact Hd).
  apply (Hc (fun y => 0 < y)). exists (mkposreal _ Hp). intros y Hy.
  unfold ball in Hy; simpl in Hy; unfold AbsRing_ball, abs, minus, plus, opp in Hy; simpl in Hy.
  apply Rabs_lt_between in Hy. lra.
Qed.

Lemma pow_derive (f : R -> R) (x d c : R) :
  is_derive f x d -> pow_ok (f x) c ->
  is_derive (fun y => cpow (f y) c) x
    (if is0 (f x) then 0 else c * cpow (f x) c / f x * d).
Proof.
  intros Hd [H|[H|[H0 [n [Hn Hc]]]]].
  - rewrite is0_neq by lra. apply (comp_derive (fun y => cpow y c)); auto. apply cpow_derive; auto.
  - rewrite is0_neq by tauto. apply (comp_derive (fun y => cpow y c)); auto. apply cpow_derive; auto.
  - rewrite H0, is0_0. eapply ext_val.
    + apply (comp_derive (fun y => cpow y c)); eauto. rewrite H0. eapply cpow_derive0; eauto.
    + ring.
Qed.

Lemma inv_derive (f : R -> R) (x d : R) : is_derive f x d -> f x <> 0 ->
  is_derive (fun y => / f y) x (- d / (f x * f x)).
Proof.
  intros Hd Hn. pose proof (is_derive_inv f x d Hd Hn) as H. eapply ext_val; [exact H|].
  simpl. field. auto.
Qed.
Lemma sqrt_derive (f : R -> R) (x d : R) : is_derive f x d -> 0 < f x ->
  is_derive (fun y => sqrt (f y)) x (1/2 * sqrt (f x) / f x * d).
Proof.
  intros Hd Hp. eapply ext_val. apply (comp_derive sqrt); eauto. auto_derive; eauto.
  pose proof (sqrt_lt_R0 _ Hp). pose proof (sqrt_sqrt (f x)) as E.
  replace (f x) with (sqrt (f x) * sqrt (f x)) at 3 by (apply E; lra). field. lra.
Qed.
Lemma ln_derive (f : R -> R) (x d : R) : is_derive f x d -> 0 < f x ->
  is_derive (fun y => ln (f y)) x (1 / f x * d).
Proof.
  intros Hd Hp. eapply ext_val. apply (comp_derive ln); eauto. auto_derive; eauto.
  field. lra.
Qed.
Lemma exp_derive (f : R -> R) (x d : R) : is_derive f x d ->
  is_derive (fun y => exp (f y)) x (exp (f x) * d).
Proof.
  intros Hd. eapply ext_val. apply (comp_derive exp); eauto. auto_derive; eauto. ring.
Qed.
Lemma plus_derive (f g : R -> R) (x df dg : R) :
  is_derive f x df -> is_derive g x dg -> is_derive (fun x => f x + g x) x (df + dg).
Proof. intros. apply (is_derive_plus f g); auto. Qed.
Lemma minus_derive (f g : R -> R) (x df dg : R) :
  is_derive f x df -> is_derive g x dg -> is_derive (fun x => f x - g x) x (df - dg).
Proof. intros. apply (is_derive_minus f g); auto. Qed.
Lemma const_derive (c x : R) : is_derive (fun _ : R => c) x 0.
Proof. apply (is_derive_const c). Qed.
Lemma id_derive (x : R) : is_derive (fun y : R => y) x 1.
Proof. apply (is_derive_id x). Qed.
Lemma opp_derive (f : R -> R) (x d : R) : is_derive f x d -> is_derive (fun y => - f y) x (- d).
Proof. intros. apply (is_derive_opp f); auto. Qed.

Lemma ln10_pos : 0 < ln10_literal. Proof. unfold ln10_literal. lra. Qed.

Ltac derstep :=
  lazymatch goal with
  | |- is_derive (fun _ => ?c) _ _ => apply const_derive
  | |- is_derive (fun x => x) _ _ => apply id_derive
  | |- is_derive (fun x => - _) _ _ => apply opp_derive
  | |- is_derive (fun x => _ + _) _ _ => apply plus_derive
  | |- is_derive (fun x => _ - _) _ _ => apply minus_derive
  | |- is_derive (fun x => _ * _) _ _ => apply mult_derive
  | |- is_derive (fun x => / _) _ _ => apply inv_derive
  | |- is_derive (fun x => sqrt _) _ _ => apply sqrt_derive
  | |- is_derive (fun x => ln _) _ _ => apply ln_derive
  | |- is_derive (fun x => exp _) _ _ => apply exp_derive
  | |- _ => eassumption
  end.

Ltac clean :=
  repeat match goal with H : _ /\ _ |- _ => destruct H end;
  repeat match goal with IH : ?P -> _, H : ?P |- _ => specialize (IH H) end.

Ltac usevals :=
  repeat match goal with H : dom ?e ?t ?p |- _ =>
    lazymatch goal with
    | _ : val (teval e t p) = den e t p |- _ => fail
    | _ => pose proof (teval_val e t p H)
    end end.

Lemma teval_ddt e t p : dom e t p -> is_derive (fun s => den e s p) t (ddt (teval e t p)).
Proof.
  induction e; intros Hd; cbn [den dom teval] in *;
    unfold ts_add_d, ts_mul_d, ts_log10, ts_div_d.
  - apply id_derive.
  - apply const_derive.
  - apply const_derive.
  - tauto.
  - clean. usevals. eapply ext_val; [repeat derstep|simpl; ring].
  - clean. usevals. eapply ext_val; [repeat derstep|simpl; ring].
  - clean. usevals. eapply ext_val; [repeat derstep|simpl; ring].
  - clean. usevals. eapply ext_val; [repeat derstep|simpl; rewrite H1, H2; ring].
  - clean. usevals. unfold Rdiv. eapply ext_val; [repeat (derstep; auto)|].
    cbn. rewrite H2, H3. field. auto.
  - clean. usevals. eapply ext_val; [repeat derstep|simpl; ring].
  - clean. usevals. eapply ext_val; [repeat derstep|simpl; ring].
  - clean. usevals. eapply ext_val; [repeat derstep|simpl; ring].
  - clean. usevals. eapply ext_val; [repeat derstep|simpl; ring].
  - clean. usevals. unfold d_mul_ts. destruct is0; (eapply ext_val; [repeat derstep|simpl; ring]).
  - clean. usevals. unfold d_mul_ts. destruct is0; (eapply ext_val; [repeat derstep|simpl; ring]).
  - clean. usevals. unfold Rdiv, d_div_ts. rewrite is0_neq by congruence.
    eapply ext_val; [repeat (derstep; auto)|]. cbn. rewrite H1. field. auto.
  - clean. usevals. unfold Rdiv, d_mul_ts.
    destruct is0; (eapply ext_val; [repeat derstep|simpl; field; auto]).
  - clean. usevals. unfold ts_sqrt. rewrite is0_neq by lra.
    eapply ext_val; [repeat (derstep; auto)|]. cbn. rewrite H1. reflexivity.
  - clean. usevals. eapply ext_val; [apply pow_derive; eauto|].
    unfold ts_pow_d. rewrite H1. destruct is0; reflexivity.
  - clean. usevals. unfold ts_pow. rewrite is0_neq by lra. cbn.
    eapply ext_val; [repeat (derstep; auto)|].
    cbn. rewrite H2, H3, cpow_pos by auto. unfold Rpower. field. lra.
  - clean. usevals. eapply ext_val; [repeat derstep|cbn; rewrite H; ring].
  - clean. usevals. unfold ts_log. rewrite is0_neq by lra.
    eapply ext_val; [repeat (derstep; auto)|]. cbn. rewrite H1. reflexivity.
  - clean. usevals. unfold ts_log, d_mul_ts. pose proof ln10_pos. unfold Rdiv.
    rewrite is0_neq with (x := val (teval e t p)) by lra.
    destruct is0; (eapply ext_val; [repeat (derstep; auto)|cbn; rewrite H1; field; split; lra]).
Qed.

Lemma teval_ddp e t p : dom e t p -> is_derive (fun s => den e t s) p (ddp (teval e t p)).
Proof.
  induction e; intros Hd; cbn [den dom teval] in *;
    unfold ts_add_d, ts_mul_d, ts_log10, ts_div_d.
  - apply const_derive.
  - apply id_derive.
  - apply const_derive.
  - tauto.
  - clean. usevals. eapply ext_val; [repeat derstep|simpl; ring].
  - clean. usevals. eapply ext_val; [repeat derstep|simpl; ring].
  - clean. usevals. eapply ext_val; [repeat derstep|simpl; ring].
  - clean. usevals. eapply ext_val; [repeat derstep|simpl; rewrite H1, H2; ring].
  - clean. usevals. unfold Rdiv. eapply ext_val; [repeat (derstep; auto)|].
    cbn. rewrite H2, H3. field. auto.
  - clean. usevals. eapply ext_val; [repeat derstep|simpl; ring].
  - clean. usevals. eapply ext_val; [repeat derstep|simpl; ring].
  - clean. usevals. eapply ext_val; [repeat derstep|simpl; ring].
  - clean. usevals. eapply ext_val; [repeat derstep|simpl; ring].
  - clean. usevals. unfold d_mul_ts. destruct is0; (eapply ext_val; [repeat derstep|simpl; ring]).
  - clean. usevals. unfold d_mul_ts. destruct is0; (eapply ext_val; [repeat derstep|simpl; ring]).
  - clean. usevals. unfold Rdiv, d_div_ts. rewrite is0_neq by congruence.
    eapply ext_val; [repeat (derstep; auto)|]. cbn. rewrite H1. field. auto.
  - clean. usevals. unfold Rdiv, d_mul_ts.
    destruct is0; (eapply ext_val; [repeat derstep|simpl; field; auto]).
  - clean. usevals. unfold ts_sqrt. rewrite is0_neq by lra.
    eapply ext_val; [repeat (derstep; auto)|]. cbn. rewrite H1. reflexivity.
  - clean. usevals. eapply ext_val; [apply (pow_derive (fun s => den e t s)); eauto|].
    unfold ts_pow_d. rewrite H1. destruct is0; reflexivity.
  - clean. usevals. unfold ts_pow. rewrite is0_neq by lra. cbn.
    eapply ext_val; [repeat (derstep; auto)|].
    cbn. rewrite H2, H3, cpow_pos by auto. unfold Rpower. field. lra.
  - clean. usevals. eapply ext_val; [repeat derstep|cbn; rewrite H; ring].
  - clean. usevals. unfold ts_log. rewrite is0_neq by lra.
    eapply ext_val; [repeat (derstep; auto)|]. cbn. rewrite H1. reflexivity.
  - clean. usevals. unfold ts_log, d_mul_ts. pose proof ln10_pos. unfold Rdiv.
    rewrite is0_neq with (x := val (teval e t p)) by lra.
    destruct is0; (eapply ext_val; [repeat (derstep; auto)|cbn; rewrite H1; field; split; lra]).
Qed.

(** ** status *)
Lemma status1_nd l : fst (status1 l) = notdefined <-> fst (sta l) = notdefined.
Proof. unfold status1. destruct (fst (sta l)); simpl; split; congruence. Qed.
Lemma status2_nd l r : fst (status2 l r) = notdefined <-> fst (sta l) = notdefined \/ fst (sta r) = notdefined.
Proof.
  unfold status2. destruct (fst (sta l)), (fst (sta r)); simpl; split; intros; auto;
    try congruence; try (destruct H; congruence).
Qed.
Lemma status1_cases l : status1 l = (notdefined, EmptyString) \/ status1 l = (calculated, EmptyString).
Proof. unfold status1. destruct (fst (sta l)); simpl; auto. Qed.
Lemma status2_cases l r : status2 l r = (notdefined, EmptyString) \/ status2 l r = (calculated, EmptyString).
Proof. unfold status2. destruct (fst (sta l)), (fst (sta r)); simpl; auto. Qed.

Ltac unfold_ops :=
  unfold ts_add_d, ts_mul_d, ts_div_d, ts_log10, ts_div_d, d_mul_ts, d_div_ts, ts_sqrt, ts_log,
    ts_pow_d, ts_pow in *;
  repeat match goal with |- context [is0 ?x] => destruct (is0 x) end;
  cbn [sta ctor5 ts_add ts_sub ts_mul ts_div ts_neg d_add_ts d_sub_ts ts_sub_d ts_exp fst] in *.

Lemma teval_status_nd e t p :
  fst (sta (teval e t p)) = notdefined <-> In notdefined (leaf_status e).
Proof.
  induction e; cbn [teval leaf_status].
  all: try (cbn; split; [congruence|intros [H|[]]; congruence]).
  all: try (cbn; split; [auto|intros [H|[]]; congruence]).
  all: unfold_ops; rewrite ?in_app_iff, ?status1_nd, ?status2_nd; cbn [sta ctor5];
    rewrite ?status1_nd; tauto.
Qed.

Lemma teval_status_cases e t p : is_leaf e = false ->
  sta (teval e t p) = (notdefined, EmptyString) \/ sta (teval e t p) = (calculated, EmptyString).
Proof.
  destruct e; simpl; try discriminate; intros _; unfold_ops;
   auto using status1_cases, status2_cases.
Qed.

Lemma teval_status e t p : is_leaf e = false ->
  sta (teval e t p) =
    (if in_dec (fun a b : Status => ltac:(decide equality)) notdefined (leaf_status e)
     then notdefined else calculated, EmptyString).
Proof.
  intros H. destruct (teval_status_cases e t p H) as [E|E]; rewrite E;
  destruct in_dec as [I|I]; auto; pose proof (teval_status_nd e t p) as N; rewrite E in N;
  cbn in N; [tauto|apply N in I; discriminate].
Qed.

(** ** errors *)
(** leaves carry non-negative errors *)
Fixpoint leaf_err_ok (e : texpr) : Prop :=
  match e with
  | XT | XP | XAssign _ => True
  | XExt _ _ _ fe _ => forall t p, 0 <= fe t p
  | XNeg a | XDAdd _ a | XAddD a _ | XDSub _ a | XSubD a _ | XDMul _ a | XMulD a _
  | XDDiv _ a | XDivD a _ | XSqrt a | XPowD a _ | XExp a | XLog a | XLog10 a => leaf_err_ok a
  | XAdd a b | XSub a b | XMul a b | XDiv a b | XPow a b => leaf_err_ok a /\ leaf_err_ok b
  end.

Lemma teval_err_nonneg e t p : leaf_err_ok e -> 0 <= err (teval e t p).
Proof.
  destruct e; simpl; intros H; auto;
  unfold ts_add_d, ts_mul_d, ts_div_d, ts_log10, ts_div_d, d_mul_ts, d_div_ts, ts_sqrt, ts_log, ts_pow_d, ts_pow;
  repeat match goal with |- context [is0 ?x] => destruct (is0 x) end;
  cbn [err ctor5 ts_add ts_sub ts_mul ts_div ts_neg d_add_ts d_sub_ts ts_sub_d ts_exp Temperature Pressure ts_assign];
  try apply Rabs_pos; simpl; try lra.
Qed.

Lemma relerr2_sq x : val x <> 0 -> relerr2 x = Rsqr (err x / val x).
Proof. intros. unfold relerr2. rewrite is0_neq by auto. unfold Rsqr, Rdiv. ring. Qed.

Lemma Rabs_mult_sqrt a b : 0 <= b -> Rabs (a * sqrt b) = sqrt (a * a * b).
Proof.
  intros. rewrite Rabs_mult, (Rabs_pos_eq (sqrt b)) by apply sqrt_pos.
  rewrite <- (sqrt_Rsqr_abs a), <- sqrt_mult by (try apply Rle_0_sqr; auto). reflexivity.
Qed.

Lemma sq_div_nonneg a b : 0 <= Rsqr (a / b).
Proof. apply Rle_0_sqr. Qed.

Lemma err_add l r : err (ts_add l r) = prop2 1 (err l) 1 (err r).
Proof. unfold prop2. cbn. rewrite !Rmult_1_l. apply Rabs_pos_eq, sqrt_pos. Qed.
Lemma err_sub l r : err (ts_sub l r) = prop2 1 (err l) (-1) (err r).
Proof.
  unfold prop2. cbn. rewrite !Rmult_1_l. rewrite Rabs_pos_eq by apply sqrt_pos.
  f_equal. ring.
Qed.
Lemma err_mul l r : val l <> 0 -> val r <> 0 ->
  err (ts_mul l r) = prop2 (val r) (err l) (val l) (err r).
Proof.
  intros. unfold prop2. cbn. rewrite !relerr2_sq by auto.
  rewrite Rabs_mult_sqrt.
  - f_equal. unfold Rsqr. field. auto.
  - pose proof (sq_div_nonneg (err l) (val l)); pose proof (sq_div_nonneg (err r) (val r)); lra.
Qed.
Lemma err_div l r : val l <> 0 -> val r <> 0 ->
  err (ts_div l r) = prop2 (1 / val r) (err l) (- val l / (val r * val r)) (err r).
Proof.
  intros. unfold prop2. cbn. rewrite !relerr2_sq by auto.
  rewrite Rabs_mult_sqrt.
  - f_equal. unfold Rsqr. field. auto.
  - pose proof (sq_div_nonneg (err l) (val l)); pose proof (sq_div_nonneg (err r) (val r)); lra.
Qed.
Lemma err_scale c r : val r <> 0 -> err (d_mul_ts c r) = prop1 c (err r).
Proof.
  intros. unfold d_mul_ts, prop1. rewrite is0_neq by auto. cbn.
  replace (err r / val r * err r / val r) with (Rsqr (err r / val r)) by (unfold Rsqr, Rdiv; ring).
  rewrite sqrt_Rsqr_abs, !Rabs_mult, Rabs_Rabsolu. rewrite <- !Rabs_mult. f_equal. field. auto.
Qed.
Lemma err_shift c r : err (d_add_ts c r) = prop1 1 (err r).
Proof. unfold prop1. cbn. f_equal; ring. Qed.
Lemma err_neg r : err (ts_neg r) = prop1 (-1) (err r).
Proof.
  unfold prop1. cbn. change (err r * err r) with (Rsqr (err r)).
  rewrite sqrt_Rsqr_abs, Rabs_Rabsolu, Rabs_mult, (Rabs_left (-1)) by lra. ring.
Qed.
Lemma err_exp r : err (ts_exp r) = prop1 (exp (val r)) (err r).
Proof. unfold prop1. cbn. f_equal; ring. Qed.

Lemma err_sqrt_iff r : 0 < val r -> err r <> 0 ->
  (err (ts_sqrt r) = prop1 (1 / (2 * sqrt (val r))) (err r) <-> val r = 1).
Proof.
  intros Hv He. unfold ts_sqrt, prop1. rewrite is0_neq by lra. cbn.
  pose proof (sqrt_lt_R0 _ Hv) as Hs. pose proof (sqrt_sqrt (val r) ltac:(lra)) as E.
  assert (Ha : Rabs (err r) <> 0) by (apply Rabs_no_R0; auto).
  unfold Rdiv. rewrite !Rabs_mult. rewrite (Rabs_pos_eq (/ val r)) by (apply Rlt_le, Rinv_0_lt_compat; auto).
  rewrite (Rabs_pos_eq (/ (2 * sqrt (val r)))) by (apply Rlt_le, Rinv_0_lt_compat; lra).
  rewrite !Rabs_R1. rewrite (Rabs_pos_eq (/2)) by lra.
  split; intros H.
  - assert (H' : / val r = / sqrt (val r)).
    { apply (Rmult_eq_reg_l (Rabs (err r) * / 2)); [|nra].
      rewrite Rinv_mult in H. nra. }
    assert (val r = sqrt (val r)) by (rewrite <- (Rinv_inv (val r)) at 1; rewrite H', Rinv_inv; auto).
    nra.
  - rewrite H, sqrt_1. rewrite !Rmult_1_r, Rinv_1. ring.
Qed.

Lemma err_log_never r : 0 < val r -> err r <> 0 ->
  err (ts_log r) <> prop1 (1 / val r) (err r).
Proof.
  intros Hv He H. unfold ts_log, prop1 in H. rewrite is0_neq in H by lra. cbn in H.
  assert (Ha : Rabs (err r) <> 0) by (apply Rabs_no_R0; auto).
  unfold Rdiv in H. rewrite !Rabs_mult in H.
  rewrite (Rabs_pos_eq (/ val r)) in H by (apply Rlt_le, Rinv_0_lt_compat; auto).
  rewrite (Rabs_pos_eq 434), (Rabs_pos_eq (/1000)), Rabs_R1 in H by lra.
  pose proof (Rinv_0_lt_compat _ Hv). assert (Rabs (err r) * / val r <> 0) by (apply Rmult_integral_contrapositive; split; lra).
  nra.
Qed.

Lemma err_pow_iff r c : 0 < val r -> err r <> 0 -> c <> 0 ->
  (err (ts_pow_d r c) = prop1 (c * cpow (val r) c / val r) (err r) <-> cpow (val r) c = 1).
Proof.
  intros Hv He Hc. unfold ts_pow_d, prop1. rewrite is0_neq by lra. cbn.
  rewrite cpow_pos by auto. assert (0 < Rpower (val r) c) by apply exp_pos.
  assert (Ha : Rabs (err r) <> 0) by (apply Rabs_no_R0; auto).
  assert (Hb : Rabs c <> 0) by (apply Rabs_no_R0; auto).
  unfold Rdiv. rewrite !Rabs_mult, Rabs_Rabsolu.
  rewrite (Rabs_pos_eq (/ val r)) by (apply Rlt_le, Rinv_0_lt_compat; auto).
  rewrite (Rabs_pos_eq (Rpower _ _)) by lra. pose proof (Rinv_0_lt_compat _ Hv).
  split; intros E.
  - apply (Rmult_eq_reg_l (Rabs c * Rabs (err r) * / val r)).
    + lra.
    + repeat apply Rmult_integral_contrapositive_currified; auto. lra.
  - rewrite E. ring.
Qed.

Lemma err_rdiv_iff l r : val r <> 0 -> err r <> 0 ->
  (err (d_div_ts l r) = prop1 (- l / (val r * val r)) (err r) <-> Rabs l = Rabs (val r)).
Proof.
  intros Hv He. unfold d_div_ts, prop1. rewrite is0_neq by auto. cbn.
  replace (err r / val r * err r / val r) with (Rsqr (err r / val r)) by (unfold Rsqr, Rdiv; ring).
  rewrite sqrt_Rsqr_abs. replace (1 / val r * val r) with 1 by (field; auto).
  rewrite Rmult_1_l, Rabs_Rabsolu.
  assert (Ha : 0 < Rabs (err r)) by (apply Rabs_pos_lt; auto).
  assert (Hb : 0 < Rabs (val r)) by (apply Rabs_pos_lt; auto).
  unfold Rdiv. rewrite !Rabs_mult, Rabs_Ropp, !Rabs_inv, Rabs_mult.
  split; intros E.
  - rewrite Rinv_mult in E. apply (Rmult_eq_reg_l (Rabs (err r) * / Rabs (val r) * / Rabs (val r))).
    + transitivity (Rabs (err r) * / Rabs (val r)); [symmetry; etransitivity; [exact E|ring]|field; lra].
    + repeat apply Rmult_integral_contrapositive_currified; try apply Rinv_neq_0_compat; lra.
  - rewrite E. field. lra.
Qed.

(** ** in-place operators *)
Definition same_vd (a b : TS) : Prop := val a = val b /\ ddt a = ddt b /\ ddp a = ddp b.

Lemma in_place_agree x o c :
  same_vd (ip_add x o) (ts_add x o) /\ same_vd (ip_sub x o) (ts_sub x o) /\
  same_vd (ip_mul x o) (ts_mul x o) /\ same_vd (ip_div x o) (ts_div x o) /\
  same_vd (ip_add_d x c) (ts_add_d x c) /\ same_vd (ip_sub_d x c) (ts_sub_d x c) /\
  same_vd (ip_mul_d x c) (ts_mul_d x c) /\ same_vd (ip_div_d x c) (ts_div_d x c).
Proof.
  unfold same_vd, ts_add_d, ts_mul_d, ts_div_d, d_mul_ts.
  destruct (is0 (val x)); cbn; unfold Rdiv; repeat split; ring.
Qed.

Lemma in_place_status x o c :
  sta (ip_add x o) = sta (ts_add x o) /\ sta (ip_sub x o) = sta (ts_sub x o) /\
  sta (ip_mul x o) = sta (ts_mul x o) /\ sta (ip_div x o) = sta (ts_div x o) /\
  (fst (sta (ip_add_d x c)) = notdefined <-> fst (sta (ts_add_d x c)) = notdefined) /\
  (fst (sta (ip_sub_d x c)) = notdefined <-> fst (sta (ts_sub_d x c)) = notdefined) /\
  (fst (sta (ip_mul_d x c)) = notdefined <-> fst (sta (ts_mul_d x c)) = notdefined) /\
  (fst (sta (ip_div_d x c)) = notdefined <-> fst (sta (ts_div_d x c)) = notdefined).
Proof.
  unfold ts_add_d, ts_mul_d, ts_div_d, d_mul_ts.
  destruct (is0 (val x)); cbn; rewrite ?status1_nd; repeat split; auto; tauto.
Qed.

Lemma Rabs_x_sqrt v q : Rabs (v * sqrt q) = Rabs (Rabs v * sqrt q).
Proof. rewrite !Rabs_mult, Rabs_Rabsolu. reflexivity. Qed.

Lemma in_place_err x o : val x <> 0 -> val o <> 0 ->
  err (ip_add x o) = err (ts_add x o) /\ err (ip_sub x o) = err (ts_sub x o) /\
  Rabs (err (ip_mul x o)) = err (ts_mul x o) /\ Rabs (err (ip_div x o)) = err (ts_div x o).
Proof.
  intros Hx Ho. cbn. rewrite !(Rabs_pos_eq (sqrt _)) by apply sqrt_pos.
  rewrite !is0_neq by auto. unfold relerr2. rewrite !is0_neq by auto.
  repeat split; f_equal; (apply f_equal2; [unfold Rdiv; ring|apply f_equal; unfold Rdiv; ring]).
Qed.

Lemma ip_mul_err_neg x o : val x <> 0 -> val o <> 0 -> err x <> 0 -> val x * val o < 0 ->
  err (ip_mul x o) < 0.
Proof.
  intros Hx Ho He Hn. cbn. rewrite is0_neq by auto.
  assert (0 < sqrt (err x / val x * (err x / val x) + err o / val o * err o / val o)); [|nra].
  apply sqrt_lt_R0.
  replace (err o / val o * err o / val o) with (Rsqr (err o / val o)) by (unfold Rsqr, Rdiv; ring).
  change (err x / val x * (err x / val x)) with (Rsqr (err x / val x)).
  assert (err x / val x <> 0).
  { unfold Rdiv. apply Rmult_integral_contrapositive_currified; auto. apply Rinv_neq_0_compat; auto. }
  pose proof (Rsqr_pos_lt _ H). pose proof (Rle_0_sqr (err o / val o)). lra.
Qed.

Lemma ip_mul_d_err_neg x c : val x <> 0 -> err x <> 0 -> val x * c < 0 -> err (ip_mul_d x c) < 0.
Proof.
  intros Hx He Hn. cbn. rewrite is0_neq by lra.
  replace (err x / val x * err x / val x) with (Rsqr (err x / val x)) by (unfold Rsqr, Rdiv; ring).
  assert (err x / val x <> 0).
  { unfold Rdiv. apply Rmult_integral_contrapositive_currified; auto. apply Rinv_neq_0_compat; auto. }
  rewrite sqrt_Rsqr_abs. pose proof (Rabs_pos_lt _ H). nra.
Qed.

Lemma ip_div_err_neg x o : val x <> 0 -> val o <> 0 -> err x <> 0 -> val x * val o < 0 ->
  err (ip_div x o) < 0.
Proof.
  intros Hx Ho He Hn. cbn. rewrite is0_neq by auto.
  assert (0 < sqrt (err x / val x * (err x / val x) + err o / val o * err o / val o)) as Hp.
  { apply sqrt_lt_R0.
  replace (err o / val o * err o / val o) with (Rsqr (err o / val o)) by (unfold Rsqr, Rdiv; ring).
  change (err x / val x * (err x / val x)) with (Rsqr (err x / val x)).
  assert (err x / val x <> 0).
  { unfold Rdiv. apply Rmult_integral_contrapositive_currified; auto. apply Rinv_neq_0_compat; auto. }
  pose proof (Rsqr_pos_lt _ H). pose proof (Rle_0_sqr (err o / val o)). lra. }
  assert (val x * (1 / val o) < 0); [|nra].
  replace (val x * (1 / val o)) with ((val x * val o) * / (val o * val o)) by (field; auto).
  assert (0 < / (val o * val o)) by (apply Rinv_0_lt_compat; nra). nra.
Qed.

Lemma ip_err_refuted :
  exists x o, 0 <= err x /\ 0 <= err o /\ err (ip_mul x o) < 0 /\ err (ip_div x o) < 0 /\
              err (ip_mul_d x 3) < 0.
Proof.
  exists (mkTS (-2) 0 0 (1/10) (read, EmptyString)), (mkTS 3 0 0 0 (read, EmptyString)).
  repeat split; try (cbn; lra).
  - apply ip_mul_err_neg; cbn; lra.
  - apply ip_div_err_neg; cbn; lra.
  - apply ip_mul_d_err_neg; cbn; lra.
Qed.

Lemma pow_one_refuted :
  exists e t p d, is_derive (fun s => den e s p) t d /\ val (teval e t p) = den e t p /\
    ddt (teval e t p) <> d.
Proof.
  exists (XPowD (XSubD XT 298) 1), 298, 1, 1. split; [|split].
  - cbn [den]. apply (is_derive_ext (fun s => s - 298)).
    + intros. pose proof (cpow_INR (t - 298) 1) as E. simpl in E. rewrite Rmult_1_r in E. symmetry. exact E.
    + auto_derive; auto.
  - cbn. unfold ts_pow_d. cbn. destruct is0; reflexivity.
  - cbn. unfold ts_pow_d. cbn. replace (298 - 298) with 0 by ring. rewrite is0_0. cbn. lra.
Qed.

Lemma err_mul_zero_refuted :
  exists l r, 0 <= err l /\ 0 <= err r /\ err (ts_mul l r) <> prop2 (val r) (err l) (val l) (err r).
Proof.
  exists (mkTS 0 0 0 1 (read, EmptyString)), (mkTS 2 0 0 0 (read, EmptyString)).
  cbn. repeat split; try lra. unfold prop2. rewrite Rmult_0_l, Rmult_0_l, Rabs_R0.
  replace (2 * 1 * (2 * 1) + 0 * 0 * (0 * 0)) with (Rsqr 2) by (unfold Rsqr; ring).
  rewrite sqrt_Rsqr by lra. lra.
Qed.
