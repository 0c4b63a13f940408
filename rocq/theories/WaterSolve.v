(** Lemmas on the iterative density solvers, the Zhang-Duan functions and the finite differences. *)
From Coq Require Import List Bool ZArith Reals Lra Lia.
From Coquelicot Require Import Coquelicot.
From Verif Require Import RDeriv RDiff2 ThermoScalarModel WaterModel WaterAdModel WaterSpec WaterProofs WaterMore.
Import ListNotations.
Open Scope R_scope.

Lemma ltb_t : forall x y, ltb x y = true <-> x < y.
Proof. intros x y. unfold ltb. destruct (Rlt_dec x y); split; congruence || tauto. Qed.
Lemma ltb_f : forall x y, ltb x y = false <-> ~ x < y.
Proof. intros x y. unfold ltb. destruct (Rlt_dec x y); split; congruence || tauto. Qed.
Lemma isz_t : forall x, isz x = true <-> x = 0.
Proof. intros x. unfold isz. destruct (Req_EM_T x 0); split; congruence || tauto. Qed.
Lemma isz_f : forall x, isz x = false <-> x <> 0.
Proof. intros x. unfold isz. destruct (Req_EM_T x 0); split; congruence || tauto. Qed.
Lemma leb_t : forall x y, leb x y = true <-> x <= y.
Proof. intros x y. unfold leb. destruct (Rle_dec x y); split; congruence || tauto. Qed.

(** *** Newton iteration in general: a step function and an acceptance test *)
(** the k-th iterate, if the iteration gets there *)
Fixpoint iter_k (f : R -> option R) (k : nat) (x : R) : option R :=
  match k with O => Some x | S k => match iter_k f k x with Some y => f y | None => None end end.
Lemma iter_first : forall f k x, iter_k f (S k) x = match f x with Some y => iter_k f k y | None => None end.
Proof.
  intros f k. induction k as [|k IH]; intros x; [cbn; now destruct (f x)|].
  change (iter_k f (S (S k)) x) with (match iter_k f (S k) x with Some y => f y | None => None end). rewrite IH. destruct (f x); reflexivity.
Qed.

Definition nw_next (P : R) (model : R -> helm) (D : R) : option R := match nw_step P D (model D) with Next D' => Some D' | Stuck => None end.
Lemma nw_found : forall P model n D D', nw_loop P model n D = Found D' <->
  exists k Dk, (k < n)%nat /\ iter_k (nw_next P model) k D = Some Dk /\ iter_k (nw_next P model) (S k) D = Some D' /\ Rabs (nw_f P Dk (model Dk)) < newton_tol /\
    (forall j Dj, (j < k)%nat -> iter_k (nw_next P model) j D = Some Dj -> newton_tol <= Rabs (nw_f P Dj (model Dj))).
Proof.
  intros P model n. induction n as [|n IH]; intros D D'; cbn [nw_loop].
  - split; [discriminate|]. intros (k & Dk & Hk & _). lia.
  - destruct (nw_step P D (model D)) as [D1|] eqn:E.
    + assert (N : nw_next P model D = Some D1) by (unfold nw_next; now rewrite E).
      destruct (ltb (Rabs (nw_f P D (model D))) newton_tol) eqn:L.
      * apply ltb_t in L. split.
        -- intros [= <-]. exists O, D. repeat split; [lia|cbn; exact N|exact L|]. intros j Dj Hj. lia.
        -- intros (k & Dk & Hk & H1 & H2 & H3 & H4). destruct k as [|k].
           ++ cbn in H2. rewrite N in H2. congruence.
           ++ specialize (H4 O D ltac:(lia) eq_refl). lra.
      * apply ltb_f in L. rewrite IH. split.
        -- intros (k & Dk & Hk & H1 & H2 & H3 & H4). exists (S k), Dk. repeat split; [lia|rewrite iter_first, N; exact H1|rewrite iter_first, N; exact H2|exact H3|].
           intros [|j] Dj Hj Hi; [cbn in Hi; injection Hi as <-; lra|]. rewrite iter_first, N in Hi. apply (H4 j Dj); [lia|exact Hi].
        -- intros (k & Dk & Hk & H1 & H2 & H3 & H4). destruct k as [|k]; [cbn in H1; injection H1 as <-; lra|].
           rewrite iter_first, N in H1, H2. exists k, Dk. repeat split; [lia|exact H1|exact H2|exact H3|].
           intros j Dj Hj Hi. apply (H4 (S j) Dj); [lia|]. rewrite iter_first, N. exact Hi.
    + split; [discriminate|]. intros (k & Dk & Hk & H1 & H2 & H3 & H4).
      rewrite iter_first in H2. unfold nw_next in H2 at 1. now rewrite E in H2.
Qed.
Lemma nw_noconv : forall P model n D, nw_loop P model n D = NoConv <->
  (exists x, iter_k (nw_next P model) n D = Some x) /\ forall j Dj, (j < n)%nat -> iter_k (nw_next P model) j D = Some Dj -> newton_tol <= Rabs (nw_f P Dj (model Dj)).
Proof.
  intros P model n. induction n as [|n IH]; intros D; cbn [nw_loop].
  - split; [|reflexivity]. intros _. split; [now exists D|]. intros j Dj Hj. lia.
  - destruct (nw_step P D (model D)) as [D1|] eqn:E.
    + assert (N : nw_next P model D = Some D1) by (unfold nw_next; now rewrite E).
      destruct (ltb (Rabs (nw_f P D (model D))) newton_tol) eqn:L.
      * apply ltb_t in L. split; [discriminate|]. intros [_ H4]. specialize (H4 O D ltac:(lia) eq_refl). lra.
      * apply ltb_f in L. rewrite IH. split.
        -- intros [[x Hx] H4]. split; [exists x; rewrite iter_first, N; exact Hx|].
           intros [|j] Dj Hj Hi; [cbn in Hi; injection Hi as <-; lra|]. rewrite iter_first, N in Hi. apply (H4 j Dj); [lia|exact Hi].
        -- intros [[x Hx] H4]. rewrite iter_first, N in Hx. split; [now exists x|]. intros j Dj Hj Hi. apply (H4 (S j) Dj); [lia|]. rewrite iter_first, N. exact Hi.
    + split; [discriminate|]. intros [[x Hx] _]. rewrite iter_first in Hx. unfold nw_next in Hx at 1. now rewrite E in Hx.
Qed.
(** what a step is *)
Lemma nw_next_is : forall P model D D', nw_next P model D = Some D' -> let h := model D in
  (nw_df D h <> 0 /\ nw_f P D h / nw_df D h < D /\ D' = D - nw_f P D h / nw_df D h) \/ ((nw_df D h = 0 \/ D <= nw_f P D h / nw_df D h) /\ D * hD h <> 0 /\ D' = P / (D * hD h)).
Proof.
  intros P model D D' H h. unfold nw_next, nw_step in H. fold h in H. destruct (isz (nw_df D h)) eqn:Z.
  - apply isz_t in Z. destruct (ltb (nw_f P D h) 0); [discriminate|]. destruct (isz (D * hD h)) eqn:Z2; [discriminate|]. apply isz_f in Z2. injection H as <-. right. auto.
  - apply isz_f in Z. destruct (ltb (nw_f P D h / nw_df D h) D) eqn:L.
    + apply ltb_t in L. injection H as <-. left. auto.
    + apply ltb_f in L. destruct (isz (D * hD h)) eqn:Z2; [discriminate|]. apply isz_f in Z2. injection H as <-. right. repeat split; auto. right. lra.
Qed.
(** the pressure of the last but one iterate is within 0.22064 Pa of the given one *)
Lemma density_ok_pressure : forall T P ps l v st model D', waterDensity T P ps l v st model = Found D' ->
  exists D, Rabs (D * D * hD (model T D) - P) < 22064 / 100000 /\ nw_next P (model T) D = Some D' /\
    exists k, (k < 100)%nat /\ iter_k (nw_next P (model T)) k (startDensity T P ps l v st) = Some D.
Proof.
  intros T P ps l v st model D' H. apply nw_found in H. destruct H as (k & D & Hk & H1 & H2 & H3 & _). exists D. repeat split.
  - unfold nw_f, newton_tol in H3. set (x := D * D * hD (model T D) - P) in *. unfold Rdiv in H3. rewrite Rabs_mult in H3. rewrite (Rabs_right (/ wp_Pc)) in H3 by (unfold wp_Pc; lra). unfold wp_Pc in H3. lra.
  - cbn [iter_k] in H2. now rewrite H1 in H2.
  - now exists k.
Qed.
(** a Newton step never leaves the positive densities; the other branch is positive when the pressure and the slope are *)
Lemma density_pos : forall P model D D', nw_next P model D = Some D' -> 0 < P -> 0 < D * hD (model D) -> 0 < D'.
Proof.
  intros P model D D' H HP Hs. apply nw_next_is in H. cbv zeta in H. destruct H as [(_ & L & ->)|(_ & _ & ->)]; [lra|]. now apply Rdiv_lt_0_compat.
Qed.
(** starting on an exact positive solution returns it *)
Lemma density_fix : forall P model n D, (0 < n)%nat -> 0 < D -> D * D * hD (model D) = P -> nw_df D (model D) <> 0 -> nw_loop P model n D = Found D.
Proof.
  intros P model n D Hn HD HP Hd. destruct n as [|n]; [lia|]. cbn [nw_loop].
  assert (F : nw_f P D (model D) = 0) by (unfold nw_f; rewrite HP; unfold Rdiv; ring).
  assert (S : nw_step P D (model D) = Next D).
  { unfold nw_step. rewrite F. rewrite (proj2 (isz_f _) Hd). replace (0 / nw_df D (model D)) with 0 by (unfold Rdiv; ring). rewrite (proj2 (ltb_t 0 D) HD). f_equal. ring. }
  rewrite S, F, Rabs_R0. rewrite (proj2 (ltb_t 0 newton_tol)); [reflexivity|]. unfold newton_tol. lra.
Qed.
(** a state number above 2 leaves the start at zero *)
Lemma start_bad : forall T P ps l v st model, (2 < st)%Z -> T <= wp_Tc -> 0 < P -> waterDensity T P ps l v st model = NonNum.
Proof.
  intros T P ps l v st model Hs HT HP. unfold waterDensity, startDensity. rewrite (proj2 (leb_t T wp_Tc) HT). rewrite (proj2 (Z.leb_le 0 st)) by lia. cbn [andb].
  rewrite (proj2 (Z.eqb_neq st 0)), (proj2 (Z.eqb_neq st 1)), (proj2 (Z.eqb_neq st 2)) by lia. cbn [nw_loop].
  assert (E : nw_step P 0 (model T 0) = Stuck).
  { unfold nw_step, nw_f, nw_df. replace ((2 * 0 * hD (model T 0) + 0 * 0 * hDD (model T 0)) / wp_Pc) with 0 by (unfold Rdiv; ring). rewrite isz_yes.
    rewrite (proj2 (ltb_t _ 0)); [reflexivity|]. replace ((0 * 0 * hD (model T 0) - P) / wp_Pc) with (- (P / wp_Pc)) by (unfold wp_Pc; lra). assert (0 < P / wp_Pc) by (apply Rdiv_lt_0_compat; [exact HP|unfold wp_Pc; lra]). lra. }
  rewrite E. reflexivity.
Qed.
(** the requested state decides the start below the critical temperature and is ignored above *)
Lemma start_state : forall T P ps l v, (T <= wp_Tc -> startDensity T P ps l v 0 = l /\ startDensity T P ps l v 1 = v) /\
  (wp_Tc < T -> forall st, startDensity T P ps l v st = wp_Dc * (99 / 100)) /\ (T <= wp_Tc -> forall st, (st < 0)%Z -> (P < ps -> startDensity T P ps l v st = v) /\ (ps <= P -> startDensity T P ps l v st = l)).
Proof.
  intros T P ps l v. unfold startDensity. repeat match goal with |- _ /\ _ => split end.
  - intros H. rewrite (proj2 (leb_t _ _) H). split; reflexivity.
  - intros H st. assert (leb T wp_Tc = false) as -> by (unfold leb; destruct (Rle_dec T wp_Tc); [lra|reflexivity]). rewrite andb_false_r. reflexivity.
  - intros H st Hs. rewrite (proj2 (leb_t _ _) H). rewrite (proj2 (Z.leb_gt 0 st) Hs). cbn [andb]. split; intros Hp.
    + rewrite (proj2 (ltb_t _ _) Hp). reflexivity.
    + rewrite (proj2 (ltb_f P ps)) by lra. reflexivity.
Qed.

(** *** derivatives carried through a Newton step *)
Lemma dm_val : forall l r, val (d_mul_ts l r) = l * val r. Proof. intros. unfold d_mul_ts. destruct (is0 (val r)); reflexivity. Qed.
Lemma dm_ddt : forall l r, ddt (d_mul_ts l r) = l * ddt r. Proof. intros. unfold d_mul_ts. destruct (is0 (val r)); reflexivity. Qed.
Lemma dm_ddp : forall l r, ddp (d_mul_ts l r) = l * ddp r. Proof. intros. unfold d_mul_ts. destruct (is0 (val r)); reflexivity. Qed.
Lemma ad_newton : forall (P D hDv hDDv : TS) (aTD : R), ddt P = 0 -> ddp P = 1 ->
  ddt hDv = aTD + val hDDv * ddt D -> ddp hDv = val hDDv * ddp D ->
  let pT := val D * val D * aTD in let pD := 2 * val D * val hDv + val D * val D * val hDDv in
  let f := ad_f P D hDv in let df := ad_df D hDv hDDv in let D' := ad_step P D hDv hDDv in
  pD <> 0 -> val f / val df < val D ->
  val D' = val D - val f / val df /\ ddt D' = - pT / pD + val f * ddt df / val df ^ 2 /\ ddp D' = 1 / pD + val f * ddp df / val df ^ 2.
Proof.
  intros P D hDv hDDv aTD P1 P2 A1 A2 pT pD f df D' N L.
  assert (C0 : wp_Pc <> 0) by (unfold wp_Pc; lra).
  assert (Vdf : val df = pD / wp_Pc). { unfold df, ad_df, ts_div_d. rewrite dm_val. cbn [ts_add ts_mul ctor5 val]. rewrite dm_val. unfold pD. field. exact C0. }
  assert (Ndf : val df <> 0). { rewrite Vdf. unfold Rdiv. apply Rmult_integral_contrapositive_currified; [exact N|now apply Rinv_neq_0_compat]. }
  assert (Tf : ddt f = (pT + pD * ddt D) / wp_Pc). { unfold f, ad_f, ts_div_d. rewrite dm_ddt. cbn [ts_sub ts_mul ctor5 ddt val]. rewrite A1, P1. unfold pT, pD. field. exact C0. }
  assert (Pf : ddp f = (pD * ddp D - 1) / wp_Pc). { unfold f, ad_f, ts_div_d. rewrite dm_ddp. cbn [ts_sub ts_mul ctor5 ddp val]. rewrite A2, P2. unfold pD. field. exact C0. }
  assert (E : D' = ts_sub D (ts_div f df)). { unfold D', ad_step. fold f df. now rewrite (proj2 (ltb_t _ _) L). }
  rewrite E. cbn [ts_sub ts_div ctor5 val ddt ddp]. rewrite Tf, Pf. repeat split.
  - field. exact Ndf.
  - rewrite !Vdf. field. auto.
  - rewrite !Vdf. field. auto.
Qed.
Lemma ad_root : forall (P D hDv hDDv : TS) (aTD : R), ddt P = 0 -> ddp P = 1 ->
  ddt hDv = aTD + val hDDv * ddt D -> ddp hDv = val hDDv * ddp D ->
  let pT := val D * val D * aTD in let pD := 2 * val D * val hDv + val D * val D * val hDDv in
  pD <> 0 -> 0 < val D -> val D * val D * val hDv = val P ->
  let D' := ad_step P D hDv hDDv in val D' = val D /\ ddt D' = - pT / pD /\ ddp D' = 1 / pD.
Proof.
  intros P D hDv hDDv aTD P1 P2 A1 A2 pT pD N HD HR D'.
  assert (F : val (ad_f P D hDv) = 0). { unfold ad_f, ts_div_d. rewrite dm_val. cbn [ts_sub ts_mul ctor5 val]. rewrite HR. ring. }
  destruct (ad_newton P D hDv hDDv aTD P1 P2 A1 A2 N) as (a & b & c); [rewrite F; unfold Rdiv; rewrite Rmult_0_l; exact HD|].
  fold D' in a, b, c. rewrite F in a, b, c. repeat split; [rewrite a|rewrite b|rewrite c]; unfold pT, pD, Rdiv; ring.
Qed.

(** *** Zhang and Duan *)
Lemma zd_df_ok : forall T P V, V <> 0 -> P <> 0 -> is_derive (fun v : R => zd_f T P v) V (zd_df T P V).
Proof.
  intros T P V HV HP. unfold zd_f, zd_df. generalize (zd_B T) (zd_C T) (zd_D T) (zd_E T) (zd_F T) (zd_G T) zd_R zd_Vc zd_g. intros B C D E F G r vc g.
  auto_derive; [repeat split; auto; apply Rmult_integral_contrapositive_currified; auto; repeat apply Rmult_integral_contrapositive_currified; auto; lra|].
  set (e := exp _). replace (exp _) with e by (unfold e; f_equal; field; exact HV). field. auto.
Qed.
