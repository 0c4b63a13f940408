(** Proofs about the cubic solver and the choice among its roots. *)
From Coq Require Import List Bool Reals Lra Lia.
From Coquelicot Require Import Coquelicot.
From Verif Require Import RDeriv GasModel.
Open Scope R_scope.

Definition poly (a2 a1 a0 z : R) : R := z ^ 3 + a2 * z ^ 2 + a1 * z + a0.
Lemma depressed : forall a2 a1 a0 t, poly a2 a1 a0 (t - a2 / 3) = t ^ 3 - 3 * c_q a2 a1 * t + 2 * c_r a2 a1 a0.
Proof. intros. unfold poly, c_q, c_r. field. Qed.
Lemma depressed' : forall a2 a1 a0 z, poly a2 a1 a0 z = (z + a2 / 3) ^ 3 - 3 * c_q a2 a1 * (z + a2 / 3) + 2 * c_r a2 a1 a0.
Proof. intros. rewrite <- depressed. f_equal. ring. Qed.
Lemma cos3 : forall x, cos (3 * x) = 4 * cos x ^ 3 - 3 * cos x.
Proof.
  intros x. replace (3 * x) with (2 * x + x) by ring. rewrite cos_plus, cos_2a, sin_2a.
  assert (E : sin x * sin x = 1 - cos x * cos x) by (generalize (sin2_cos2 x); unfold Rsqr; lra).
  transitivity (cos x * cos x * cos x - sin x * sin x * cos x - 2 * cos x * (sin x * sin x)); [ring|]. rewrite E. ring.
Qed.
(** three real roots *)
Lemma three_roots : forall q rc, rc ^ 2 < q ^ 3 -> let c := cos (acos (rc / sqrt (q ^ 3)) / 3) in
  0 < q /\ 2 * (q * sqrt q) * (4 * c ^ 3 - 3 * c) = 2 * rc.
Proof.
  intros q rc H c. assert (Hq3 : 0 < q ^ 3) by (generalize (pow2_ge_0 rc); lra).
  assert (Hq : 0 < q). { destruct (Rlt_dec 0 q) as [|N]; [assumption|]. assert (q ^ 3 <= 0); [|lra]. replace (q ^ 3) with (q * q ^ 2) by ring. generalize (pow2_ge_0 q). nra. }
  split; [exact Hq|].
  assert (Es : sqrt (q ^ 3) = q * sqrt q).
  { replace (q ^ 3) with (q ^ 2 * q) by ring. rewrite sqrt_mult by (try apply pow2_ge_0; lra). rewrite sqrt_pow2 by lra. reflexivity. }
  assert (Hs : 0 < sqrt q) by (apply sqrt_lt_R0; exact Hq). assert (Hqs : 0 < q * sqrt q) by (apply Rmult_lt_0_compat; assumption).
  unfold c. rewrite <- cos3. replace (3 * (acos (rc / sqrt (q ^ 3)) / 3)) with (acos (rc / sqrt (q ^ 3))) by field.
  assert (Hx : -1 <= rc / sqrt (q ^ 3) <= 1).
  { rewrite Es. assert (Hb : Rabs rc <= q * sqrt q). { rewrite <- sqrt_Rsqr_abs. rewrite <- Es. apply sqrt_le_1_alt. unfold Rsqr. replace (rc * rc) with (rc ^ 2) by ring. lra. }
    assert (Hb2 := Rabs_def2 rc). apply Rabs_le_between in Hb. split; apply Rmult_le_reg_r with (q * sqrt q); try exact Hqs; unfold Rdiv; rewrite Rmult_assoc, Rinv_l by lra; lra. }
  rewrite cos_acos by exact Hx. rewrite Es. field. split; lra.
Qed.
Lemma cos_shift : forall x, cos (x + 2 / 3 * PI) = - (1 / 2) * cos x - sqrt 3 / 2 * sin x /\ cos (x - 2 / 3 * PI) = - (1 / 2) * cos x + sqrt 3 / 2 * sin x.
Proof.
  intros x. replace (2 / 3 * PI) with (2 * (PI / 3)) by field. rewrite cos_plus, cos_minus, cos_2PI3, sin_2PI3. split; field.
Qed.
(** what the solver returns, with the exact circle number *)
Inductive solved (a2 a1 a0 : R) : R * R * R -> Prop :=
| solved3 : forall z1 z2 z3, (forall x, poly a2 a1 a0 x = (x - z1) * (x - z2) * (x - z3)) -> solved a2 a1 a0 (z1, z2, z3)
| solved1 : forall z c d, 0 <= d -> (forall x, poly a2 a1 a0 x = (x - z) * ((x - c) ^ 2 + d)) -> solved a2 a1 a0 (z, z, z).
Lemma cardano_solved : forall a2 a1 a0 r, cardano PI a2 a1 a0 = Some r -> solved a2 a1 a0 r.
Proof.
  intros a2 a1 a0 r. unfold cardano. set (q := c_q a2 a1). set (rc := c_r a2 a1 a0). destruct (Rlt_dec (rc ^ 2) (q ^ 3)) as [H3|H1].
  - intros [= <-]. change (q * (q * (q * 1))) with (q ^ 3). constructor. destruct (three_roots q rc H3) as [Hq E]. set (ph := acos (rc / sqrt (q ^ 3)) / 3) in *.
    intros x. destruct (cos_shift ph) as [-> ->]. rewrite depressed'. fold q rc. rewrite <- E.
    assert (E2 : sin ph * sin ph = 1 - cos ph * cos ph) by (generalize (sin2_cos2 ph); unfold Rsqr; lra).
    assert (E3 : sqrt 3 * sqrt 3 = 3) by (apply sqrt_sqrt; lra). assert (E4 : sqrt q * sqrt q = q) by (apply sqrt_sqrt; lra).
    set (s := sqrt q) in *. set (w := sqrt 3) in *. set (c := cos ph) in *. set (n := sin ph) in *. set (t := x + a2 / 3). clearbody s w c n q rc.
    transitivity ((t + 2 * s * c) * (t ^ 2 - 2 * s * c * t + 4 * (s * s) * ((1 / 4) * (c * c) - 1 / 4 * (w * w) * (n * n)))).
    + rewrite E2, E3, <- E4. field.
    + unfold t. field.
  - destruct (Req_EM_T rc 0) as [Z|NZ]; [discriminate|]. intros [= <-]. change (q * (q * (q * 1))) with (q ^ 3). change (rc * (rc * 1)) with (rc ^ 2).
    set (u := Rabs rc + sqrt (rc ^ 2 - q ^ 3)). assert (Hrc : 0 < Rabs rc) by (apply Rabs_pos_lt; exact NZ).
    assert (Hsq := sqrt_pos (rc ^ 2 - q ^ 3)). assert (Hu : 0 < u) by (unfold u; lra).
    set (p := Rpower u (1 / 3)). assert (Hp : 0 < p) by apply exp_pos.
    assert (Hp3 : p ^ 3 = u). { unfold p. rewrite <- Rpower_pow by apply exp_pos. rewrite Rpower_mult. replace (1 / 3 * INR 3) with 1 by (cbn; lra). now apply Rpower_1. }
    set (sg := rc / Rabs rc). assert (Hsg : sg * sg = 1). { unfold sg. assert (Rabs rc * Rabs rc = rc * rc) by (rewrite <- Rabs_mult; apply Rabs_right; nra). replace (rc / Rabs rc * (rc / Rabs rc)) with (rc * rc / (Rabs rc * Rabs rc)) by (field; lra). rewrite H. field. exact NZ. }
    assert (Hsr : rc = sg * Rabs rc) by (unfold sg; field; lra).
    set (ac := -1 * sg * p). assert (Hac : ac <> 0). { unfold ac. intros Z. assert (sg <> 0) by (intros Z'; rewrite Z' in Hsg; lra). assert (sg * p <> 0) by (apply Rmult_integral_contrapositive_currified; lra). lra. }
    assert (Hac3 : ac ^ 3 = - sg * u). { unfold ac. transitivity (- (sg * sg) * sg * p ^ 3); [ring|]. rewrite Hsg, Hp3. ring. }
    set (bc := q / ac). assert (Habq : ac * bc = q) by (unfold bc; field; exact Hac).
    assert (Hbc3 : bc ^ 3 = - sg * (Rabs rc - sqrt (rc ^ 2 - q ^ 3))).
    { apply Rmult_eq_reg_l with (ac ^ 3); [|apply pow_nonzero; exact Hac]. transitivity (q ^ 3); [rewrite <- Habq; ring|]. rewrite Hac3.
      transitivity ((sg * sg) * (u * (Rabs rc - sqrt (rc ^ 2 - q ^ 3)))); [|ring]. rewrite Hsg. unfold u.
      assert (Es : sqrt (rc ^ 2 - q ^ 3) * sqrt (rc ^ 2 - q ^ 3) = rc ^ 2 - q ^ 3) by (apply sqrt_sqrt; lra).
      assert (Ea : Rabs rc * Rabs rc = rc ^ 2) by (rewrite <- Rabs_mult; rewrite Rabs_right; [ring|nra]).
      transitivity (Rabs rc * Rabs rc - sqrt (rc ^ 2 - q ^ 3) * sqrt (rc ^ 2 - q ^ 3)); [rewrite Es, Ea; ring|ring]. }
    assert (Hsum : ac ^ 3 + bc ^ 3 = - 2 * rc). { rewrite Hac3, Hbc3. unfold u. transitivity (-2 * (sg * Rabs rc)); [ring|rewrite <- Hsr; reflexivity]. }
    clearbody ac bc. apply (solved1 _ _ _ (ac + bc - a2 / 3) (- (ac + bc) / 2 - a2 / 3) (3 / 4 * (ac - bc) ^ 2)).
    + generalize (pow2_ge_0 (ac - bc)). lra.
    + intros x. rewrite depressed'. fold q rc. assert (Er : 2 * rc = - (ac ^ 3 + bc ^ 3)) by lra. rewrite Er, <- Habq. field.
Qed.
Lemma cardano_three : forall a2 a1 a0 z1 z2 z3, c_r a2 a1 a0 ^ 2 < c_q a2 a1 ^ 3 -> cardano PI a2 a1 a0 = Some (z1, z2, z3) -> forall x, poly a2 a1 a0 x = (x - z1) * (x - z2) * (x - z3).
Proof.
  intros a2 a1 a0 z1 z2 z3 H3. unfold cardano. set (q := c_q a2 a1) in *. set (rc := c_r a2 a1 a0) in *. destruct (Rlt_dec (rc ^ 2) (q ^ 3)) as [_|N]; [|contradiction].
  intros [= <- <- <-]. change (q * (q * (q * 1))) with (q ^ 3). destruct (three_roots q rc H3) as [Hq E]. set (ph := acos (rc / sqrt (q ^ 3)) / 3) in *.
  intros x. destruct (cos_shift ph) as [-> ->]. rewrite depressed'. fold q rc. rewrite <- E.
  assert (E2 : sin ph * sin ph = 1 - cos ph * cos ph) by (generalize (sin2_cos2 ph); unfold Rsqr; lra).
  assert (E3 : sqrt 3 * sqrt 3 = 3) by (apply sqrt_sqrt; lra). assert (E4 : sqrt q * sqrt q = q) by (apply sqrt_sqrt; lra).
  set (s := sqrt q) in *. set (w := sqrt 3) in *. set (c := cos ph) in *. set (n := sin ph) in *. set (t := x + a2 / 3). clearbody s w c n q rc.
  transitivity ((t + 2 * s * c) * (t ^ 2 - 2 * s * c * t + 4 * (s * s) * ((1 / 4) * (c * c) - 1 / 4 * (w * w) * (n * n)))).
  - rewrite E2, E3, <- E4. field.
  - unfold t. field.
Qed.
Lemma cardano_none : forall pi a2 a1 a0, cardano pi a2 a1 a0 = None <-> c_r a2 a1 a0 = 0 /\ c_q a2 a1 <= 0.
Proof.
  intros pi a2 a1 a0. unfold cardano. set (q := c_q a2 a1). set (rc := c_r a2 a1 a0). destruct (Rlt_dec (rc ^ 2) (q ^ 3)) as [H|H].
  - split; [discriminate|]. intros [Z Q]. exfalso. rewrite Z in H. assert (q ^ 3 <= 0); [|lra]. replace (q ^ 3) with (q * q ^ 2) by ring. generalize (pow2_ge_0 q). nra.
  - destruct (Req_EM_T rc 0) as [Z|NZ]; [|split; [discriminate|intros [Z _]; contradiction]]. split; [|reflexivity]. intros _. split; [exact Z|].
    destruct (Rle_dec q 0) as [|N]; [assumption|]. exfalso. apply H. rewrite Z. assert (0 < q ^ 3) by (apply pow_lt; lra). lra.
Qed.
(** the literal for the circle number moves two of three roots by this much at most *)
Lemma cos_lip : forall x y, Rabs (cos x - cos y) <= Rabs (x - y).
Proof.
  intros x y. destruct (MVT_gen cos y x (fun t => - sin t)) as (c & _ & E).
  - intros. auto_derive; [exact I|ring].
  - intros. apply continuity_cos.
  - rewrite E, Rabs_mult. rewrite <- (Rmult_1_l (Rabs (x - y))) at 2. apply Rmult_le_compat_r; [apply Rabs_pos|]. rewrite Rabs_Ropp. apply Rabs_le. apply SIN_bound.
Qed.
Lemma cardano_pi : forall pi a2 a1 a0 z1 z2 z3, cardano pi a2 a1 a0 = Some (z1, z2, z3) -> exists y1 y2 y3, cardano PI a2 a1 a0 = Some (y1, y2, y3) /\
  z1 = y1 /\ Rabs (z2 - y2) <= 4 / 3 * sqrt (c_q a2 a1) * Rabs (pi - PI) /\ Rabs (z3 - y3) <= 4 / 3 * sqrt (c_q a2 a1) * Rabs (pi - PI).
Proof.
  intros pi a2 a1 a0 z1 z2 z3. unfold cardano. set (q := c_q a2 a1). set (rc := c_r a2 a1 a0).
  assert (Hn : 0 <= 4 / 3 * sqrt q * Rabs (pi - PI)) by (generalize (sqrt_pos q) (Rabs_pos (pi - PI)); intros; apply Rmult_le_pos; lra).
  destruct (Rlt_dec (rc ^ 2) (q ^ 3)) as [H|H].
  - intros [= <- <- <-]. change (q * (q * (q * 1))) with (q ^ 3). do 3 eexists. split; [reflexivity|]. split; [reflexivity|]. set (ph := acos (rc / sqrt (q ^ 3)) / 3).
    assert (Hs := sqrt_pos q). assert (K : forall x y, Rabs (-2 * sqrt q * cos x - a2 / 3 - (-2 * sqrt q * cos y - a2 / 3)) <= 2 * sqrt q * Rabs (x - y)).
    { intros x y. replace (-2 * sqrt q * cos x - a2 / 3 - (-2 * sqrt q * cos y - a2 / 3)) with (2 * sqrt q * - (cos x - cos y)) by ring. rewrite Rabs_mult, Rabs_Ropp, (Rabs_right (2 * sqrt q)) by lra.
      apply Rmult_le_compat_l; [lra|apply cos_lip]. }
    split; (eapply Rle_trans; [apply K|]).
    + replace (ph + 2 / 3 * pi - (ph + 2 / 3 * PI)) with (2 / 3 * (pi - PI)) by ring. rewrite Rabs_mult, (Rabs_right (2 / 3)) by lra. generalize (Rabs_pos (pi - PI)). intros. nra.
    + replace (ph - 2 / 3 * pi - (ph - 2 / 3 * PI)) with (- (2 / 3) * (pi - PI)) by ring. rewrite Rabs_mult, Rabs_Ropp, (Rabs_right (2 / 3)) by lra. generalize (Rabs_pos (pi - PI)). intros. nra.
  - destruct (Req_EM_T rc 0); [discriminate|]. intros [= <- <- <-]. change (q * (q * (q * 1))) with (q ^ 3). change (rc * (rc * 1)) with (rc ^ 2). do 3 eexists. split; [reflexivity|]. split; [reflexivity|].
    rewrite !Rminus_eq_0, Rabs_R0. split; exact Hn.
Qed.

(** *** the choice among the roots *)
Section Choice.
Variables a2 a1 a0 B : R.
Variables L k : R -> R.
Hypothesis HB : poly a2 a1 a0 B < 0.
Hypothesis HL : forall z, B < z -> is_derive L z (k z * poly a2 a1 a0 z).
Hypothesis Hk : forall z, B < z -> 0 < k z.
Definition lnf_of (z : R) : R := if Rlt_dec B z then L z else 1000.
Lemma down : forall x y, B < x -> x <= y -> (forall t, x <= t <= y -> 0 <= poly a2 a1 a0 t) -> L x <= L y.
Proof.
  intros x y Hx Hxy Hp. destruct (MVT_gen L x y (fun z => k z * poly a2 a1 a0 z)) as (c & Hc & E).
  - intros t Ht. rewrite Rmin_left, Rmax_right in Ht by lra. apply HL. lra.
  - intros t Ht. rewrite Rmin_left, Rmax_right in Ht by lra. apply derivable_continuous_pt. exists (k t * poly a2 a1 a0 t). apply is_derive_Reals. apply HL. lra.
  - rewrite Rmin_left, Rmax_right in Hc by lra. assert (0 <= k c * poly a2 a1 a0 c * (y - x)); [|lra].
    apply Rmult_le_pos; [|lra]. apply Rmult_le_pos; [apply Rlt_le, Hk; lra|apply Hp; lra].
Qed.
Lemma up : forall x y, B < x -> x <= y -> (forall t, x <= t <= y -> poly a2 a1 a0 t <= 0) -> L y <= L x.
Proof.
  intros x y Hx Hxy Hp. destruct (MVT_gen L x y (fun z => k z * poly a2 a1 a0 z)) as (c & Hc & E).
  - intros t Ht. rewrite Rmin_left, Rmax_right in Ht by lra. apply HL. lra.
  - intros t Ht. rewrite Rmin_left, Rmax_right in Ht by lra. apply derivable_continuous_pt. exists (k t * poly a2 a1 a0 t). apply is_derive_Reals. apply HL. lra.
  - rewrite Rmin_left, Rmax_right in Hc by lra. assert (0 <= k c * (- poly a2 a1 a0 c) * (y - x)); [|nra].
    apply Rmult_le_pos; [|lra]. apply Rmult_le_pos; [apply Rlt_le, Hk; lra|generalize (Hp c Hc); lra].
Qed.
(** some returned root above B is at most as high as any given point above B *)
Lemma some_root : forall z1 z2 z3, solved a2 a1 a0 (z1, z2, z3) -> forall z, B < z -> exists y, (y = z1 \/ y = z2 \/ y = z3) /\ B < y /\ L y <= L z.
Proof.
  intros z1 z2 z3 Hs z Hz. inversion Hs as [x1 x2 x3 E Ex|x c d Hd E Ex]; subst.
  - assert (W : forall r1 r2 r3, (forall x, poly a2 a1 a0 x = (x - r1) * (x - r2) * (x - r3)) -> r1 <= r2 -> r2 <= r3 -> exists y, (y = r1 \/ y = r2 \/ y = r3) /\ B < y /\ L y <= L z).
    { intros r1 r2 r3 Er H12 H23. rewrite Er in HB. assert (HB' := HB).
      destruct (Rle_dec r3 z) as [Z3|Z3].
      - exists r3. assert (B < r3). { destruct (Rlt_dec B r3) as [|N]; [assumption|]. exfalso. assert (0 <= (B - r1) * (B - r2) * (B - r3)); [|lra]. apply Rmult_le_pos; [apply Rmult_le_pos|]; lra. }
        split; [auto|]. split; [assumption|]. apply down; try assumption. intros t Ht. rewrite Er. apply Rmult_le_pos; [apply Rmult_le_pos|]; lra.
      - destruct (Rle_dec r2 z) as [Z2|Z2].
        + exists r3. split; [auto|]. split; [lra|]. apply up; try lra. intros t Ht. rewrite Er. assert (0 <= (t - r1) * (t - r2)) by (apply Rmult_le_pos; lra). nra.
        + destruct (Rle_dec r1 z) as [Z1|Z1].
          * exists r1. assert (B < r1). { destruct (Rlt_dec B r1) as [|N]; [assumption|]. exfalso. assert (0 <= (B - r1) * ((B - r2) * (B - r3))); [|lra]. apply Rmult_le_pos; [lra|nra]. }
            split; [auto|]. split; [assumption|]. apply down; try assumption. intros t Ht. rewrite Er. rewrite Rmult_assoc. apply Rmult_le_pos; [lra|nra].
          * exists r1. split; [auto|]. split; [lra|]. apply up; try lra. intros t Ht. rewrite Er. assert (0 <= (t - r2) * (t - r3)) by nra. rewrite Rmult_assoc. nra. }
    destruct (Rle_dec z1 z2) as [A12|A12], (Rle_dec z2 z3) as [A23|A23], (Rle_dec z1 z3) as [A13|A13]; try lra.
    + apply (W z1 z2 z3); auto.
    + destruct (W z1 z3 z2) as (y & Hy & R1); [intros x; rewrite E; ring|lra|lra|]. exists y. split; [tauto|exact R1].
    + destruct (W z3 z1 z2) as (y & Hy & R1); [intros x; rewrite E; ring|lra|lra|]. exists y. split; [tauto|exact R1].
    + destruct (W z2 z1 z3) as (y & Hy & R1); [intros x; rewrite E; ring|lra|lra|]. exists y. split; [tauto|exact R1].
    + destruct (W z2 z3 z1) as (y & Hy & R1); [intros x; rewrite E; ring|lra|lra|]. exists y. split; [tauto|exact R1].
    + destruct (W z3 z2 z1) as (y & Hy & R1); [intros x; rewrite E; ring|lra|lra|]. exists y. split; [tauto|exact R1].
  - assert (HBz : B < z3). { rewrite E in HB. destruct (Rlt_dec B z3) as [|N]; [assumption|]. exfalso. assert (0 <= (B - z3) * ((B - c) ^ 2 + d)); [|lra]. apply Rmult_le_pos; [lra|generalize (pow2_ge_0 (B - c)); lra]. }
    exists z3. split; [auto|]. split; [exact HBz|]. destruct (Rle_dec z3 z) as [Z|Z].
    + apply down; try assumption. intros t Ht. rewrite E. apply Rmult_le_pos; [lra|generalize (pow2_ge_0 (t - c)); lra].
    + apply up; try lra. intros t Ht. rewrite E. generalize (pow2_ge_0 (t - c)). intros. nra.
Qed.
Lemma pick_in : forall f z1 z2 z3, (pick f (z1, z2, z3) = z1 \/ pick f (z1, z2, z3) = z2 \/ pick f (z1, z2, z3) = z3) /\
  f (pick f (z1, z2, z3)) <= f z1 /\ f (pick f (z1, z2, z3)) <= f z2 /\ f (pick f (z1, z2, z3)) <= f z3.
Proof.
  intros f z1 z2 z3. unfold pick. destruct (Rlt_dec (f z2) (f z1)); destruct (Rlt_dec (f z3) _); (split; [tauto|]); repeat split; lra.
Qed.
Lemma solved_zero : forall z1 z2 z3, solved a2 a1 a0 (z1, z2, z3) -> poly a2 a1 a0 z1 = 0 /\ poly a2 a1 a0 z2 = 0 /\ poly a2 a1 a0 z3 = 0.
Proof. intros z1 z2 z3 Hs. inversion Hs as [x1 x2 x3 E Ex|x c d Hd E Ex]; subst; rewrite !E; repeat split; ring. Qed.
Theorem pick_stable : forall r, cardano PI a2 a1 a0 = Some r -> (exists z0, B < z0 /\ L z0 < 1000) ->
  let z := pick lnf_of r in B < z /\ poly a2 a1 a0 z = 0 /\ lnf_of z = L z /\ forall y, B < y -> L z <= L y.
Proof.
  intros [[z1 z2] z3] Hr (z0 & Hz0 & HL0) z. apply cardano_solved in Hr. destruct (pick_in lnf_of z1 z2 z3) as (Hin & M1 & M2 & M3). fold z in Hin, M1, M2, M3.
  assert (Hb : forall y, B < y -> lnf_of z <= L y).
  { intros y Hy. destruct (some_root z1 z2 z3 Hr y Hy) as (x & Hx & HBx & Hl). assert (Ex : lnf_of x = L x) by (unfold lnf_of; destruct (Rlt_dec B x); [reflexivity|contradiction]).
    destruct Hx as [-> | [-> | ->]]; lra. }
  assert (HBz : B < z). { destruct (Rlt_dec B z) as [|N]; [assumption|]. exfalso. generalize (Hb z0 Hz0). unfold lnf_of. destruct (Rlt_dec B z); [contradiction|]. lra. }
  assert (Ez : lnf_of z = L z) by (unfold lnf_of; destruct (Rlt_dec B z); [reflexivity|contradiction]).
  split; [exact HBz|]. split; [|split; [exact Ez|intros y Hy; rewrite <- Ez; apply Hb; exact Hy]].
  destruct (solved_zero z1 z2 z3 Hr) as (P1 & P2 & P3). destruct Hin as [-> | [-> | ->]]; assumption.
Qed.
End Choice.
