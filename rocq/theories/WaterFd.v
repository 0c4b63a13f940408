(** Lemmas on the Zhang-Duan equation of state and on finite differences. *)
From Coq Require Import List Bool ZArith Reals Lra Lia.
From Coquelicot Require Import Coquelicot.
From Verif Require Import RDeriv RDiff2 ThermoScalarModel WaterModel WaterAdModel WaterSpec WaterProofs WaterMore WaterSolve.
Import ListNotations.
Open Scope R_scope.

Definition zd_next (T P V : R) : option R := if isz V || isz P || isz (zd_df T P V) then None else Some (V - zd_f T P V / zd_df T P V).
Lemma zd_found : forall T P n V V', zd_loop T P n V = Found V' <->
  exists k Vk, (k < n)%nat /\ iter_k (zd_next T P) k V = Some Vk /\ iter_k (zd_next T P) (S k) V = Some V' /\ Rabs (V' - Vk) < newton_tol /\
    (forall j Vj Vj', (j < k)%nat -> iter_k (zd_next T P) j V = Some Vj -> zd_next T P Vj = Some Vj' -> newton_tol <= Rabs (Vj' - Vj)).
Proof.
  intros T P n. induction n as [|n IH]; intros V V'; cbn [zd_loop].
  - split; [discriminate|]. intros (k & Dk & Hk & _). lia.
  - destruct (isz V || isz P || isz (zd_df T P V)) eqn:E.
    + split; [discriminate|]. intros (k & Dk & Hk & H1 & H2 & _). rewrite iter_first in H2. unfold zd_next in H2 at 1. now rewrite E in H2.
    + set (V1 := V - zd_f T P V / zd_df T P V). assert (N : zd_next T P V = Some V1) by (unfold zd_next; now rewrite E).
      destruct (ltb (Rabs (V1 - V)) newton_tol) eqn:L.
      * apply ltb_t in L. split.
        -- intros [= <-]. exists O, V. repeat split; [lia|cbn; exact N|exact L|]. intros j Vj Vj' Hj. lia.
        -- intros (k & Vk & Hk & H1 & H2 & H3 & H4). destruct k as [|k].
           ++ cbn in H2. rewrite N in H2. congruence.
           ++ specialize (H4 O V V1 ltac:(lia) eq_refl N). lra.
      * apply ltb_f in L. rewrite IH. split.
        -- intros (k & Vk & Hk & H1 & H2 & H3 & H4). exists (S k), Vk. repeat split; [lia|rewrite iter_first, N; exact H1|rewrite iter_first, N; exact H2|exact H3|].
           intros [|j] Vj Vj' Hj Hi Hn; [cbn in Hi; injection Hi as <-; rewrite N in Hn; injection Hn as <-; lra|]. rewrite iter_first, N in Hi. apply (H4 j Vj Vj'); [lia|exact Hi|exact Hn].
        -- intros (k & Vk & Hk & H1 & H2 & H3 & H4). destruct k as [|k]; [cbn in H1, H2; injection H1 as <-; rewrite N in H2; injection H2 as <-; lra|].
           rewrite iter_first, N in H1, H2. exists k, Vk. repeat split; [lia|exact H1|exact H2|exact H3|].
           intros j Vj Vj' Hj Hi Hn. apply (H4 (S j) Vj Vj'); [lia| |exact Hn]. rewrite iter_first, N. exact Hi.
Qed.
Lemma quot_lt : forall f d V t, d <> 0 -> Rabs (V - f / d - V) < t -> Rabs f < t * Rabs d.
Proof.
  intros f d V t C H3. replace (V - f / d - V) with (- (f / d)) in H3 by ring. rewrite Rabs_Ropp in H3.
  unfold Rdiv in H3. rewrite Rabs_mult, Rabs_inv in H3. assert (0 < Rabs d) by now apply Rabs_pos_lt.
  apply Rmult_lt_reg_r with (/ Rabs d); [now apply Rinv_0_lt_compat|]. rewrite Rmult_assoc, Rinv_r, Rmult_1_r by lra. exact H3.
Qed.
Lemma zd_next_some : forall T P V V', zd_next T P V = Some V' -> V <> 0 /\ P <> 0 /\ zd_df T P V <> 0 /\ V' = V - zd_f T P V / zd_df T P V.
Proof.
  intros T P V V'. unfold zd_next. generalize (zd_f T P V) (zd_df T P V). intros f d.
  destruct (isz V) eqn:A; [discriminate|]. destruct (isz P) eqn:B; [discriminate|]. destruct (isz d) eqn:C; [discriminate|]. cbn. intros [= <-].
  apply isz_f in A, B, C. auto.
Qed.
(** the residual at the accepted iterate is small against the slope *)
Lemma wmv : forall T P V0, waterMolarVolume T P V0 = zd_loop T P 100 V0.
Proof. reflexivity. Qed.
Lemma zd_accept_n : forall n T P V0 V', zd_loop T P n V0 = Found V' -> exists V, V <> 0 /\ P <> 0 /\ zd_df T P V <> 0 /\ V' = V - zd_f T P V / zd_df T P V /\ Rabs (zd_f T P V) < newton_tol * Rabs (zd_df T P V).
Proof.
  intros n T P V0 V' H. apply zd_found in H. destruct H as (k & V & _ & H1 & H2 & H3 & _). exists V. cbn [iter_k] in H2. rewrite H1 in H2. apply zd_next_some in H2.
  destruct H2 as (A & B & C & E). split; [exact A|]. split; [exact B|]. split; [exact C|]. split; [exact E|]. rewrite E in H3. exact (quot_lt _ _ _ _ C H3).
Qed.
Lemma zd_accept : forall T P V0 V', waterMolarVolume T P V0 = Found V' -> exists V, V <> 0 /\ P <> 0 /\ zd_df T P V <> 0 /\ V' = V - zd_f T P V / zd_df T P V /\ Rabs (zd_f T P V) < newton_tol * Rabs (zd_df T P V).
Proof. intros T P V0 V'. rewrite wmv. apply zd_accept_n. Qed.
(** the pressure of the equation of state (zero of zd_f), and d ln(phi) = (V/RT - 1/P) dP along an isotherm *)
Definition zd_Z (T v : R) : R := 1 + zd_B T / v + zd_C T / v ^ 2 + zd_D T / v ^ 4 + zd_E T / v ^ 5 + (zd_F T / v ^ 2 + zd_G T / v ^ 4) * exp (- zd_g / v ^ 2).
Definition zd_P (T v : R) : R := zd_Z T v * zd_R * T / (v * zd_Vc).
Lemma zd_P_root : forall T v, v <> 0 -> T <> 0 -> zd_Z T v <> 0 -> zd_f T (zd_P T v) v = 0.
Proof. intros T v Hv HT HZ. unfold zd_f. fold (zd_Z T v). unfold zd_P. assert (zd_Vc <> 0) by (unfold zd_Vc; lra). assert (zd_R <> 0) by (unfold zd_R; lra). field. auto. Qed.
Lemma zd_root_P : forall T P v, P <> 0 -> v <> 0 -> zd_f T P v = 0 -> P = zd_P T v.
Proof.
  intros T P v HP Hv E. unfold zd_f in E. fold (zd_Z T v) in E. unfold zd_P. assert (zd_Vc <> 0) by (unfold zd_Vc; lra).
  assert (E2 : zd_Z T v * zd_R * T = v * zd_Vc * P). { apply Rminus_diag_uniq in E. rewrite <- E. field. exact HP. } rewrite E2. field. auto.
Qed.
Lemma zd_lnphi_d : forall T v, T <> 0 -> 0 < v -> 0 < zd_Z T v -> exists p', is_derive (fun x : R => zd_P T x) v p' /\
  is_derive (fun x : R => zd_lnphi T (zd_P T x) x (x * zd_Vc)) v ((v * zd_Vc / (zd_R * T) - 1 / zd_P T v) * p').
Proof.
  intros T v HT Hv HZ. assert (V0 : zd_Vc <> 0) by (unfold zd_Vc; lra). assert (R0 : zd_R <> 0) by (unfold zd_R; lra). assert (G0 : zd_g <> 0) by (unfold zd_g; lra). assert (Nv : v <> 0) by lra.
  assert (ZD : is_derive (fun x : R => zd_Z T x) v (- zd_B T / v ^ 2 - 2 * zd_C T / v ^ 3 - 4 * zd_D T / v ^ 5 - 5 * zd_E T / v ^ 6
   - (2 * exp (- zd_g / v ^ 2) * (- zd_F T * zd_g * v ^ 2 + zd_F T * v ^ 4 - zd_g * zd_G T + 2 * zd_G T * v ^ 2)) / v ^ 7)).
  { unfold zd_Z. generalize (zd_B T) (zd_C T) (zd_D T) (zd_E T) (zd_F T) (zd_G T) zd_g. intros B C D E F G g.
    auto_derive; [repeat split; auto; repeat apply Rmult_integral_contrapositive_currified; auto; lra|].
    set (e := exp _). replace (exp _) with e by (unfold e; f_equal; field; exact Nv). field. auto. }
  set (z' := - zd_B T / v ^ 2 - _ - _ - _ - _) in ZD.
  exists (zd_R * T / zd_Vc * (z' * v - zd_Z T v) / v ^ 2). split.
  - unfold zd_P. eapply d_eq; [apply (d_div (fun x : R => zd_Z T x * zd_R * T) (fun x : R => x * zd_Vc)); [apply (d_scal_r (fun x : R => zd_Z T x * zd_R)); apply (d_scal_r (fun x : R => zd_Z T x)); exact ZD|apply (d_scal_r (fun x : R => x)); apply d_id|cbv beta; now apply Rmult_integral_contrapositive_currified]|]. cbv beta. field. auto.
  - apply (d_ext_pos (fun x : R => zd_Z T x - 1 - ln (zd_Z T x) + (zd_B T / x + zd_C T / (2 * x ^ 2) + zd_D T / (4 * x ^ 4) + zd_E T / (5 * x ^ 5)
       + (zd_F T / (2 * zd_g) + zd_G T / (2 * zd_g ^ 2) - exp (- zd_g / x ^ 2) * zd_F T / (2 * zd_g) - exp (- zd_g / x ^ 2) * zd_G T / (2 * zd_g ^ 2) - exp (- zd_g / x ^ 2) * zd_G T / (x ^ 2 * (2 * zd_g))))) _ v); [exact Hv| |].
    { intros x Hx. unfold zd_lnphi, zd_P. replace (zd_Z T x * zd_R * T / (x * zd_Vc) * (x * zd_Vc) / (zd_R * T)) with (zd_Z T x) by (field; repeat split; auto; lra). ring. }
    assert (HB : is_derive (fun x : R => zd_B T / x + zd_C T / (2 * x ^ 2) + zd_D T / (4 * x ^ 4) + zd_E T / (5 * x ^ 5)
       + (zd_F T / (2 * zd_g) + zd_G T / (2 * zd_g ^ 2) - exp (- zd_g / x ^ 2) * zd_F T / (2 * zd_g) - exp (- zd_g / x ^ 2) * zd_G T / (2 * zd_g ^ 2) - exp (- zd_g / x ^ 2) * zd_G T / (x ^ 2 * (2 * zd_g)))) v (- (zd_Z T v - 1) / v)).
    { unfold zd_Z. generalize (zd_B T) (zd_C T) (zd_D T) (zd_E T) (zd_F T) (zd_G T). intros B C D E F G. revert G0. generalize zd_g. intros g G0.
      auto_derive; [repeat split; auto; repeat apply Rmult_integral_contrapositive_currified; auto; lra|].
      set (e := exp _). replace (exp _) with e by (unfold e; f_equal; field; exact Nv). field. auto. }
    assert (HA : is_derive (fun x : R => zd_Z T x - 1 - ln (zd_Z T x)) v (z' - z' / zd_Z T v)).
    { eapply d_eq; [apply (d_minus (fun x : R => zd_Z T x - 1) (fun x : R => ln (zd_Z T x))); [apply (d_minus (fun x : R => zd_Z T x) (fun _ : R => 1)); [exact ZD|apply d_const]|apply (d_ln (fun x : R => zd_Z T x)); [exact ZD|exact HZ]]|]. ring. }
    eapply d_eq; [exact (d_plus _ _ v _ _ HA HB)|]. unfold zd_P. field. repeat split; auto; lra.
Qed.

(** *** finite differences *)
Lemma grow : forall (f f' : R -> R) (h K : R) (n : nat), 0 <= K -> f 0 = 0 -> (forall s, 0 <= s <= h -> is_derive f s (f' s)) -> (forall s, 0 <= s <= h -> Rabs (f' s) <= K * s ^ n) ->
  forall s, 0 <= s <= h -> Rabs (f s) <= K / INR (S n) * s ^ S n.
Proof.
  intros f f' h K n HK F0 HD HB s Hs. destruct (Req_dec s 0) as [->|Ns]; [rewrite F0, Rabs_R0; cbn [pow]; rewrite Rmult_0_l, Rmult_0_r; lra|].
  assert (N0 : INR (S n) <> 0) by (apply not_0_INR; lia).
  assert (A : forall sg, sg = 1 \/ sg = -1 -> sg * f s <= K / INR (S n) * s ^ S n).
  { intros sg Hsg.
    destruct (MVT_cor2 (fun x => K / INR (S n) * x ^ S n - sg * f x) (fun x => K * x ^ n - sg * f' x) 0 s) as (c & Ec & Hc).
    - lra.
    - intros c Hc. apply is_derive_Reals. eapply d_eq; [apply (d_minus (fun x : R => K / INR (S n) * x ^ S n) (fun x : R => sg * f x)); [apply (d_scal (fun x : R => x ^ S n)); apply (d_pow (fun x : R => x)); apply d_id|apply (d_scal f); apply HD; lra]|]. cbv beta. cbn [pred]. field. exact N0.
    - rewrite F0 in Ec. cbn [pow] in Ec. assert (B := HB c ltac:(lra)).
      assert (Q : sg * f' c <= Rabs (f' c)). { destruct Hsg as [->| ->]; [rewrite Rmult_1_l; apply Rle_abs|replace (-1 * f' c) with (- f' c) by ring; rewrite <- Rabs_Ropp; apply Rle_abs]. }
      assert (0 <= (K * c ^ n - sg * f' c) * (s - 0)) by (apply Rmult_le_pos; lra). cbn [pow]. lra. }
  assert (A1 := A 1 (or_introl eq_refl)). assert (A2 := A (-1) (or_intror eq_refl)). unfold Rabs. destruct (Rcase_abs (f s)); lra.
Qed.
Lemma shift_d : forall (f f' : R -> R) (x h : R), (forall t, Rabs (t - x) <= h -> is_derive f t (f' t)) -> forall s, 0 <= s <= h ->
  is_derive (fun u : R => f (x + u)) s (f' (x + s)) /\ is_derive (fun u : R => f (x - u)) s (- f' (x - s)).
Proof.
  intros f f' x h H s Hs. split.
  - eapply d_eq; [apply (d_comp f (fun u : R => x + u) s (f' (x + s)) 1); [apply H|]|ring].
    + replace (x + s - x) with s by ring. rewrite Rabs_pos_eq; lra.
    + eapply d_eq; [apply (d_plus (fun _ : R => x) (fun u : R => u)); [apply d_const|apply d_id]|ring].
  - eapply d_eq; [apply (d_comp f (fun u : R => x - u) s (f' (x - s)) (-1)); [apply H|]|ring].
    + replace (x - s - x) with (- s) by ring. rewrite Rabs_Ropp, Rabs_pos_eq; lra.
    + eapply d_eq; [apply (d_minus (fun _ : R => x) (fun u : R => u)); [apply d_const|apply d_id]|ring].
Qed.
Lemma central1 : forall (f f1 f2 f3 : R -> R) (x h M : R), 0 <= h ->
  (forall t, Rabs (t - x) <= h -> is_derive f t (f1 t) /\ is_derive f1 t (f2 t) /\ is_derive f2 t (f3 t) /\ Rabs (f3 t) <= M) ->
  Rabs (f (x + h) - f (x - h) - 2 * h * f1 x) <= M / 3 * h ^ 3.
Proof.
  intros f f1 f2 f3 x h M Hh H.
  assert (S0 := shift_d f f1 x h (fun t Ht => proj1 (H t Ht))). assert (S1 := shift_d f1 f2 x h (fun t Ht => proj1 (proj2 (H t Ht)))). assert (S2 := shift_d f2 f3 x h (fun t Ht => proj1 (proj2 (proj2 (H t Ht))))).
  assert (S3 : forall s, 0 <= s <= h -> Rabs (f3 (x + s)) <= M /\ Rabs (f3 (x - s)) <= M).
  { intros s Hs. split; apply H; [replace (x + s - x) with s by ring; rewrite Rabs_pos_eq; lra|replace (x - s - x) with (- s) by ring; rewrite Rabs_Ropp, Rabs_pos_eq; lra]. }
  assert (M0 : 0 <= M). { destruct (S3 0 ltac:(lra)) as [a _]. eapply Rle_trans; [apply Rabs_pos|exact a]. }
  assert (B2 : forall s, 0 <= s <= h -> Rabs (f2 (x + s) - f2 (x - s)) <= 2 * M / INR 1 * s ^ 1).
  { apply (grow (fun s => f2 (x + s) - f2 (x - s)) (fun s => f3 (x + s) - - f3 (x - s)) h (2 * M) 0); [lra|replace (x + 0) with x by ring; replace (x - 0) with x by ring; ring| |].
    - intros s Hs. destruct (S2 s Hs). now apply (d_minus (fun u : R => f2 (x + u)) (fun u : R => f2 (x - u))).
    - intros s Hs. destruct (S3 s Hs). eapply Rle_trans; [apply Rabs_triang|]. rewrite Ropp_involutive. cbn. lra. }
  assert (B1 : forall s, 0 <= s <= h -> Rabs (f1 (x + s) + f1 (x - s) - 2 * f1 x) <= 2 * M / INR 1 / INR 2 * s ^ 2).
  { apply (grow (fun s => f1 (x + s) + f1 (x - s) - 2 * f1 x) (fun s => f2 (x + s) - f2 (x - s)) h (2 * M / INR 1) 1); [cbn; lra|replace (x + 0) with x by ring; replace (x - 0) with x by ring; ring| |exact B2].
    intros s Hs. destruct (S1 s Hs) as [a b]. eapply d_eq; [apply (d_minus (fun u : R => f1 (x + u) + f1 (x - u)) (fun _ : R => 2 * f1 x)); [apply (d_plus (fun u : R => f1 (x + u)) (fun u : R => f1 (x - u))); [exact a|exact b]|apply d_const]|ring]. }
  assert (B0 := grow (fun s => f (x + s) - f (x - s) - 2 * s * f1 x) (fun s => f1 (x + s) + f1 (x - s) - 2 * f1 x) h (2 * M / INR 1 / INR 2) 2).
  assert (Q : 2 * M / INR 1 / INR 2 / INR 3 = M / 3) by (cbn; lra). rewrite <- Q. apply B0; [cbn; lra|replace (x + 0) with x by ring; replace (x - 0) with x by ring; ring| |exact B1|lra].
  intros s Hs. destruct (S0 s Hs) as [a b]. eapply d_eq; [apply (d_minus (fun u : R => f (x + u) - f (x - u)) (fun u : R => 2 * u * f1 x)); [apply (d_minus (fun u : R => f (x + u)) (fun u : R => f (x - u))); [exact a|exact b]|apply (d_scal_r (fun u : R => 2 * u)); apply (d_scal (fun u : R => u)); apply d_id]|ring].
Qed.
Lemma central2 : forall (f f1 f2 f3 f4 : R -> R) (x h M : R), 0 <= h ->
  (forall t, Rabs (t - x) <= h -> is_derive f t (f1 t) /\ is_derive f1 t (f2 t) /\ is_derive f2 t (f3 t) /\ is_derive f3 t (f4 t) /\ Rabs (f4 t) <= M) ->
  Rabs (f (x + h) + f (x - h) - 2 * f x - h ^ 2 * f2 x) <= M / 12 * h ^ 4.
Proof.
  intros f f1 f2 f3 f4 x h M Hh H.
  assert (S0 := shift_d f f1 x h (fun t Ht => proj1 (H t Ht))). assert (S1 := shift_d f1 f2 x h (fun t Ht => proj1 (proj2 (H t Ht)))). assert (S2 := shift_d f2 f3 x h (fun t Ht => proj1 (proj2 (proj2 (H t Ht))))).
  assert (S3 := shift_d f3 f4 x h (fun t Ht => proj1 (proj2 (proj2 (proj2 (H t Ht)))))).
  assert (S4 : forall s, 0 <= s <= h -> Rabs (f4 (x + s)) <= M /\ Rabs (f4 (x - s)) <= M).
  { intros s Hs. split; apply H; [replace (x + s - x) with s by ring; rewrite Rabs_pos_eq; lra|replace (x - s - x) with (- s) by ring; rewrite Rabs_Ropp, Rabs_pos_eq; lra]. }
  assert (M0 : 0 <= M). { destruct (S4 0 ltac:(lra)) as [a _]. eapply Rle_trans; [apply Rabs_pos|exact a]. }
  assert (B3 : forall s, 0 <= s <= h -> Rabs (f3 (x + s) - f3 (x - s)) <= 2 * M / INR 1 * s ^ 1).
  { apply (grow (fun s => f3 (x + s) - f3 (x - s)) (fun s => f4 (x + s) - - f4 (x - s)) h (2 * M) 0); [lra|replace (x + 0) with x by ring; replace (x - 0) with x by ring; ring| |].
    - intros s Hs. destruct (S3 s Hs). now apply (d_minus (fun u : R => f3 (x + u)) (fun u : R => f3 (x - u))).
    - intros s Hs. destruct (S4 s Hs). eapply Rle_trans; [apply Rabs_triang|]. rewrite Ropp_involutive. cbn. lra. }
  assert (B2 : forall s, 0 <= s <= h -> Rabs (f2 (x + s) + f2 (x - s) - 2 * f2 x) <= 2 * M / INR 1 / INR 2 * s ^ 2).
  { apply (grow (fun s => f2 (x + s) + f2 (x - s) - 2 * f2 x) (fun s => f3 (x + s) - f3 (x - s)) h (2 * M / INR 1) 1); [cbn; lra|replace (x + 0) with x by ring; replace (x - 0) with x by ring; ring| |exact B3].
    intros s Hs. destruct (S2 s Hs) as [a b]. eapply d_eq; [apply (d_minus (fun u : R => f2 (x + u) + f2 (x - u)) (fun _ : R => 2 * f2 x)); [apply (d_plus (fun u : R => f2 (x + u)) (fun u : R => f2 (x - u))); [exact a|exact b]|apply d_const]|ring]. }
  assert (B1 : forall s, 0 <= s <= h -> Rabs (f1 (x + s) - f1 (x - s) - 2 * s * f2 x) <= 2 * M / INR 1 / INR 2 / INR 3 * s ^ 3).
  { apply (grow (fun s => f1 (x + s) - f1 (x - s) - 2 * s * f2 x) (fun s => f2 (x + s) + f2 (x - s) - 2 * f2 x) h (2 * M / INR 1 / INR 2) 2); [cbn; lra|replace (x + 0) with x by ring; replace (x - 0) with x by ring; ring| |exact B2].
    intros s Hs. destruct (S1 s Hs) as [a b]. eapply d_eq; [apply (d_minus (fun u : R => f1 (x + u) - f1 (x - u)) (fun u : R => 2 * u * f2 x)); [apply (d_minus (fun u : R => f1 (x + u)) (fun u : R => f1 (x - u))); [exact a|exact b]|apply (d_scal_r (fun u : R => 2 * u)); apply (d_scal (fun u : R => u)); apply d_id]|ring]. }
  assert (B0 := grow (fun s => f (x + s) + f (x - s) - 2 * f x - s ^ 2 * f2 x) (fun s => f1 (x + s) - f1 (x - s) - 2 * s * f2 x) h (2 * M / INR 1 / INR 2 / INR 3) 3).
  assert (Q : 2 * M / INR 1 / INR 2 / INR 3 / INR 4 = M / 12) by (cbn; lra). rewrite <- Q. apply B0; [cbn; lra|replace (x + 0) with x by ring; replace (x - 0) with x by ring; ring| |exact B1|lra].
  intros s Hs. destruct (S0 s Hs) as [a b]. eapply d_eq; [apply (d_minus (fun u : R => f (x + u) + f (x - u) - 2 * f x) (fun u : R => u ^ 2 * f2 x)); [apply (d_minus (fun u : R => f (x + u) + f (x - u)) (fun _ : R => 2 * f x)); [apply (d_plus (fun u : R => f (x + u)) (fun u : R => f (x - u))); [exact a|exact b]|apply d_const]|apply (d_scal_r (fun u : R => u ^ 2)); apply (d_pow (fun u : R => u)); apply d_id]|cbn; ring].
Qed.
Lemma sym_h : forall x, (x + x * (1 / 1000) = x + Rabs x / 1000 /\ x - x * (1 / 1000) = x - Rabs x / 1000) \/ (x + x * (1 / 1000) = x - Rabs x / 1000 /\ x - x * (1 / 1000) = x + Rabs x / 1000).
Proof. intros x. unfold Rabs. destruct (Rcase_abs x); [right|left]; lra. Qed.
Lemma fd1_ok : forall (f f1 f2 f3 : R -> R) (x M : R), x <> 0 ->
  (forall t, Rabs (t - x) <= Rabs x / 1000 -> is_derive f t (f1 t) /\ is_derive f1 t (f2 t) /\ is_derive f2 t (f3 t) /\ Rabs (f3 t) <= M) ->
  exists d, fd1 f x = Some d /\ Rabs (d - f1 x) <= M / 6 * (Rabs x / 1000) ^ 2.
Proof.
  intros f f1 f2 f3 x M Hx H. unfold fd1. assert (N : x + x * (1 / 1000) - (x - x * (1 / 1000)) <> 0) by lra. rewrite (isz_no _ N). eexists. split; [reflexivity|].
  set (h := Rabs x / 1000) in *. assert (hp : 0 < h) by (unfold h; assert (A := Rabs_pos_lt x Hx); lra).
  assert (C := central1 f f1 f2 f3 x h M ltac:(lra) H).
  assert (E : (f (x + x * (1 / 1000)) - f (x - x * (1 / 1000))) / (x + x * (1 / 1000) - (x - x * (1 / 1000))) - f1 x = (f (x + h) - f (x - h) - 2 * h * f1 x) / (2 * h)).
  { destruct (sym_h x) as [[-> ->]|[-> ->]]; fold h; field; lra. }
  rewrite E. unfold Rdiv at 1. rewrite Rabs_mult, (Rabs_pos_eq (/ (2 * h))) by (left; apply Rinv_0_lt_compat; lra).
  apply Rmult_le_reg_r with (2 * h); [lra|]. rewrite Rmult_assoc, Rinv_l, Rmult_1_r by lra. replace (M / 6 * h ^ 2 * (2 * h)) with (M / 3 * h ^ 3) by field. exact C.
Qed.
Lemma fd2_ok : forall (f f1 f2 f3 f4 : R -> R) (x M : R), x <> 0 ->
  (forall t, Rabs (t - x) <= Rabs x / 1000 -> is_derive f t (f1 t) /\ is_derive f1 t (f2 t) /\ is_derive f2 t (f3 t) /\ is_derive f3 t (f4 t) /\ Rabs (f4 t) <= M) ->
  exists d, fd2 f x = Some d /\ Rabs (d - f2 x) <= M / 12 * (Rabs x / 1000) ^ 2.
Proof.
  intros f f1 f2 f3 f4 x M Hx H. unfold fd2. assert (N : x + x * (1 / 1000) - (x - x * (1 / 1000)) <> 0) by lra. rewrite (isz_no _ N). eexists. split; [reflexivity|].
  set (h := Rabs x / 1000) in *. assert (hp : 0 < h) by (unfold h; assert (A := Rabs_pos_lt x Hx); lra).
  assert (C := central2 f f1 f2 f3 f4 x h M ltac:(lra) H).
  assert (E : (f (x + x * (1 / 1000)) + f (x - x * (1 / 1000)) - 2 * f x) / ((x + x * (1 / 1000) - (x - x * (1 / 1000))) * (1 / 2)) ^ 2 - f2 x = (f (x + h) + f (x - h) - 2 * f x - h ^ 2 * f2 x) / h ^ 2).
  { destruct (sym_h x) as [[-> ->]|[-> ->]]; fold h; field; lra. }
  rewrite E. assert (P2 : 0 < h ^ 2) by (apply pow_lt; exact hp). unfold Rdiv at 1. rewrite Rabs_mult, (Rabs_pos_eq (/ h ^ 2)) by (left; now apply Rinv_0_lt_compat).
  apply Rmult_le_reg_r with (h ^ 2); [exact P2|]. rewrite Rmult_assoc, Rinv_l, Rmult_1_r by lra. replace (M / 12 * h ^ 2 * h ^ 2) with (M / 12 * h ^ 4) by ring. exact C.
Qed.
Lemma fd_zero : forall f, fd1 f 0 = None /\ fd2 f 0 = None.
Proof. intros f. unfold fd1, fd2. replace (0 + 0 * (1 / 1000) - (0 - 0 * (1 / 1000))) with 0 by ring. rewrite isz_yes. split; reflexivity. Qed.
