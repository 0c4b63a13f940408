(** gShok2 as returned, the effective Born coefficient, and the HKF models fed by them. *)
From Coq Require Import List Bool Reals Lra Lia.
From Coquelicot Require Import Coquelicot.
From Verif Require Import RDeriv MineralModel MineralSpec GasMore GasPhase SoluteModel SoluteSpec SoluteProofs SoluteG SoluteG2.
Open Scope R_scope.

Lemma aux_n : forall n T, is_derive (fun t : R => ((t - C_K - 155) / 300) ^ n) T (INR n / 300 * ((T - C_K - 155) / 300) ^ pred n).
Proof. intros n T. eapply d_eq; [apply (d_pow (fun t : R => (t - C_K - 155) / 300) n T (1 / 300))|]. - eapply d_eq; [dr; lra|]. cbv beta. field. - field. Qed.
Lemma aux_y : forall y T, 0 < (T - C_K - 155) / 300 -> is_derive (fun t : R => Rpower ((t - C_K - 155) / 300) y) T (y / 300 * Rpower ((T - C_K - 155) / 300) (y - 1)).
Proof. intros y T H. eapply d_eq; [apply (aux_d y T H)|]. rewrite Rpower_pred by exact H. field. unfold Rdiv in H. intros E. lra. Qed.
Section STwo.
Context (x : R -> R -> gfun) (T P : R).
Hypothesis Hx : g_ok x T P.
Hypothesis HT : 155 < T - C_K.
Let F := fun t p => s_two (t - C_K) p (x t p).
Lemma stwo_ok : g_ok F T P.
Proof.
  destruct Hx as (W1 & W2 & W3). assert (N : 0 < (T - C_K - 155) / 300) by lra.
  assert (A1 := aux_y (48 / 10) T N). assert (A2 := aux_y (38 / 10) T N). assert (A3 := aux_n 16 T). assert (A4 := aux_n 15 T). cbn [pred] in A3, A4.
  replace (48 / 10 - 1) with (38 / 10) in A1 by lra. replace (38 / 10 - 1) with (28 / 10) in A2 by lra.
  split; [|split]; unfold F; cbn [g_ g_T g_P g_TT s_two].
  - eapply d_eq; [dr|]. cbv beta. cbn [INR]. generalize (((T - C_K - 155) / 300) ^ 15). intros. field.
  - eapply d_eq; [dr|]. cbv beta. cbn [INR pred]. generalize (((T - C_K - 155) / 300) ^ 16). intros. field.
  - eapply d_eq; [dr|]. cbv beta. cbn [INR]. generalize (((T - C_K - 155) / 300) ^ 14) (((T - C_K - 155) / 300) ^ 15). intros. field.
Qed.
End STwo.
Lemma g_ok_ext : forall F G T P, locally T (fun t => F t P = G t P) -> locally P (fun p => F T p = G T p) -> g_ok F T P -> g_ok G T P.
Proof.
  intros F G T P HT HP (A & B & C). assert (E : F T P = G T P) by (apply locally_singleton with (P := fun t => F t P = G t P); exact HT). split; [|split]; rewrite <- E.
  - eapply is_derive_ext_loc; [|exact A]. eapply filter_imp; [|exact HT]. intros t Ht. now rewrite Ht.
  - eapply is_derive_ext_loc; [|exact B]. eapply filter_imp; [|exact HP]. intros t Ht. now rewrite Ht.
  - eapply is_derive_ext_loc; [|exact C]. eapply filter_imp; [|exact HT]. intros t Ht. now rewrite Ht.
Qed.
Lemma shok_some : forall c P D al be daT, D <> 1 -> gShok2 c P D al be daT = Some (if region2 c P then s_two c P (s_one c D al be daT) else s_one c D al be daT).
Proof. intros. unfold gShok2, is_zero. destruct (Req_EM_T (1 - D) 0); [lra|reflexivity]. Qed.
Lemma shok_ok : forall (D al be daT : R -> R -> R) (T P : R),
  is_derive (fun t : R => D t P) T (- D T P * al T P) -> is_derive (fun p : R => D T p) P (100000 * (D T P * be T P)) -> is_derive (fun t : R => al t P) T (daT T P) ->
  D T P < 1 -> (T - C_K < 155 \/ 1000 < P \/ 155 < T - C_K /\ P < 1000) ->
  locally T (fun t => gShok2 (t - C_K) P (D t P) (al t P) (be t P) (daT t P) = Some (sval D al be daT t P)) /\
  locally P (fun p => gShok2 (T - C_K) p (D T p) (al T p) (be T p) (daT T p) = Some (sval D al be daT T p)) /\ g_ok (sval D al be daT) T P.
Proof.
  intros D al be daT T P D1 D2 D3 HD HR. assert (NT := nearT D al T P D1 HD). assert (NP := nearP D be T P D2 HD).
  assert (E : forall t p, 0 < 1 - D t p -> gShok2 (t - C_K) p (D t p) (al t p) (be t p) (daT t p) = Some (sval D al be daT t p)). { intros t p H. unfold sval. rewrite shok_some by lra. reflexivity. }
  split; [eapply filter_imp; [|exact NT]; intros t Ht; now apply E|]. split; [eapply filter_imp; [|exact NP]; intros t Ht; now apply E|].
  assert (S := s_ok D al be daT T P D1 D2 D3 HD).
  assert (V : forall t p, 0 < 1 - D t p -> sval D al be daT t p = if region2 (t - C_K) p then s_two (t - C_K) p (s_one (t - C_K) (D t p) (al t p) (be t p) (daT t p)) else s_one (t - C_K) (D t p) (al t p) (be t p) (daT t p)).
  { intros t p H. unfold sval. rewrite shok_some by lra. reflexivity. }
  destruct HR as [H|[H|[H1 H2]]].
  - eapply g_ok_ext; [| |exact S].
    + assert (N := near_both _ _ _ NT (near_lt (155 + C_K) T ltac:(lra))). eapply filter_imp; [|exact N]. intros t [A B]. rewrite V by exact A. now rewrite region2_out by (cbv beta in B; lra).
    + eapply filter_imp; [|exact NP]. intros p A. rewrite V by exact A. now rewrite region2_out by lra.
  - eapply g_ok_ext; [| |exact S].
    + eapply filter_imp; [|exact NT]. intros p A. rewrite V by exact A. now rewrite region2_out by lra.
    + assert (N := near_both _ _ _ NP (near_gt 1000 P H)). eapply filter_imp; [|exact N]. intros t [A B]. rewrite V by exact A. now rewrite region2_out by (cbv beta in B; lra).
  - eapply g_ok_ext; [| |exact (stwo_ok _ T P S H1)].
    + assert (N := near_both _ _ _ NT (near_gt (155 + C_K) T ltac:(lra))). eapply filter_imp; [|exact N]. intros t [A B]. rewrite V by exact A. now rewrite (proj2 (region2_in _ _)) by (cbv beta in B; lra).
    + assert (N := near_both _ _ _ NP (near_lt 1000 P H2)). eapply filter_imp; [|exact N]. intros t [A B]. rewrite V by exact A. now rewrite (proj2 (region2_in _ _)) by (cbv beta in B; lra).
Qed.
(** above 1 g/cm3, outside region II *)
Lemma shok_dense : forall (D al be daT : R -> R -> R) (T P : R), is_derive (fun p : R => D T p) P (100000 * (D T P * be T P)) -> 1 < D T P -> be T P <> 0 -> T - C_K < 155 ->
  is_derive (fun p : R => g_ (sval D al be daT T p)) P (- (100000 * g_P (sval D al be daT T P))) /\ g_P (sval D al be daT T P) <> 0.
Proof.
  intros D al be daT T P D2 HD Hb HT.
  assert (V : forall p, 1 < D T p -> sval D al be daT T p = s_one (T - C_K) (D T p) (al T p) (be T p) (daT T p)). { intros p H. unfold sval. rewrite shok_some by lra. now rewrite region2_out by lra. }
  rewrite (V P HD). split.
  - eapply is_derive_ext_loc; [|exact (dense_P D al be daT T P D2 HD)]. eapply filter_imp; [|exact (near_cont _ _ 1 (ex_d _ _ _ D2) HD)]. intros p Hp. now rewrite V.
  - apply (dense_nz D al be daT T P HD). apply Rmult_integral_contrapositive_currified; lra.
Qed.

(** *** the Born coefficient *)
Lemma abs_cases : forall z, Rabs z = z /\ Rabs (z * z * z) = z * z * z \/ Rabs z = - z /\ Rabs (z * z * z) = - (z * z * z).
Proof.
  intros z. destruct (Rle_dec 0 z) as [H|H].
  - left. split; apply Rabs_right; [lra|]. apply Rle_ge. apply Rmult_le_pos; [apply Rmult_le_pos; lra|lra].
  - right. split; apply Rabs_left; [lra|]. assert (0 < z * z) by nra. nra.
Qed.
Lemma omega_same : forall z w g, omega_gems z w g = omega_reak z false w g.
Proof.
  intros z w g. unfold omega_gems, omega_reak, re_ref. rewrite orb_false_r. destruct (is_zero z); [reflexivity|]. rewrite Rplus_0_r.
  replace (Rabs (z ^ 4)) with (z * z * z * z). 2: { symmetry. rewrite Rabs_right; [ring|]. apply Rle_ge. replace (z ^ 4) with ((z ^ 2) ^ 2) by ring. apply pow2_ge_0. }
  replace (z ^ 3) with (z * z * z) by ring. replace (z ^ 2) with (z * z) by ring. set (re := z * z / (w / eta + z / rH) + Rabs z * g_ g).
  replace (re ^ 2) with (re * re) by ring. replace (re ^ 3) with (re * re * re) by ring. f_equal; ring.
Qed.
Lemma omega_T : forall z w G T P, z <> 0 -> re_ref z w + Rabs z * g_ (G T P) <> 0 -> rH + g_ (G T P) <> 0 -> g_ok G T P -> omega_ok (fun t p => omega_reak z false w (G t p)) T P.
Proof.
  intros z w G T P Hz H1 H2 (A & B & C). unfold omega_ok, omega_reak, is_zero. destruct (Req_EM_T z 0); [contradiction|]. cbn [orb o_w o_T o_P o_TT].
  set (rr := re_ref z w) in *. destruct (abs_cases z) as [[E1 E2]|[E1 E2]]; rewrite E1, E2 in *; (split; [|split]); (eapply d_eq; [dr; nz0; assumption|]); cbv beta; cbn [INR pred]; field; split; assumption.
Qed.
Lemma omega_const : forall z hp w G T P, z = 0 \/ hp = true -> omega_ok (fun t p => omega_reak z hp w (G t p)) T P.
Proof.
  intros z hp w G T P H. assert (E : (is_zero z || hp)%bool = true). { unfold is_zero. destruct (Req_EM_T z 0); [reflexivity|]. destruct H; [contradiction|]. assumption. }
  unfold omega_ok, omega_reak. rewrite E. cbn [o_w o_T o_P o_TT]. rewrite Rmult_0_r. split; [|split]; apply d_const.
Qed.
Lemma omega_ref : forall z hp w g, g_ g = 0 -> w / eta + z / rH <> 0 -> o_w (omega_reak z hp w g) = w.
Proof.
  intros z hp w g Hg Hn. unfold omega_reak. destruct (is_zero z || hp)%bool eqn:E; [reflexivity|]. cbn [o_w]. rewrite Hg. unfold re_ref, is_zero in *. destruct (Req_EM_T z 0); [discriminate|].
  unfold eta, rH in *. field_simplify_eq; [ring|]. assert (w * 3082 + 1000 * 166027 * z <> 0) by (intros X; apply Hn; lra). repeat split; try lra; nra.
Qed.
