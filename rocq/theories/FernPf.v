From Coq Require Import List Bool ZArith Reals Lra Lia Psatz.
From Coquelicot Require Import Coquelicot.
From Verif Require Import RDeriv FernModel.
Import ListNotations.
Open Scope R_scope.

Definition f_disc (A B : R) : R := 9 + 2 * A + 18 * B + A ^ 2 + 10 * A * B + 9 * B ^ 2.
Lemma disc_eq : forall A B, f_disc A B = (1 + A + 5 * B) ^ 2 + 8 * (1 - B) * (1 + 2 * B). Proof. intros. unfold f_disc. ring. Qed.
Lemma disc_pos : forall A B, 0 <= B < 1 -> 0 < f_disc A B.
Proof. intros A B H. rewrite disc_eq. assert (0 <= (1 + A + 5 * B) ^ 2) by apply pow2_ge_0. assert (0 < (1 - B) * (1 + 2 * B)) by (apply Rmult_lt_0_compat; lra). lra. Qed.
Lemma eps_form : forall A B, 4 * (1 - B) <> 0 -> f_eps A B = (1 + A + 5 * B + sqrt (f_disc A B)) / (4 * (1 - B)).
Proof. intros A B H. unfold f_eps, f_disc. set (s := sqrt _). field. lra. Qed.
Lemma eps_pos : forall A B, 0 <= B < 1 -> 0 < f_eps A B.
Proof.
  intros A B H. rewrite eps_form by lra. apply Rdiv_lt_0_compat; [|lra]. assert (D := disc_pos A B H).
  assert (S0 := sqrt_sqrt (f_disc A B) (Rlt_le _ _ D)). assert (S1 := sqrt_pos (f_disc A B)). set (s := sqrt _) in *.
  destruct (Rlt_or_le 0 (1 + A + 5 * B)) as [K|K]; [lra|]. assert (0 < 8 * (1 - B) * (1 + 2 * B)) by (apply Rmult_lt_0_compat; lra).
  rewrite disc_eq in S0. nra.
Qed.
Lemma eps_eqn : forall A B e, 0 <= B < 1 -> 0 < e -> ((e - 1) * (2 * e + 1) = B * (e + 2) * (2 * e + 1) + A * e <-> e = f_eps A B).
Proof.
  intros A B e H E. assert (Q : (2 - 2 * B) * f_eps A B ^ 2 - (1 + 5 * B + A) * f_eps A B - (1 + 2 * B) = 0).
  { rewrite eps_form by lra. assert (D := disc_pos A B H). assert (S0 := sqrt_sqrt (f_disc A B) (Rlt_le _ _ D)). set (s := sqrt _) in *.
    replace ((2 - 2 * B) * ((1 + A + 5 * B + s) / (4 * (1 - B))) ^ 2 - (1 + 5 * B + A) * ((1 + A + 5 * B + s) / (4 * (1 - B))) - (1 + 2 * B)) with ((s * s - ((1 + A + 5 * B) ^ 2 + 8 * (1 - B) * (1 + 2 * B))) / (8 * (1 - B))) by (field; lra).
    rewrite S0, disc_eq. unfold Rdiv. ring. }
  assert (P := eps_pos A B H). split; intro K.
  - assert (K' : (2 - 2 * B) * e ^ 2 - (1 + 5 * B + A) * e - (1 + 2 * B) = 0) by (replace ((2 - 2 * B) * e ^ 2 - (1 + 5 * B + A) * e - (1 + 2 * B)) with ((e - 1) * (2 * e + 1) - (B * (e + 2) * (2 * e + 1) + A * e)) by ring; lra).
    set (x := f_eps A B) in *. assert (F : (e - x) * ((2 - 2 * B) * e * x + (1 + 2 * B)) = 0).
    { replace ((e - x) * ((2 - 2 * B) * e * x + (1 + 2 * B))) with (x * ((2 - 2 * B) * e ^ 2 - (1 + 5 * B + A) * e - (1 + 2 * B)) - e * ((2 - 2 * B) * x ^ 2 - (1 + 5 * B + A) * x - (1 + 2 * B))) by ring. rewrite K', Q. ring. }
    apply Rmult_integral in F. destruct F as [F|F]; [lra|]. assert (0 < (2 - 2 * B) * e * x) by (apply Rmult_lt_0_compat; [apply Rmult_lt_0_compat; lra|exact P]). lra.
  - subst. set (x := f_eps A B) in *. replace ((x - 1) * (2 * x + 1)) with (((2 - 2 * B) * x ^ 2 - (1 + 5 * B + A) * x - (1 + 2 * B)) + (B * (x + 2) * (2 * x + 1) + A * x)) by ring. rewrite Q. ring.
Qed.
(** the quadratic at a positive number tells on which side of the root it lies *)
Lemma eps_side : forall A B y, 0 <= B < 1 -> 0 < y -> (y < f_eps A B <-> (y - 1) * (2 * y + 1) < B * (y + 2) * (2 * y + 1) + A * y).
Proof.
  intros A B y H Y. assert (P := eps_pos A B H). assert (Q := proj2 (eps_eqn A B _ H P) eq_refl). set (x := f_eps A B) in *.
  assert (F : x * ((y - 1) * (2 * y + 1) - (B * (y + 2) * (2 * y + 1) + A * y)) = (y - x) * ((2 - 2 * B) * y * x + (1 + 2 * B))).
  { replace (x * ((y - 1) * (2 * y + 1) - (B * (y + 2) * (2 * y + 1) + A * y))) with ((y - x) * ((2 - 2 * B) * y * x + (1 + 2 * B)) + y * ((x - 1) * (2 * x + 1) - (B * (x + 2) * (2 * x + 1) + A * x))) by ring. rewrite Q. ring. }
  assert (G : 0 < (2 - 2 * B) * y * x + (1 + 2 * B)) by (assert (0 < (2 - 2 * B) * y * x) by (apply Rmult_lt_0_compat; [apply Rmult_lt_0_compat; lra|exact P]); lra).
  set (d := (y - 1) * (2 * y + 1) - _) in F. split; intro K; [assert (d < 0) by nra; unfold d in *; lra|]. assert (d < 0) by (unfold d; lra). nra.
Qed.
Lemma eps_ge1 : forall A B, 0 <= B < 1 -> (1 < f_eps A B <-> 0 < A + 9 * B).
Proof. intros A B H. rewrite eps_side by lra. lra. Qed.
Lemma eps_mono : forall A A' B, 0 <= B < 1 -> A < A' -> f_eps A B < f_eps A' B.
Proof.
  intros A A' B H L. assert (P := eps_pos A B H). apply eps_side; [exact H|exact P|]. assert (Q := proj2 (eps_eqn A B _ H P) eq_refl). assert (A * f_eps A B < A' * f_eps A B) by (apply Rmult_lt_compat_r; assumption). lra.
Qed.
Lemma c_Na : 0 < f_Na. Proof. unfold f_Na. apply Rmult_lt_0_compat; [lra|apply pow_lt; lra]. Qed.
Lemma c_k : 0 < f_k. Proof. unfold f_k. apply Rdiv_lt_0_compat; [lra|apply pow_lt; lra]. Qed.
Lemma c_alfa : 0 < f_alfa. Proof. unfold f_alfa. apply Rdiv_lt_0_compat; [lra|apply pow_lt; lra]. Qed.
Lemma c_eps0 : 0 < f_eps0. Proof. unfold f_eps0. apply Rdiv_lt_0_compat; [lra|apply pow_lt; lra]. Qed.
Lemma c_mu : 0 < f_mu. Proof. unfold f_mu. apply Rdiv_lt_0_compat; [lra|apply pow_lt; lra]. Qed.
Lemma c_M : 0 < f_M. Proof. unfold f_M. lra. Qed.
Lemma c_Tc : 0 < f_Tc. Proof. unfold f_Tc. lra. Qed.
Ltac cpos := assert (N1 := c_Na); assert (N2 := c_k); assert (N3 := c_alfa); assert (N4 := c_eps0); assert (N5 := c_mu); assert (N6 := c_M); assert (N7 := c_Tc);
  revert N1 N2 N3 N4 N5 N6 N7; generalize f_Na f_k f_alfa f_eps0 f_mu f_M f_Tc; intros cNa ck calfa ceps0 cmu cM cTc N1 N2 N3 N4 N5 N6 N7.
(** the polarisability term: B < 1 below some 4857 kg/m3 *)
Definition f_limit : R := 3 * f_M * f_eps0 / (f_Na * f_alfa).
Lemma B_lt : forall rho, 0 <= rho -> (f_B rho < 1 <-> rho < f_limit).
Proof.
  intros rho H. unfold f_B, f_limit. cpos. assert (P : 0 < cNa * calfa) by now apply Rmult_lt_0_compat. assert (Q : 0 < cM * ceps0) by now apply Rmult_lt_0_compat.
  replace (cNa * calfa * rho / 3 / cM / ceps0) with (rho / (3 * cM * ceps0 / (cNa * calfa))) by (field; repeat split; lra).
  assert (L : 0 < 3 * cM * ceps0 / (cNa * calfa)) by (apply Rdiv_lt_0_compat; [rewrite Rmult_assoc; lra|lra]). set (l := 3 * cM * ceps0 / (cNa * calfa)) in *.
  split; intro K; [apply Rmult_lt_reg_r with (/ l); [now apply Rinv_0_lt_compat|]; rewrite Rinv_r by lra; exact K|]. apply Rmult_lt_reg_r with l; [exact L|]. unfold Rdiv. rewrite Rmult_assoc, Rinv_l by lra. lra.
Qed.
Lemma B_ge : forall rho, 0 <= rho -> 0 <= f_B rho.
Proof. intros rho H. unfold f_B. cpos. apply Rmult_le_pos; [|left; now apply Rinv_0_lt_compat]. apply Rmult_le_pos; [|left; now apply Rinv_0_lt_compat]. apply Rmult_le_pos; [|lra]. apply Rmult_le_pos; [|exact H]. left. now apply Rmult_lt_0_compat. Qed.
Lemma f_limit_bounds : 4857 < f_limit < 4858.
Proof.
  unfold f_limit, f_M, f_eps0, f_Na, f_alfa.
  replace (3 * 0.018015268 * (8.854187817 / 10 ^ 12) / (6.0221367 * 10 ^ 23 * (1.636 / 10 ^ 40))) with (3 * 0.018015268 * 8.854187817 * 100000 / (6.0221367 * 1.636)).
  - split; lra.
  - replace (10 ^ 23) with (10 ^ 12 * 10 ^ 11) by (rewrite <- pow_add; f_equal). replace (10 ^ 40) with (10 ^ 12 * 10 ^ 11 * 10 ^ 12 * 100000) by (rewrite <- !pow_add; replace 100000 with (10 ^ 5) by lra; rewrite <- pow_add; f_equal).
    assert (U : 0 < 10 ^ 12) by (apply pow_lt; lra). assert (W : 0 < 10 ^ 11) by (apply pow_lt; lra). revert U W. generalize (10 ^ 12) (10 ^ 11). intros u w U W. field. lra.
Qed.
Lemma base_pos : forall T, T <> 0 -> (0 < f_base T <-> 228 < T).
Proof. intros T H. unfold f_base. assert (P := c_Tc). replace (f_Tc / 228 / (f_Tc / T)) with (T / 228) by (field; lra). lra. Qed.
Theorem epsilonF_some : forall T rho, 228 < T -> 0 <= rho < f_limit -> epsilonF T rho = Some (f_eps (f_A T rho) (f_B rho)).
Proof.
  intros T rho HT [H0 H1]. unfold epsilonF. destruct (Req_EM_T T 0); [lra|]. destruct (Rle_dec (f_base T) 0) as [K|K]; [assert (0 < f_base T) by (apply base_pos; lra); lra|].
  assert (B1 := proj2 (B_lt rho H0) H1). assert (B0 := B_ge rho H0). destruct (Req_EM_T (f_B rho) 1); [lra|].
  assert (D := disc_pos (f_A T rho) (f_B rho) (conj B0 B1)). unfold f_disc in D. destruct (Rlt_dec _ 0) as [L|L]; [lra|reflexivity].
Qed.
Theorem epsilonF_cold : forall T rho, T <= 228 -> epsilonF T rho = None.
Proof. intros T rho H. unfold epsilonF. destruct (Req_EM_T T 0); [reflexivity|]. destruct (Rle_dec (f_base T) 0) as [K|K]; [reflexivity|]. exfalso. assert (228 < T) by (apply base_pos; lra). lra. Qed.
(** beyond the limit the number is negative whenever the radicand allows one with A >= 0 *)
Theorem epsilonF_dense : forall A B, 1 < B -> 0 <= A -> f_eps A B < 0.
Proof.
  intros A B H K. unfold f_eps. assert (S1 := sqrt_pos (9 + 2 * A + 18 * B + A ^ 2 + 10 * A * B + 9 * B ^ 2)). set (s := sqrt _) in *.
  assert (0 < (1 + A + 5 * B + s) / 4) by lra. unfold Rdiv at 1. assert (/ (1 - B) < 0) by (apply Rinv_lt_0_compat; lra). nra.
Qed.
(** *** low density: the slope is that of a gas of polarisable dipoles (Debye) *)
Definition debye (T : R) : R := f_Na / (f_M * f_eps0) * (f_alfa + f_mu ^ 2 / (3 * f_k * T)).
Lemma g_0 : forall T, f_g T 0 = 1.
Proof.
  intro T. unfold f_g. replace (1 + f_n11 * (0 / f_rhoc) / Rpower (f_base T) 1.2) with 1 by (unfold Rdiv; ring).
  assert (F0 : List.Forall (fun t => fst (fst t) <> O) fTerms) by (repeat (constructor; [discriminate|]); constructor).
  revert F0. generalize fTerms as l. induction l as [|t l IH]; intro F; [reflexivity|]. inversion F; subst. cbn [fold_left].
  replace (1 + snd t * (0 / f_rhoc) ^ fst (fst t) * Rpower (f_Tc / T) (snd (fst t))) with 1; [now apply IH|]. replace (0 / f_rhoc) with 0 by (unfold Rdiv; ring). rewrite pow_ne_zero by assumption. ring.
Qed.
Lemma g_d : forall T rho, exists g', is_derive (fun x : R => f_g T x) rho g'.
Proof.
  intros T rho. unfold f_g. generalize fTerms as l. intro l.
  assert (G : forall h : R -> R, (exists h', is_derive h rho h') -> exists g', is_derive (fun x : R => fold_left (fun g t => g + snd t * (x / f_rhoc) ^ fst (fst t) * Rpower (f_Tc / T) (snd (fst t))) l (h x)) rho g').
  { induction l as [|t l IH]; intros h Hh; [exact Hh|]. cbn [fold_left]. apply (IH (fun x : R => h x + snd t * (x / f_rhoc) ^ fst (fst t) * Rpower (f_Tc / T) (snd (fst t)))). destruct Hh as [h' Hh].
    eexists. apply (d_plus h (fun x : R => snd t * (x / f_rhoc) ^ fst (fst t) * Rpower (f_Tc / T) (snd (fst t)))); [exact Hh|].
    apply (d_scal_r (fun x : R => snd t * (x / f_rhoc) ^ fst (fst t))). apply (d_scal (fun x : R => (x / f_rhoc) ^ fst (fst t))). apply (d_pow (fun x : R => x / f_rhoc)). apply (d_scal_r (fun x : R => x)). apply d_id. }
  apply (G (fun x : R => 1 + f_n11 * (x / f_rhoc) / Rpower (f_base T) 1.2)). eexists. apply (d_plus (fun _ : R => 1) (fun x : R => f_n11 * (x / f_rhoc) / Rpower (f_base T) 1.2)); [apply d_const|].
  apply (d_scal_r (fun x : R => f_n11 * (x / f_rhoc))). apply (d_scal (fun x : R => x / f_rhoc)). apply (d_scal_r (fun x : R => x)). apply d_id.
Qed.
Lemma eps_d : forall (A B : R -> R) (x a b : R), is_derive A x a -> is_derive B x b -> A x = 0 -> B x = 0 -> is_derive (fun t : R => f_eps (A t) (B t)) x ((a + 9 * b) / 3).
Proof.
  intros A B x a b HA HB A0 B0. unfold f_eps. assert (S3 : sqrt 9 = 3) by (replace 9 with (3 * 3) by ring; apply sqrt_square; lra).
  set (d := fun t : R => 9 + 2 * A t + 18 * B t + A t ^ 2 + 10 * A t * B t + 9 * B t ^ 2).
  assert (D0 : d x = 9) by (unfold d; rewrite A0, B0; ring).
  assert (Dd : is_derive d x (2 * a + 18 * b)).
  { unfold d. eapply d_eq; [apply (d_plus (fun t : R => 9 + 2 * A t + 18 * B t + A t ^ 2 + 10 * A t * B t) (fun t : R => 9 * B t ^ 2));
      [apply (d_plus (fun t : R => 9 + 2 * A t + 18 * B t + A t ^ 2) (fun t : R => 10 * A t * B t));
        [apply (d_plus (fun t : R => 9 + 2 * A t + 18 * B t) (fun t : R => A t ^ 2));
          [apply (d_plus (fun t : R => 9 + 2 * A t) (fun t : R => 18 * B t)); [apply (d_plus (fun _ : R => 9) (fun t : R => 2 * A t)); [apply d_const|apply (d_scal A); exact HA]|apply (d_scal B); exact HB]
          |apply (d_pow A); exact HA]
        |apply (d_mult (fun t : R => 10 * A t) B); [apply (d_scal A); exact HA|exact HB]]
      |apply (d_scal (fun t : R => B t ^ 2)); apply (d_pow B); exact HB]|]. rewrite A0, B0. cbn [pred INR]. ring. }
  eapply d_eq; [apply (d_div (fun t : R => (1 + A t + 5 * B t + sqrt (d t)) / 4) (fun t : R => 1 - B t));
    [apply (d_scal_r (fun t : R => 1 + A t + 5 * B t + sqrt (d t))); apply (d_plus (fun t : R => 1 + A t + 5 * B t) (fun t : R => sqrt (d t)));
      [apply (d_plus (fun t : R => 1 + A t) (fun t : R => 5 * B t)); [apply (d_plus (fun _ : R => 1) A); [apply d_const|exact HA]|apply (d_scal B); exact HB]
      |apply (d_sqrt d); [exact Dd|rewrite D0; lra]]
    |apply (d_minus (fun _ : R => 1) B); [apply d_const|exact HB]
    |rewrite B0; lra]|].
  cbv beta. rewrite A0, B0, D0, S3. field.
Qed.
Theorem eps_debye : forall T, T <> 0 -> is_derive (fun rho : R => f_eps (f_A T rho) (f_B rho)) 0 (debye T).
Proof.
  intros T HT. destruct (g_d T 0) as [g' Hg]. assert (G0 := g_0 T).
  eapply d_eq; [apply (eps_d (fun rho : R => f_A T rho) f_B 0);
    [unfold f_A; apply (d_scal_r (fun rho : R => f_Na * f_mu ^ 2 * rho * f_g T rho / f_M / f_eps0 / f_k)); apply (d_scal_r (fun rho : R => f_Na * f_mu ^ 2 * rho * f_g T rho / f_M / f_eps0));
     apply (d_scal_r (fun rho : R => f_Na * f_mu ^ 2 * rho * f_g T rho / f_M)); apply (d_scal_r (fun rho : R => f_Na * f_mu ^ 2 * rho * f_g T rho)); apply (d_mult (fun rho : R => f_Na * f_mu ^ 2 * rho) (fun rho : R => f_g T rho));
     [apply (d_scal (fun rho : R => rho)); apply d_id|exact Hg]
    |unfold f_B; apply (d_scal_r (fun rho : R => f_Na * f_alfa * rho / 3 / f_M)); apply (d_scal_r (fun rho : R => f_Na * f_alfa * rho / 3)); apply (d_scal_r (fun rho : R => f_Na * f_alfa * rho)); apply (d_scal (fun rho : R => rho)); apply d_id
    |unfold f_A, Rdiv; ring
    |unfold f_B, Rdiv; ring]|].
  cbv beta. rewrite G0. unfold debye. cpos. field. repeat split; lra.
Qed.
Lemma eps_zero : forall T, f_eps (f_A T 0) (f_B 0) = 1.
Proof.
  intro T. replace (f_A T 0) with 0 by (unfold f_A, Rdiv; ring). replace (f_B 0) with 0 by (unfold f_B, Rdiv; ring). unfold f_eps.
  replace (9 + 2 * 0 + 18 * 0 + 0 ^ 2 + 10 * 0 * 0 + 9 * 0 ^ 2) with (3 * 3) by ring. rewrite sqrt_square by lra. lra.
Qed.
(** at the critical point the correlation factor is between 1 and 2 *)
Lemma g_crit : 1 < f_g f_Tc f_rhoc < 2.
Proof.
  unfold f_g. replace (f_Tc / f_Tc) with 1 by (field; apply Rgt_not_eq, c_Tc). replace (f_rhoc / f_rhoc) with 1 by (field; unfold f_rhoc; lra).
  assert (P1 : forall y, Rpower 1 y = 1) by (intro y; unfold Rpower; rewrite ln_1, Rmult_0_r; apply exp_0).
  assert (Hb : 1 < f_base f_Tc). { unfold f_base. replace (f_Tc / f_Tc) with 1 by (field; apply Rgt_not_eq, c_Tc). unfold f_Tc. lra. }
  assert (Hp : 1 < Rpower (f_base f_Tc) 1.2) by (rewrite <- (Rpower_O (f_base f_Tc)) by lra; apply Rpower_lt; lra).
  set (p := Rpower (f_base f_Tc) 1.2) in *. assert (I1 : / p < 1) by (rewrite <- Rinv_1; apply Rinv_lt_contravar; lra). assert (I0 : 0 < / p) by (apply Rinv_0_lt_compat; lra).
  unfold fTerms. cbn [fold_left fst snd]. rewrite !P1, !pow1. unfold f_n11, Rdiv. set (q := / p) in *. split; lra.
Qed.
Theorem fern_equation : forall T rho, 228 < T -> 0 <= rho < 3 * f_M * f_eps0 / (f_Na * f_alfa) -> exists e, epsilonF T rho = Some e /\ 0 < e /\
  forall y, 0 < y -> ((y - 1) * (2 * y + 1) = f_Na * f_alfa * rho / 3 / f_M / f_eps0 * (y + 2) * (2 * y + 1) + f_Na * f_mu ^ 2 * rho * f_g T rho / f_M / f_eps0 / f_k / T * y <-> y = e).
Proof.
  intros T rho HT H. exists (f_eps (f_A T rho) (f_B rho)). split; [now apply epsilonF_some|]. destruct H as [H0 H1]. assert (B1 := proj2 (B_lt rho H0) H1). assert (B0 := B_ge rho H0).
  split; [now apply eps_pos|]. intros y Hy. exact (eps_eqn (f_A T rho) (f_B rho) y (conj B0 B1) Hy).
Qed.
Theorem fern_above : forall T rho e, 228 < T -> 0 < rho < 3 * f_M * f_eps0 / (f_Na * f_alfa) -> 0 <= f_g T rho -> epsilonF T rho = Some e -> 1 < e.
Proof.
  intros T rho e HT [H0 H1] G E. rewrite epsilonF_some in E; [|exact HT|split; [lra|exact H1]]. injection E as <-. assert (B1 := proj2 (B_lt rho (Rlt_le _ _ H0)) H1).
  assert (B0 : 0 < f_B rho). { unfold f_B. cpos. repeat apply Rdiv_lt_0_compat; try lra. apply Rmult_lt_0_compat; [now apply Rmult_lt_0_compat|exact H0]. }
  apply eps_ge1; [lra|]. assert (0 <= f_A T rho); [|lra]. unfold f_A. cpos. repeat (apply Rmult_le_pos; [|left; apply Rinv_0_lt_compat; lra]). apply Rmult_le_pos; [|exact G]. apply Rmult_le_pos; [|lra]. apply Rmult_le_pos; [lra|]. apply pow2_ge_0.
Qed.
Lemma A_d0 : forall T, T <> 0 -> exists a, is_derive (fun rho : R => f_A T rho) 0 a.
Proof.
  intros T HT. destruct (g_d T 0) as [g' Hg]. eexists. unfold f_A. apply (d_scal_r (fun rho : R => f_Na * f_mu ^ 2 * rho * f_g T rho / f_M / f_eps0 / f_k)); apply (d_scal_r (fun rho : R => f_Na * f_mu ^ 2 * rho * f_g T rho / f_M / f_eps0));
     apply (d_scal_r (fun rho : R => f_Na * f_mu ^ 2 * rho * f_g T rho / f_M)); apply (d_scal_r (fun rho : R => f_Na * f_mu ^ 2 * rho * f_g T rho)); apply (d_mult (fun rho : R => f_Na * f_mu ^ 2 * rho) (fun rho : R => f_g T rho));
     [apply (d_scal (fun rho : R => rho)); apply d_id|exact Hg].
Qed.
Theorem fern_low : forall T, 228 < T -> epsilonF T 0 = Some 1 /\
  is_derive (fun rho : R => match epsilonF T rho with Some e => e | None => 0 end) 0 (f_Na / (f_M * f_eps0) * (f_alfa + f_mu ^ 2 / (3 * f_k * T))).
Proof.
  intros T HT. assert (L : 0 < f_limit) by (destruct f_limit_bounds; lra). split; [rewrite epsilonF_some by lra; f_equal; apply eps_zero|].
  apply (is_derive_ext_loc (fun rho : R => f_eps (f_A T rho) (f_B rho))); [|apply eps_debye; lra].
  assert (BC : locally 0 (fun rho : R => Rabs (f_B rho) < / 2)).
  { unfold f_B. cpos. set (q := cNa * calfa / 3 / cM / ceps0). assert (Q : 0 < q) by (unfold q; repeat apply Rdiv_lt_0_compat; try lra; now apply Rmult_lt_0_compat).
    exists (mkposreal (/ 2 / q) ltac:(apply Rdiv_lt_0_compat; lra)). intros y Hy. unfold ball in Hy; cbn in Hy. unfold AbsRing_ball, abs, minus, plus, opp in Hy; cbn in Hy. rewrite Ropp_0, Rplus_0_r in Hy.
    replace (cNa * calfa * y / 3 / cM / ceps0) with (q * y) by (unfold q; field; lra). rewrite Rabs_mult, (Rabs_pos_eq q) by lra. apply Rmult_lt_reg_l with (/ q); [now apply Rinv_0_lt_compat|]. rewrite <- Rmult_assoc, Rinv_l by lra. unfold Rdiv in Hy. lra. }
  destruct (A_d0 T ltac:(lra)) as [a Ha]. assert (AC : continuous (fun rho : R => f_A T rho) 0) by (apply (ex_derive_continuous (fun rho : R => f_A T rho)); now exists a).
  assert (A0 : f_A T 0 = 0) by (unfold f_A, Rdiv; ring).
  assert (AL : locally 0 (fun rho : R => Rabs (f_A T rho) < / 10)).
  { apply (AC (fun y : R => Rabs y < / 10)). rewrite A0. exists (mkposreal (/ 10) ltac:(lra)). intros y Hy. unfold ball in Hy; cbn in Hy. unfold AbsRing_ball, abs, minus, plus, opp in Hy; cbn in Hy. now rewrite Ropp_0, Rplus_0_r in Hy. }
  generalize (filter_and _ _ BC AL). apply filter_imp. intros rho [HB HA]. unfold epsilonF. destruct (Req_EM_T T 0); [lra|]. destruct (Rle_dec (f_base T) 0) as [K|K]; [assert (0 < f_base T) by (apply base_pos; lra); lra|].
  apply Rabs_def2 in HB, HA. destruct (Req_EM_T (f_B rho) 1); [lra|]. destruct (Rlt_dec _ 0) as [N|N]; [|reflexivity]. exfalso. revert N HB HA. generalize (f_A T rho) (f_B rho). intros A B N HB HA.
  assert (P := disc_eq A B). unfold f_disc in P. rewrite P in N. assert (0 <= (1 + A + 5 * B) ^ 2) by apply pow2_ge_0. assert (0 <= (1 - B) * (1 + 2 * B)) by (apply Rmult_le_pos; lra). lra.
Qed.
