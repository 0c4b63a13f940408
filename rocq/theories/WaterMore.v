(** Lemmas on molar water properties, Johnson-Norton, Woolley. *)
From Coq Require Import List Bool Reals Lra Lia.
From Coquelicot Require Import Coquelicot.
From Verif Require Import RDeriv RDiff2 WaterModel WaterSpec WaterProofs.
Import ListNotations.
Open Scope R_scope.

(** *** molar properties *)
Lemma molar_d : forall H rho T P Ttr wtr, rho T P <> 0 -> T <> 0 -> helm1 H T (rho T P) -> helm2 H T (rho T P) -> w_pD (along H rho T P) <> 0 -> density_of H rho T P ->
  let m := fun t p => molar Ttr t (along H rho t p) wtr in
  diff2 (fun t p => q_G (m t p)) T P (- q_S (m T P)) (q_V (m T P) / 100000) /\
  is_derive (fun t : R => q_H (m t P)) T (q_Cp (m T P)) /\ is_derive (fun t : R => q_S (m t P)) T (q_Cp (m T P) / T).
Proof.
  intros H rho T P Ttr wtr D0 T0 h1 h2 n dn m. destruct (energy_d H rho T P D0 T0 h1 h2 n dn) as (eG & _ & eS & eH). fold (along H rho) in eG, eS, eH.
  repeat match goal with |- _ /\ _ => split end.
  - apply (e_ext (fun t p => molarMass * (w_G (along H rho t p)) + (- t * t_S wtr + Ttr * t_S wtr + t_G wtr))).
    + intros u v. unfold m, molar, along, waterThermoState. cbn. ring.
    + eapply e_eq; [er|..]; cbv beta; unfold m, molar; cbn [q_S q_V]; [ring|field].
  - apply e_1 in eH. cbv beta in eH. unfold m, molar. cbn [q_H q_Cp]. eapply d_eq; [apply (d_plus (fun t : R => molarMass * w_H (along H rho t P)) (fun _ : R => t_H wtr)); [apply (d_scal (fun t : R => w_H (along H rho t P))); exact eH|apply d_const]|]. ring.
  - apply e_1 in eS. cbv beta in eS. unfold m, molar. cbn [q_S q_Cp]. eapply d_eq; [apply (d_plus (fun t : R => molarMass * w_S (along H rho t P)) (fun _ : R => t_S wtr)); [apply (d_scal (fun t : R => w_S (along H rho t P))); exact eS|apply d_const]|]. field. exact T0.
Qed.
Lemma molar_gap : forall Ttr T P D wh wtr, let m := molar Ttr T (waterThermoState T P D wh) wtr in
  q_G m - (q_H m - T * q_S m) = Ttr * t_S wtr + t_G wtr - t_H wtr /\ (D <> 0 -> q_U m - (q_H m - P * (q_V m / 100000)) = t_U wtr - t_H wtr) /\
  q_A m - (q_U m - T * q_S m) = Ttr * t_S wtr + t_A wtr - t_U wtr.
Proof. intros. cbn. repeat match goal with |- _ /\ _ => split end; [ring|intros n; field; exact n|ring]. Qed.

(** *** Johnson and Norton *)
Lemma jn_Tr0 : jn_Tr <> 0. Proof. unfold jn_Tr. lra. Qed.
Lemma jn_k_d : forall i t, t <> 0 -> is_derive (fun x : R => jn_k i x) t (jn_kt i t).
Proof.
  intros i t Ht. destruct i as [|[|[|[|i]]]]; cbn [jn_k jn_kt].
  - apply d_const.
  - eapply d_eq; [apply (d_div (fun _ => jn_a1) (fun x => x)); [apply d_const|apply d_id|exact Ht]|]. cbv beta. field. exact Ht.
  - eapply d_eq; [apply (d_plus (fun x => jn_a2 / x + jn_a3) (fun x => jn_a4 * x)); [apply (d_plus (fun x => jn_a2 / x) (fun _ => jn_a3)); [apply (d_div (fun _ => jn_a2) (fun x => x)); [apply d_const|apply d_id|exact Ht]|apply d_const]|apply (d_scal (fun x => x)); apply d_id]|]. cbv beta. field. exact Ht.
  - eapply d_eq; [apply (d_plus (fun x => jn_a5 / x + jn_a6 * x) (fun x => jn_a7 * x * x)); [apply (d_plus (fun x => jn_a5 / x) (fun x => jn_a6 * x)); [apply (d_div (fun _ => jn_a5) (fun x => x)); [apply d_const|apply d_id|exact Ht]|apply (d_scal (fun x => x)); apply d_id]|apply (d_mult (fun x => jn_a7 * x) (fun x => x)); [apply (d_scal (fun x => x)); apply d_id|apply d_id]]|]. cbv beta. field. exact Ht.
  - eapply d_eq; [apply (d_plus (fun x => jn_a8 / x / x + jn_a9 / x) (fun _ => jn_a10)); [apply (d_plus (fun x => jn_a8 / x / x) (fun x => jn_a9 / x)); [apply (d_div (fun x => jn_a8 / x) (fun x => x)); [apply (d_div (fun _ => jn_a8) (fun x => x)); [apply d_const|apply d_id|exact Ht]|apply d_id|exact Ht]|apply (d_div (fun _ => jn_a9) (fun x => x)); [apply d_const|apply d_id|exact Ht]]|apply d_const]|]. cbv beta. field. exact Ht.
Qed.
Lemma jn_kt_d : forall i t, t <> 0 -> is_derive (fun x : R => jn_kt i x) t (jn_ktt i t).
Proof.
  intros i t Ht. apply is_derive_Reals. destruct i as [|[|[|[|i]]]]; cbn [jn_kt jn_ktt]; apply is_derive_Reals; auto_derive; auto using Rmult_integral_contrapositive_currified; try (field; exact Ht).
Qed.

(** one term of the sums, for any coefficient function k and exponent n *)
Section Term.
Variables (w : R -> R -> wstate) (T P dTT : R).
Hypothesis D0 : w_d (w T P) <> 0.
Hypothesis F1 : dens_first w T P.
Hypothesis F2 : diff2 (fun t p => w_dT (w t p)) T P dTT (w_dTP (w T P)).
Hypothesis F3 : diff2 (fun t p => w_dP (w t p)) T P (w_dTP (w T P)) (w_dPP (w T P)).
Let al t p := - w_dT (w t p) / w_d (w t p).
Let be t p := w_dP (w t p) / w_d (w t p).
Let alT := - dTT / w_d (w T P) + al T P * al T P.
Let beT := w_dTP (w T P) / w_d (w T P) + al T P * be T P.
Let beP := w_dPP (w T P) / w_d (w T P) - be T P * be T P.
Lemma al_d : diff2 al T P alT (- beT).
Proof. unfold al. unfold dens_first in F1. eapply e_eq; [er; exact D0|..]; cbv beta; unfold alT, beT, al, be; field; exact D0. Qed.
Lemma be_d : diff2 be T P beT beP.
Proof. unfold be. unfold dens_first in F1. eapply e_eq; [er; exact D0|..]; cbv beta; unfold beP, beT, al, be; field; exact D0. Qed.
Lemma rn_d : forall n, diff2 (fun t p => (w_d (w t p) / jn_Dr) ^ n) T P (- INR n * al T P * (w_d (w T P) / jn_Dr) ^ n) (INR n * be T P * (w_d (w T P) / jn_Dr) ^ n).
Proof.
  intros n. assert (J : jn_Dr <> 0) by (unfold jn_Dr; lra). unfold dens_first in F1. eapply e_eq; [er; exact J|..]; cbv beta; unfold al, be; destruct n; cbn [pred].
  - cbn. field. auto. - cbn [pow]. generalize ((w_d (w T P) / jn_Dr) ^ n) (INR (S n)). intros a b. field. auto.
  - cbn. field. auto. - cbn [pow]. generalize ((w_d (w T P) / jn_Dr) ^ n) (INR (S n)). intros a b. field. auto.
Qed.
Variables (k k' : R -> R) (kt ktt : R) (n : nat).
Hypothesis K1 : is_derive k T (k' T).
Hypothesis K2 : is_derive k' T ktt.
Let rn t p := (w_d (w t p) / jn_Dr) ^ n.
Lemma term0 : diff2 (fun t p => k t * rn t p) T P (rn T P * (k' T - INR n * al T P * k T)) (rn T P * k T * INR n * be T P).
Proof. assert (a := rn_d n). assert (b := e_fst1 k T P _ K1). fold rn in a. eapply e_eq; [er; exact a|..]; cbv beta; fold (rn T P); ring. Qed.
Lemma termT : k T <> 0 -> be T P <> 0 -> diff2 (fun t p => rn t p * (k' t - INR n * al t p * k t)) T P
   (rn T P * (ktt - INR n * (al T P * k' T + k T * alT) - INR n * al T P * (k' T - INR n * al T P * k T)))
   (rn T P * k T * INR n * be T P * (k' T / k T - INR n * al T P + beT / be T P)).
Proof.
  intros N1 N2. assert (a := rn_d n). assert (b := e_fst1 k T P _ K1). assert (c := e_fst1 k' T P _ K2). assert (d := al_d). fold rn in a.
  eapply e_eq; [apply (e_mult rn (fun t p => k' t - INR n * al t p * k t)); [exact a|apply (e_minus (fun t _ => k' t) (fun t p => INR n * al t p * k t)); [exact c|apply (e_mult (fun t p => INR n * al t p) (fun t _ => k t)); [apply (e_mult (fun _ _ => INR n) al); [apply e_const|exact d]|exact b]]]|..]; cbv beta; fold (rn T P); [ring|field; auto].
Qed.
Lemma termP : k T <> 0 -> be T P <> 0 -> diff2 (fun t p => rn t p * k t * INR n * be t p) T P
   (rn T P * k T * INR n * be T P * (k' T / k T - INR n * al T P + beT / be T P))
   (rn T P * k T * INR n * be T P * (INR n * be T P + beP / be T P)).
Proof.
  intros N1 N2. assert (a := rn_d n). assert (b := e_fst1 k T P _ K1). assert (d := be_d). fold rn in a.
  eapply e_eq; [apply (e_mult (fun t p => rn t p * k t * INR n) be); [apply (e_mult (fun t p => rn t p * k t) (fun _ _ => INR n)); [apply (e_mult rn (fun t _ => k t)); [exact a|exact b]|apply e_const]|exact d]|..]; cbv beta; fold (rn T P); field; auto.
Qed.
End Term.

Lemma sum5_d : forall (f : nat -> R -> R -> R) (a b : nat -> R) T P, (forall i, (i < 5)%nat -> diff2 (f i) T P (a i) (b i)) -> diff2 (fun t p => sum5 (fun i => f i t p)) T P (sum5 a) (sum5 b).
Proof.
  intros f a b T P H. unfold sum5.
  repeat match goal with |- diff2 (fun t p => @?x t p + @?y t p) _ _ _ _ => apply (e_plus x y) end; try (apply H; lia). apply e_const.
Qed.

Lemma born_Z : forall (f : R -> R -> R) T P a b, diff2 f T P a b -> f T P <> 0 -> diff2 (fun t p => -1 / f t p) T P (a / (f T P * f T P)) (b / (f T P * f T P)).
Proof. intros f T P a b H N. eapply e_eq; [apply (e_div (fun _ _ => -1) f); [apply e_const|exact H|exact N]|..]; cbv beta; field; exact N. Qed.
(** of g / f^2, where f has the derivatives a, b and g the derivatives c, d *)
Lemma born_Y : forall (f g : R -> R -> R) T P a b c d, diff2 f T P a b -> diff2 g T P c d -> f T P <> 0 ->
  diff2 (fun t p => g t p / (f t p * f t p)) T P (c / (f T P * f T P) - 2 * (a / (f T P * f T P)) * (g T P / (f T P * f T P)) * f T P)
    (d / (f T P * f T P) - 2 * (b / (f T P * f T P)) * (g T P / (f T P * f T P)) * f T P).
Proof.
  intros f g T P a b c d H G N. eapply e_eq; [apply (e_div g (fun t p => f t p * f t p)); [exact G|apply (e_mult f f _ _ _ _ _ _ H H)|now apply Rmult_integral_contrapositive_currified]|..]; cbv beta; field; exact N.
Qed.

Lemma jn_some : forall T w e, jn T w = Some e -> exists dTT, w_dTT w = Some dTT /\ w_dP w <> 0 /\ (forall i, (i < 5)%nat -> jn_k i (T / jn_Tr) <> 0) /\
  e = jn_raw T (w_d w) (w_dT w) (w_dP w) dTT (w_dTP w) (w_dPP w).
Proof.
  intros T w e. unfold jn. destruct (w_dTT w) as [dTT|]; [|discriminate]. cbn [existsb]. unfold isz.
  destruct (Req_EM_T (w_dP w) 0) as [|n]; [discriminate|]. cbn [orb].
  repeat match goal with |- context [Req_EM_T ?a 0] => destruct (Req_EM_T a 0) end; cbn; try discriminate. intros [= <-].
  exists dTT. repeat split; auto. intros i Hi. destruct i as [|[|[|[|[|i]]]]]; try assumption; lia.
Qed.

Lemma jn_d : forall w e T P, T <> 0 -> w_d (w T P) <> 0 -> e_ (e T P) <> 0 -> dens_first w T P -> dens_second w T P ->
  locally_2d (fun t p => jn t (w t p) = Some (e t p)) T P -> born_first e T P /\ born_second e T P.
Proof.
  intros w e T P T0 D0 E0 F1 (dTT & Q & F2 & F3) L.
  assert (X := locally_2d_singleton _ _ _ L). apply jn_some in X. destruct X as (dTT' & Q' & B0 & K & E). rewrite Q in Q'. injection Q' as <-.
  assert (L2 : locally_2d (fun t p => exists y, e t p = jn_raw t (w_d (w t p)) (w_dT (w t p)) (w_dP (w t p)) y (w_dTP (w t p)) (w_dPP (w t p))) T P).
  { destruct L as [d Hd]. exists d. intros u v Hu Hv. specialize (Hd u v Hu Hv). apply jn_some in Hd. destruct Hd as (y & _ & _ & _ & Hd). now exists y. }
  clear L.
  set (al := fun t p => - w_dT (w t p) / w_d (w t p)). set (be := fun t p => w_dP (w t p) / w_d (w t p)).
  set (rn := fun (i : nat) t p => (w_d (w t p) / jn_Dr) ^ i). set (k := fun i t => jn_k i (t / jn_Tr)). set (kt := fun i t => jn_kt i (t / jn_Tr) / jn_Tr).
  assert (J := jn_Tr0). assert (TT : T / jn_Tr <> 0) by (unfold Rdiv; apply Rmult_integral_contrapositive_currified; [exact T0|now apply Rinv_neq_0_compat]).
  assert (DT : is_derive (fun t : R => t / jn_Tr) T (1 / jn_Tr)) by (eapply d_eq; [apply (d_scal_r (fun t : R => t) (/ jn_Tr)); apply d_id|unfold Rdiv; ring]).
  assert (K1 : forall i, is_derive (k i) T (kt i T)).
  { intros i. unfold k, kt. eapply d_eq; [apply (d_comp (jn_k i) (fun t => t / jn_Tr)); [apply jn_k_d; exact TT|exact DT]|]. field. exact J. }
  assert (K2 : forall i, is_derive (kt i) T (jn_ktt i (T / jn_Tr) / jn_Tr / jn_Tr)).
  { intros i. unfold kt. unfold Rdiv at 1. eapply d_eq; [apply (d_scal_r (fun t => jn_kt i (t / jn_Tr)) (/ jn_Tr)); apply (d_comp (jn_kt i) (fun t => t / jn_Tr)); [apply jn_kt_d; exact TT|exact DT]|]. field. exact J. }
  assert (BE : be T P <> 0) by (unfold be, Rdiv; apply Rmult_integral_contrapositive_currified; [exact B0|now apply Rinv_neq_0_compat]).
  assert (e0 := sum5_d (fun i t p => k i t * rn i t p) _ _ T P (fun i Hi => term0 w T P D0 F1 (k i) (kt i) i (K1 i))).
  assert (eT := sum5_d (fun i t p => rn i t p * (kt i t - INR i * al t p * k i t)) _ _ T P (fun i Hi => termT w T P dTT D0 F1 F2 (k i) (kt i) _ i (K1 i) (K2 i) (K i Hi) BE)).
  assert (eP := sum5_d (fun i t p => rn i t p * k i t * INR i * be t p) _ _ T P (fun i Hi => termP w T P D0 F1 F3 (k i) (kt i) i (K1 i) (K i Hi) BE)).
  rewrite E in E0. unfold jn_raw in E0. cbn [e_] in E0. unfold born_first, born_second. rewrite E.
  unfold jn_raw at 1 2 3 4 5 6 7 8 9 10 11 12. cbn [e_ e_T e_P e_TT e_TP e_PP b_Z b_Y b_Q b_X b_U b_N].
  assert (G : forall (pr : electro -> R) f a b, (forall t p y, pr (jn_raw t (w_d (w t p)) (w_dT (w t p)) (w_dP (w t p)) y (w_dTP (w t p)) (w_dPP (w t p))) = f t p) -> diff2 f T P a b -> diff2 (fun t p => pr (e t p)) T P a b).
  { intros pr f a b Hf Hd. apply e_ext_loc with f; [|exact Hd]. destruct L2 as [d Hd']. exists d. intros u v Hu Hv. destruct (Hd' u v Hu Hv) as [y Hy]. rewrite Hy. symmetry. apply Hf. }
  split; [split|repeat match goal with |- _ /\ _ => split end].
  - apply (G e_ (fun t p => sum5 (fun i => k i t * rn i t p))); [reflexivity|]. exact e0.
  - apply (G b_Z (fun t p => -1 / sum5 (fun i => k i t * rn i t p))); [reflexivity|]. exact (born_Z (fun t p => sum5 (fun i => k i t * rn i t p)) T P _ _ e0 E0).
  - apply (G e_T (fun t p => sum5 (fun i => rn i t p * (kt i t - INR i * al t p * k i t)))); [reflexivity|]. exact eT.
  - apply (G e_P (fun t p => sum5 (fun i => rn i t p * k i t * INR i * be t p))); [reflexivity|]. exact eP.
  - apply (G b_Y (fun t p => sum5 (fun i => rn i t p * (kt i t - INR i * al t p * k i t)) / (sum5 (fun i => k i t * rn i t p) * sum5 (fun i => k i t * rn i t p)))); [reflexivity|]. eapply e_eq; [exact (born_Y (fun t p => sum5 (fun i => k i t * rn i t p)) (fun t p => sum5 (fun i => rn i t p * (kt i t - INR i * al t p * k i t))) T P _ _ _ _ e0 eT E0)|reflexivity|].
    cbv beta. unfold k, kt, rn, al, be. match goal with |- ?x - 2 * ?y * ?z * ?u = ?x' - 2 * ?z' * ?y' * ?u' => change (x' - 2 * z' * y' * u') with (x - 2 * z * y * u) end. ring.
  - apply (G b_Q (fun t p => sum5 (fun i => rn i t p * k i t * INR i * be t p) / (sum5 (fun i => k i t * rn i t p) * sum5 (fun i => k i t * rn i t p)))); [reflexivity|]. eapply e_eq; [exact (born_Y (fun t p => sum5 (fun i => k i t * rn i t p)) (fun t p => sum5 (fun i => rn i t p * k i t * INR i * be t p)) T P _ _ _ _ e0 eP E0)|reflexivity|reflexivity].
Qed.
(** wherever k_4 vanishes the code divides by zero *)
Lemma jn_none : forall T w i, (i < 5)%nat -> jn_k i (T / jn_Tr) = 0 -> jn T w = None.
Proof.
  intros T w i Hi E. destruct (jn T w) as [e|] eqn:J; [|reflexivity]. apply jn_some in J. destruct J as (_ & _ & _ & K & _). now destruct (K i Hi).
Qed.
Lemma k4_root : exists T, 447 < T < 597 /\ jn_k 4 (T / jn_Tr) = 0.
Proof.
  set (f := fun t : R => - jn_a8 - jn_a9 * t - jn_a10 * (t * t)).
  assert (C : continuity f) by (unfold f; reg).
  destruct (IVT f (3 / 2) 2 C) as [z [Hz Ez]]; [lra|unfold f, jn_a8, jn_a9, jn_a10; lra|unfold f, jn_a8, jn_a9, jn_a10; lra|].
  exists (z * jn_Tr). split; [unfold jn_Tr; lra|]. replace (z * jn_Tr / jn_Tr) with z by (field; exact jn_Tr0). cbn [jn_k].
  replace (jn_a8 / z / z + jn_a9 / z + jn_a10) with (- f z / (z * z)) by (unfold f; field; lra). rewrite Ez. field. lra.
Qed.

(** *** Woolley *)
Lemma em_d : forall e t, 0 < t -> is_derive (fun s : R => Rpower (s / 100) e) t (e * Rpower (t / 100) e / t).
Proof.
  intros e t Ht. assert (X : 0 < t / 100) by lra.
  eapply d_eq; [apply (d_Rpower (fun s : R => s / 100) e t (1 / 100)); [|exact X]|].
  - eapply d_eq; [apply (d_scal_r (fun s : R => s) (/ 100)); apply d_id|]. lra.
  - cbv beta. replace (Rpower (t / 100) e) with (Rpower (t / 100) (e - 1) * (t / 100)).
    + field. lra.
    + rewrite <- (Rpower_1 (t / 100) X) at 2. rewrite <- Rpower_plus. f_equal. ring.
Qed.
Definition wo_inv (a : R -> R * R * R) (t : R) : Prop :=
  is_derive (fun s : R => fst (fst (a s))) t (- snd (fst (a t)) / t) /\ is_derive (fun s : R => snd (fst (a s))) t ((snd (a t) - snd (fst (a t))) / t).
Lemma wo_loop_d : forall t l i a, 0 < t -> wo_inv a t -> wo_inv (fun s => wo_loop s l i (a s)) t.
Proof.
  intros t l. induction l as [|c l IH]; intros i a Ht [h1 h2]; cbn [wo_loop].
  - split; [exact h1|exact h2] || (split; (eapply d_ext; [|exact h1 || exact h2]); intros u; now destruct (a u) as [[]]).
  - assert (E := em_d (INR i - 5) t Ht).
    set (a' := fun s => (fst (fst (a s)) - c * Rpower (s / 100) (INR i - 5), snd (fst (a s)) + c * (INR i - 5) * Rpower (s / 100) (INR i - 5), snd (a s) + c * (INR i - 5) * (INR i - 4) * Rpower (s / 100) (INR i - 5))).
    assert (W : wo_inv a' t).
    { unfold wo_inv, a'. cbn [fst snd]. split.
      - eapply d_eq; [apply (d_minus (fun s : R => fst (fst (a s))) (fun s : R => c * Rpower (s / 100) (INR i - 5))); [exact h1|apply (d_scal (fun s : R => Rpower (s / 100) (INR i - 5))); exact E]|]. field. lra.
      - eapply d_eq; [apply (d_plus (fun s : R => snd (fst (a s))) (fun s : R => c * (INR i - 5) * Rpower (s / 100) (INR i - 5))); [exact h2|apply (d_scal (fun s : R => Rpower (s / 100) (INR i - 5))); exact E]|]. field. lra. }
    specialize (IH (S i) a' Ht W). destruct IH as [i1 i2].
    assert (Q : forall s, match a s with (G, H, C) => wo_loop s l (S i) (G - c * Rpower (s / 100) (INR i - 5), H + c * (INR i - 5) * Rpower (s / 100) (INR i - 5), C + c * (INR i - 5) * (INR i - 4) * Rpower (s / 100) (INR i - 5)) end = wo_loop s l (S i) (a' s)).
    { intros s. unfold a'. now destruct (a s) as [[]]. }
    unfold wo_inv. rewrite !Q. split; (eapply d_ext; [|exact i1 || exact i2]); intros u; cbv beta; now rewrite Q.
Qed.
Lemma wo_d : forall t, 0 < t -> let f := waterIdealGas in
  is_derive (fun s : R => q_G (f s)) t (- q_S (f t)) /\ is_derive (fun s : R => q_H (f s)) t (q_Cp (f t)) /\
  is_derive (fun s : R => q_S (f s)) t (q_Cp (f t) / t) /\ is_derive (fun s : R => q_A (f s)) t (- (q_S (f t) + R_CONSTANT)) /\ is_derive (fun s : R => q_U (f s)) t (q_Cv (f t)).
Proof.
  intros t Ht f. set (a0 := fun s : R => (- (wo_c0 / (s / 100) + wo_c1) * ln (s / 100), wo_c1 + wo_c0 * (1 - ln (s / 100)) / (s / 100), wo_c1 - wo_c0 / (s / 100))).
  assert (D1 : is_derive (fun s : R => s / 100) t (1 / 100)) by (eapply d_eq; [apply (d_scal_r (fun s : R => s) (/ 100)); apply d_id|lra]).
  assert (DL : is_derive (fun s : R => ln (s / 100)) t (1 / t)) by (eapply d_eq; [apply (d_ln (fun s : R => s / 100)); [exact D1|lra]|field; lra]).
  assert (N : t / 100 <> 0) by lra.
  assert (W0 : wo_inv a0 t).
  { unfold wo_inv, a0. cbn [fst snd]. split.
    - eapply d_eq; [apply (d_mult (fun s : R => - (wo_c0 / (s / 100) + wo_c1)) (fun s : R => ln (s / 100))); [apply (d_opp (fun s : R => wo_c0 / (s / 100) + wo_c1)); apply (d_plus (fun s : R => wo_c0 / (s / 100)) (fun _ : R => wo_c1)); [apply (d_div (fun _ : R => wo_c0) (fun s : R => s / 100)); [apply d_const|exact D1|exact N]|apply d_const]|exact DL]|]. cbv beta. field. lra.
    - eapply d_eq; [apply (d_plus (fun _ : R => wo_c1) (fun s : R => wo_c0 * (1 - ln (s / 100)) / (s / 100))); [apply d_const|apply (d_div (fun s : R => wo_c0 * (1 - ln (s / 100))) (fun s : R => s / 100)); [apply (d_scal (fun s : R => 1 - ln (s / 100))); apply (d_minus (fun _ : R => 1) (fun s : R => ln (s / 100))); [apply d_const|exact DL]|exact D1|exact N]]|]. cbv beta. field. lra. }
  assert (W := wo_loop_d t wo_c 2 a0 Ht W0). destruct W as [w1 w2]. set (a := fun s => wo_loop s wo_c 2 (a0 s)) in *.
  assert (Q : forall s, f s = mkTps ((snd (fst (a s)) - 1 - (fst (fst (a s)) - 1)) * R_CONSTANT) (snd (fst (a s)) * R_CONSTANT * s + wo_dH0k) ((snd (fst (a s)) - 1) * R_CONSTANT * s + wo_dH0k) (fst (fst (a s)) * R_CONSTANT * s + wo_dH0k) ((fst (fst (a s)) - 1) * R_CONSTANT * s + wo_dH0k) 0 (snd (a s) * R_CONSTANT) ((snd (a s) - 1) * R_CONSTANT)).
  { intros s. unfold f, waterIdealGas. change (wo_loop s wo_c 2 _) with (a s). now destruct (a s) as [[]]. }
  change (fun s : R => fst (fst (wo_loop s wo_c 2 (a0 s)))) with (fun s : R => fst (fst (a s))) in w1. change (fun s : R => snd (fst (wo_loop s wo_c 2 (a0 s)))) with (fun s : R => snd (fst (a s))) in w2.
  change (wo_loop t wo_c 2 (a0 t)) with (a t) in w1, w2. clearbody a. clearbody f.
  rewrite !Q. cbn [q_S q_H q_U q_G q_A q_Cp q_Cv].
  set (G := fun s : R => fst (fst (a s))) in *. set (H := fun s : R => snd (fst (a s))) in *. change (fst (fst (a t))) with (G t) in *. change (snd (fst (a t))) with (H t) in *.
  assert (LX : forall (u : R -> R) u', is_derive u t u' -> is_derive (fun s : R => u s * R_CONSTANT * s + wo_dH0k) t ((u' * t + u t) * R_CONSTANT)).
  { intros u u' hu. eapply d_eq; [apply (d_plus (fun s : R => u s * R_CONSTANT * s) (fun _ : R => wo_dH0k)); [apply (d_mult (fun s : R => u s * R_CONSTANT) (fun s : R => s)); [apply (d_scal_r u); exact hu|apply d_id]|apply d_const]|]. cbv beta. ring. }
  assert (LM : forall (u : R -> R) u', is_derive u t u' -> is_derive (fun s : R => u s - 1) t u').
  { intros u u' hu. eapply d_eq; [apply (d_minus u (fun _ : R => 1)); [exact hu|apply d_const]|ring]. }
  repeat match goal with |- _ /\ _ => split end.
  - eapply d_ext; [intros u; rewrite Q; reflexivity|]. cbn [q_G]. eapply d_eq; [exact (LX G _ w1)|]. field. lra.
  - eapply d_ext; [intros u; rewrite Q; reflexivity|]. cbn [q_H]. eapply d_eq; [exact (LX H _ w2)|]. field. lra.
  - eapply d_ext; [intros u; rewrite Q; reflexivity|]. cbn [q_S]. eapply d_eq; [apply (d_scal_r (fun s : R => H s - 1 - (G s - 1))); apply (d_minus (fun s : R => H s - 1) (fun s : R => G s - 1)); [exact (LM H _ w2)|exact (LM G _ w1)]|]. field. lra.
  - eapply d_ext; [intros u; rewrite Q; reflexivity|]. cbn [q_A]. eapply d_eq; [exact (LX (fun s => G s - 1) _ (LM G _ w1))|]. cbv beta. field. lra.
  - eapply d_ext; [intros u; rewrite Q; reflexivity|]. cbn [q_U]. eapply d_eq; [exact (LX (fun s => H s - 1) _ (LM H _ w2))|]. cbv beta. field. lra.
Qed.
Lemma wo_alg : forall t, let x := waterIdealGas t in q_G x = q_H x - t * q_S x /\ q_U x = q_H x - R_CONSTANT * t /\ q_A x = q_U x - t * q_S x /\ q_Cv x = q_Cp x - R_CONSTANT.
Proof. intros t x. unfold x, waterIdealGas. destruct (wo_loop _ _ _ _) as [[G H] C]. cbn. repeat split; ring. Qed.
