(** Differentiability of functions of two variables, [differentiable_pt_lim f x y fx fy] of Coquelicot, in a form convenient to apply,
    and an implicit function lemma. *)
From Coq Require Import Reals Lra.
From Coquelicot Require Import Coquelicot.
From Verif Require Import RDeriv.
Open Scope R_scope.

Notation diff2 := differentiable_pt_lim.

Lemma e_eq : forall (f : R -> R -> R) (x y a b a' b' : R), diff2 f x y a b -> a = a' -> b = b' -> diff2 f x y a' b'.
Proof. now intros f x y a b a' b' H <- <-. Qed.
Lemma e_ext : forall (f g : R -> R -> R) (x y a b : R), (forall u v, f u v = g u v) -> diff2 f x y a b -> diff2 g x y a b.
Proof.
  intros f g x y a b E H eps. destruct (H eps) as [d Hd]. exists d. intros u v Hu Hv. rewrite <- !E. now apply Hd.
Qed.
Lemma e_ext_loc : forall (f g : R -> R -> R) (x y a b : R), locally_2d (fun u v => f u v = g u v) x y -> diff2 f x y a b -> diff2 g x y a b.
Proof.
  intros f g x y a b [d1 E] H eps. destruct (H eps) as [d2 Hd].
  exists (mkposreal (Rmin d1 d2) (Rmin_pos _ _ (cond_pos d1) (cond_pos d2))). cbn. intros u v Hu Hv.
  assert (L1 := Rmin_l d1 d2). assert (L2 := Rmin_r d1 d2).
  rewrite <- !E; [apply Hd; lra| | |lra|lra]; unfold Rminus; rewrite Rplus_opp_r, Rabs_R0; exact (cond_pos d1).
Qed.
Lemma e_const : forall c x y : R, diff2 (fun _ _ => c) x y 0 0.
Proof. intros c x y. apply (differentiable_pt_lim_proj1_0 (fun _ => c)). apply derivable_pt_lim_const. Qed.
Lemma e_fst1 : forall (f : R -> R) (x y l : R), is_derive f x l -> diff2 (fun u _ => f u) x y l 0.
Proof. intros f x y l H. apply (differentiable_pt_lim_proj1_0 f). now apply is_derive_Reals. Qed.
Lemma e_fst : forall x y : R, diff2 (fun u _ => u) x y 1 0.
Proof. intros x y. apply (e_fst1 (fun u => u)). apply d_id. Qed.
Lemma e_snd : forall x y : R, diff2 (fun _ v => v) x y 0 1.
Proof.
  intros x y eps. exists (mkposreal 1 Rlt_0_1). intros u v _ _. replace (v - y - (0 * (u - x) + 1 * (v - y))) with 0 by ring. rewrite Rabs_R0.
  apply Rmult_le_pos; [left; apply cond_pos|]. apply Rle_trans with (Rabs (u - x)); [apply Rabs_pos|apply Rmax_l].
Qed.
Lemma e_comp : forall (g : R -> R) (f : R -> R -> R) (x y a b l : R), diff2 f x y a b -> is_derive g (f x y) l -> diff2 (fun u v => g (f u v)) x y (l * a) (l * b).
Proof.
  intros g f x y a b l Hf Hg. eapply e_eq; [apply (differentiable_pt_lim_comp (fun u _ => g u) f (fun _ _ => 0) x y l 0 a b 0 0)|ring|ring].
  - now apply e_fst1. - exact Hf. - apply e_const.
Qed.
Lemma e_plus : forall (f g : R -> R -> R) (x y a b c d : R), diff2 f x y a b -> diff2 g x y c d -> diff2 (fun u v => f u v + g u v) x y (a + c) (b + d).
Proof.
  intros f g x y a b c d Hf Hg. eapply e_eq; [apply (differentiable_pt_lim_comp Rplus f g x y 1 1 a b c d); [|exact Hf|exact Hg]|ring|ring].
  intros eps. exists (mkposreal 1 Rlt_0_1). intros u v _ _. match goal with |- Rabs ?e <= _ => replace e with 0 by ring end. rewrite Rabs_R0.
  apply Rmult_le_pos; [left; apply cond_pos|]. apply Rle_trans with (Rabs (u - f x y)); [apply Rabs_pos|apply Rmax_l].
Qed.
Lemma e_opp : forall (f : R -> R -> R) (x y a b : R), diff2 f x y a b -> diff2 (fun u v => - f u v) x y (- a) (- b).
Proof. intros f x y a b H. eapply e_eq; [apply (e_comp Ropp f x y a b (-1) H)|ring|ring]. eapply d_eq; [apply (d_opp (fun t => t)); apply d_id|ring]. Qed.
Lemma e_minus : forall (f g : R -> R -> R) (x y a b c d : R), diff2 f x y a b -> diff2 g x y c d -> diff2 (fun u v => f u v - g u v) x y (a - c) (b - d).
Proof. intros. apply e_plus; [assumption|now apply e_opp]. Qed.
Lemma e_mult : forall (f g : R -> R -> R) (x y a b c d : R), diff2 f x y a b -> diff2 g x y c d ->
  diff2 (fun u v => f u v * g u v) x y (a * g x y + f x y * c) (b * g x y + f x y * d).
Proof.
  intros f g x y a b c d Hf Hg. eapply e_eq; [apply (differentiable_pt_lim_comp Rmult f g x y (g x y) (f x y) a b c d); [|exact Hf|exact Hg]|ring|ring].
  generalize (f x y) (g x y). intros p q eps. exists eps. intros u v Hu Hv.
  replace (u * v - p * q - (q * (u - p) + p * (v - q))) with ((u - p) * (v - q)) by ring. rewrite Rabs_mult.
  apply Rmult_le_compat; [apply Rabs_pos|apply Rabs_pos|now left|apply Rmax_r].
Qed.
Lemma e_div : forall (f g : R -> R -> R) (x y a b c d : R), diff2 f x y a b -> diff2 g x y c d -> g x y <> 0 ->
  diff2 (fun u v => f u v / g u v) x y ((a * g x y - f x y * c) / (g x y) ^ 2) ((b * g x y - f x y * d) / (g x y) ^ 2).
Proof.
  intros f g x y a b c d Hf Hg H0. unfold Rdiv at 1. eapply e_eq; [apply (e_mult f (fun u v => / g u v) x y a b); [exact Hf|]|..].
  - apply (e_comp Rinv g x y c d (- 1 / (g x y) ^ 2) Hg). exact (d_inv (fun t => t) (g x y) 1 (d_id _) H0).
  - cbv beta. field. exact H0.
  - cbv beta. field. exact H0.
Qed.
Lemma e_ln : forall (f : R -> R -> R) (x y a b : R), diff2 f x y a b -> 0 < f x y -> diff2 (fun u v => ln (f u v)) x y (a / f x y) (b / f x y).
Proof. intros f x y a b H P. eapply e_eq; [apply (e_comp ln f x y a b (1 / f x y) H); exact (d_ln (fun t => t) _ 1 (d_id _) P)|unfold Rdiv; ring..]. Qed.
Lemma e_exp : forall (f : R -> R -> R) (x y a b : R), diff2 f x y a b -> diff2 (fun u v => exp (f u v)) x y (a * exp (f x y)) (b * exp (f x y)).
Proof. intros f x y a b H. eapply e_eq; [apply (e_comp exp f x y a b (1 * exp (f x y)) H); exact (d_exp (fun t => t) _ 1 (d_id _))|ring..]. Qed.
Lemma e_Rpower : forall (f : R -> R -> R) (e x y a b : R), diff2 f x y a b -> 0 < f x y ->
  diff2 (fun u v => Rpower (f u v) e) x y (e * Rpower (f x y) (e - 1) * a) (e * Rpower (f x y) (e - 1) * b).
Proof. intros f e x y a b H P. eapply e_eq; [eapply (e_comp (fun t => Rpower t e) f x y a b); [exact H|]; exact (d_Rpower (fun t => t) e _ 1 (d_id _) P)|cbv beta; ring..]. Qed.
Lemma e_pow : forall (f : R -> R -> R) (n : nat) (x y a b : R), diff2 f x y a b ->
  diff2 (fun u v => f u v ^ n) x y (INR n * a * f x y ^ pred n) (INR n * b * f x y ^ pred n).
Proof. intros f n x y a b H. eapply e_eq; [eapply (e_comp (fun t => t ^ n) f x y a b); [exact H|]; exact (d_pow (fun t => t) n _ 1 (d_id _))|cbv beta; ring..]. Qed.

(** composition and partial derivatives *)
Lemma e_comp2 : forall (f g h : R -> R -> R) (x y a b c d p q : R), diff2 f (g x y) (h x y) a b -> diff2 g x y c d -> diff2 h x y p q ->
  diff2 (fun u v => f (g u v) (h u v)) x y (a * c + b * p) (a * d + b * q).
Proof. intros f g h x y a b c d p q. apply differentiable_pt_lim_comp. Qed.
Lemma e_1 : forall (f : R -> R -> R) (x y a b : R), diff2 f x y a b -> is_derive (fun t : R => f t y) x a.
Proof.
  intros f x y a b H. apply is_derive_Reals. replace a with (a * 1 + b * 0) by ring.
  apply (derivable_pt_lim_comp_2d f (fun t => t) (fun _ => y) x a b 1 0); [exact H|apply derivable_pt_lim_id|apply derivable_pt_lim_const].
Qed.
Lemma e_2 : forall (f : R -> R -> R) (x y a b : R), diff2 f x y a b -> is_derive (fun t : R => f x t) y b.
Proof.
  intros f x y a b H. apply is_derive_Reals. replace b with (a * 0 + b * 1) by ring.
  apply (derivable_pt_lim_comp_2d f (fun _ => x) (fun t => t) y a b 0 1); [exact H|apply derivable_pt_lim_const|apply derivable_pt_lim_id].
Qed.
Lemma e_unique : forall (f : R -> R -> R) (x y a b a' b' : R), diff2 f x y a b -> diff2 f x y a' b' -> a = a' /\ b = b'.
Proof.
  intros f x y a b a' b' H H'. split; [exact (d_unique _ _ _ _ (e_1 _ _ _ _ _ H) (e_1 _ _ _ _ _ H'))|exact (d_unique _ _ _ _ (e_2 _ _ _ _ _ H) (e_2 _ _ _ _ _ H'))].
Qed.
Lemma e_cont : forall (f : R -> R -> R) (x y a b : R), diff2 f x y a b -> continuity_2d_pt f x y.
Proof.
  intros f x y a b H eps. destruct (H (mkposreal 1 Rlt_0_1)) as [d Hd]. cbn in Hd.
  set (K := 1 + Rabs a + Rabs b). assert (KP : 0 < K) by (unfold K; assert (A := Rabs_pos a); assert (B := Rabs_pos b); lra).
  assert (HP : 0 < Rmin d (eps / K)) by (apply Rmin_pos; [apply cond_pos|apply Rdiv_lt_0_compat; [apply cond_pos|exact KP]]).
  exists (mkposreal _ HP). cbn. intros u v Hu Hv. assert (L1 := Rmin_l d (eps / K)). assert (L2 := Rmin_r d (eps / K)).
  assert (Q : Rabs (f u v - f x y - (a * (u - x) + b * (v - y))) <= 1 * Rmax (Rabs (u - x)) (Rabs (v - y))) by (apply Hd; lra).
  set (m := Rmax (Rabs (u - x)) (Rabs (v - y))) in *. assert (Hm : m < eps / K) by (unfold m; apply Rmax_lub_lt; lra).
  assert (m1 := Rmax_l (Rabs (u - x)) (Rabs (v - y))). assert (m2 := Rmax_r (Rabs (u - x)) (Rabs (v - y))). fold m in m1, m2.
  apply Rle_lt_trans with (K * m).
  - replace (f u v - f x y) with ((f u v - f x y - (a * (u - x) + b * (v - y))) + (a * (u - x) + b * (v - y))) by ring.
    eapply Rle_trans; [apply Rabs_triang|]. assert (T1 := Rabs_triang (a * (u - x)) (b * (v - y))). rewrite !Rabs_mult in T1.
    assert (Rabs a * Rabs (u - x) <= Rabs a * m) by (apply Rmult_le_compat_l; [apply Rabs_pos|exact m1]).
    assert (Rabs b * Rabs (v - y) <= Rabs b * m) by (apply Rmult_le_compat_l; [apply Rabs_pos|exact m2]). unfold K. lra.
  - apply Rlt_le_trans with (K * (eps / K)); [now apply Rmult_lt_compat_l|]. right. field. lra.
Qed.

(** a continuous solution r(t,p) of F(t, r) = p is differentiable where F is, with the implicit derivatives *)
Lemma implicit : forall (F r : R -> R -> R) (T P a b : R), diff2 F T (r T P) a b -> b <> 0 -> continuity_2d_pt r T P ->
  locally_2d (fun t p => F t (r t p) = p) T P -> diff2 r T P (- a / b) (1 / b).
Proof.
  intros F r T P a b HF Hb HC [d0 HE] eps.
  assert (BP : 0 < Rabs b) by now apply Rabs_pos_lt. assert (A0 := Rabs_pos a).
  set (C := 2 * (1 + Rabs a) / Rabs b + 1). assert (CP : 1 <= C) by (unfold C; assert (0 < 2 * (1 + Rabs a) / Rabs b) by (apply Rdiv_lt_0_compat; lra); lra).
  set (e := Rmin (Rabs b / 2) (eps * Rabs b / C)).
  assert (eP : 0 < e) by (unfold e; apply Rmin_pos; [lra|apply Rdiv_lt_0_compat; [apply Rmult_lt_0_compat; [apply cond_pos|exact BP]|lra]]).
  assert (e1 : e <= Rabs b / 2) by apply Rmin_l. assert (e2 : e <= eps * Rabs b / C) by apply Rmin_r. clearbody e.
  destruct (HF (mkposreal e eP)) as [d1 H1]. cbn in H1. destruct (HC d1) as [d2 H2].
  assert (DP : 0 < Rmin d0 (Rmin d1 d2)) by (repeat apply Rmin_pos; apply cond_pos).
  exists (mkposreal _ DP). cbn. intros t p Ht Hp.
  assert (L0 := Rmin_l d0 (Rmin d1 d2)). assert (L1 := Rmin_r d0 (Rmin d1 d2)). assert (L2 := Rmin_l d1 d2). assert (L3 := Rmin_r d1 d2).
  assert (Q : Rabs (F t (r t p) - F T (r T P) - (a * (t - T) + b * (r t p - r T P))) <= e * Rmax (Rabs (t - T)) (Rabs (r t p - r T P)))
    by (apply H1; [lra|apply H2; lra]).
  rewrite (HE t p), (HE T P) in Q; try lra; try (unfold Rminus; rewrite Rplus_opp_r, Rabs_R0; apply cond_pos).
  set (h := t - T) in *. set (k := r t p - r T P) in *. set (q := p - P) in *. set (m := Rmax (Rabs h) (Rabs q)).
  assert (mh : Rabs h <= m) by apply Rmax_l. assert (mq : Rabs q <= m) by apply Rmax_r. assert (m0 : 0 <= m) by (eapply Rle_trans; [apply Rabs_pos|exact mh]).
  assert (K : Rabs k <= C * m).
  { assert (X : Rabs b * Rabs k <= Rabs q + Rabs a * Rabs h + e * (Rabs h + Rabs k)).
    { rewrite <- Rabs_mult. replace (b * k) with (q + - (a * h) + - (q - (a * h + b * k))) by ring.
      eapply Rle_trans; [apply Rabs_triang|]. rewrite Rabs_Ropp. assert (Y := Rabs_triang q (- (a * h))). rewrite Rabs_Ropp, Rabs_mult in Y.
      assert (Z : e * Rmax (Rabs h) (Rabs k) <= e * (Rabs h + Rabs k)).
      { apply Rmult_le_compat_l; [lra|]. apply Rmax_lub; [assert (W := Rabs_pos k); lra|assert (W := Rabs_pos h); lra]. }
      lra. }
    assert (X2 : e * (Rabs h + Rabs k) <= Rabs b / 2 * (Rabs h + Rabs k)) by (apply Rmult_le_compat_r; [assert (W := Rabs_pos h); assert (W2 := Rabs_pos k); lra|exact e1]).
    assert (X3 : Rabs a * Rabs h <= Rabs a * m) by now apply Rmult_le_compat_l.
    assert (X4 : Rabs b * Rabs h <= Rabs b * m) by (apply Rmult_le_compat_l; lra).
    assert (X5 : Rabs b * Rabs k <= Rabs b * (C * m)).
    { unfold C. replace (Rabs b * ((2 * (1 + Rabs a) / Rabs b + 1) * m)) with (2 * (1 + Rabs a) * m + Rabs b * m) by (field; lra). lra. }
    now apply Rmult_le_reg_l in X5. }
  replace (k - (- a / b * h + 1 / b * q)) with (- (q - (a * h + b * k)) / b) by (field; exact Hb).
  unfold Rdiv at 1. rewrite Rabs_mult, Rabs_Ropp, (Rabs_Rinv b Hb).
  apply Rmult_le_reg_r with (Rabs b); [exact BP|]. rewrite Rmult_assoc, Rinv_l, Rmult_1_r by lra.
  eapply Rle_trans; [exact Q|]. apply Rle_trans with (e * (C * m)).
  - apply Rmult_le_compat_l; [lra|]. apply Rmax_lub; [|exact K]. assert (Y : 1 * m <= C * m) by now apply Rmult_le_compat_r. lra.
  - apply Rle_trans with (eps * Rabs b / C * (C * m)).
    + apply Rmult_le_compat_r; [apply Rmult_le_pos; lra|exact e2].
    + right. field. lra.
Qed.

(** derivative of a formula in two variables *)
Ltac er := first [ lazymatch goal with |- diff2 (fun _ _ => ?c) _ _ _ _ => apply e_const | |- diff2 (fun u _ => u) _ _ _ _ => apply e_fst | |- diff2 (fun _ v => v) _ _ _ _ => apply e_snd end
  | match goal with H : diff2 ?f ?x ?y _ _ |- diff2 ?g ?x ?y _ _ => let a := eval cbv beta in (f x y) in let b := eval cbv beta in (g x y) in constr_eq a b; exact H end
  | lazymatch goal with
    | |- diff2 (fun u v => @?f u v + @?g u v) ?x ?y _ _ => eapply (e_plus f g x y); [er|er]
    | |- diff2 (fun u v => @?f u v - @?g u v) ?x ?y _ _ => eapply (e_minus f g x y); [er|er]
    | |- diff2 (fun u v => - @?f u v) ?x ?y _ _ => eapply (e_opp f x y); er
    | |- diff2 (fun u v => @?f u v * @?g u v) ?x ?y _ _ => eapply (e_mult f g x y); [er|er]
    | |- diff2 (fun u v => @?f u v / @?g u v) ?x ?y _ _ => eapply (e_div f g x y); [er|er|cbv beta]
    | |- diff2 (fun u v => ln (@?f u v)) ?x ?y _ _ => eapply (e_ln f x y); [er|cbv beta]
    | |- diff2 (fun u v => exp (@?f u v)) ?x ?y _ _ => eapply (e_exp f x y); er
    | |- diff2 (fun u v => Rpower (@?f u v) ?e) ?x ?y _ _ => eapply (e_Rpower f e x y); [er|cbv beta]
    | |- diff2 (fun u v => @?f u v ^ ?n) ?x ?y _ _ => eapply (e_pow f n x y); er
    end | idtac ].
