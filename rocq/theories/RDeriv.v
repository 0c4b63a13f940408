(** Rules of differentiation for real functions in a form convenient to apply. *)
From Coq Require Import Reals Lra.
From Coquelicot Require Import Coquelicot.
Open Scope R_scope.

Lemma d_eq : forall (f : R -> R) (x l l' : R), is_derive f x l -> l = l' -> is_derive f x l'.
Proof. intros f x l l' H <-. exact H. Qed.
Lemma d_const : forall (c x : R), is_derive (fun _ : R => c) x 0.
Proof. intros. auto_derive; [exact I|reflexivity]. Qed.
Lemma d_id : forall x : R, is_derive (fun t : R => t) x 1.
Proof. intros. auto_derive; [exact I|reflexivity]. Qed.
Lemma d_plus : forall (f g : R -> R) (x a b : R), is_derive f x a -> is_derive g x b -> is_derive (fun t : R => f t + g t) x (a + b).
Proof. intros f g x a b Hf Hg. exact (is_derive_plus (V := R_NormedModule) f g x a b Hf Hg). Qed.
Lemma d_minus : forall (f g : R -> R) (x a b : R), is_derive f x a -> is_derive g x b -> is_derive (fun t : R => f t - g t) x (a - b).
Proof. intros f g x a b Hf Hg. exact (is_derive_minus (V := R_NormedModule) f g x a b Hf Hg). Qed.
Lemma d_opp : forall (f : R -> R) (x a : R), is_derive f x a -> is_derive (fun t : R => - f t) x (- a).
Proof. intros f x a Hf. exact (is_derive_opp (V := R_NormedModule) f x a Hf). Qed.
Lemma d_mult : forall (f g : R -> R) (x a b : R), is_derive f x a -> is_derive g x b -> is_derive (fun t : R => f t * g t) x (a * g x + f x * b).
Proof. intros f g x a b Hf Hg. apply is_derive_Reals in Hf. apply is_derive_Reals in Hg. apply is_derive_Reals. exact (derivable_pt_lim_mult f g x a b Hf Hg). Qed.
Lemma d_scal : forall (f : R -> R) (c x a : R), is_derive f x a -> is_derive (fun t : R => c * f t) x (c * a).
Proof. intros f c x a Hf. eapply d_eq; [exact (d_mult (fun _ => c) f x 0 a (d_const c x) Hf)|]. cbv beta. ring. Qed.
Lemma d_scal_r : forall (f : R -> R) (c x a : R), is_derive f x a -> is_derive (fun t : R => f t * c) x (a * c).
Proof. intros f c x a Hf. eapply d_eq; [exact (d_mult f (fun _ => c) x a 0 Hf (d_const c x))|]. cbv beta. ring. Qed.
Lemma d_div : forall (f g : R -> R) (x a b : R), is_derive f x a -> is_derive g x b -> g x <> 0 -> is_derive (fun t : R => f t / g t) x ((a * g x - f x * b) / (g x) ^ 2).
Proof.
  intros f g x a b Hf Hg H0. apply is_derive_Reals in Hf. apply is_derive_Reals in Hg. apply is_derive_Reals.
  replace ((a * g x - f x * b) / g x ^ 2) with ((a * g x - b * f x) / (g x)²) by (unfold Rsqr; field; exact H0). exact (derivable_pt_lim_div f g x a b Hf Hg H0).
Qed.
Lemma d_inv : forall (g : R -> R) (x b : R), is_derive g x b -> g x <> 0 -> is_derive (fun t : R => / g t) x (- b / (g x) ^ 2).
Proof.
  intros g x b Hg H0. apply is_derive_ext with (fun t => 1 / g t); [intros; unfold Rdiv; apply Rmult_1_l|].
  eapply d_eq; [exact (d_div (fun _ => 1) g x 0 b (d_const 1 x) Hg H0)|]. cbv beta. field. exact H0.
Qed.
Lemma d_comp : forall (f g : R -> R) (x a b : R), is_derive f (g x) a -> is_derive g x b -> is_derive (fun t : R => f (g t)) x (a * b).
Proof.
  intros f g x a b Hf Hg. apply is_derive_Reals in Hf. apply is_derive_Reals in Hg. apply is_derive_Reals. exact (derivable_pt_lim_comp g f x b a Hg Hf).
Qed.
Lemma d_ln : forall (g : R -> R) (x b : R), is_derive g x b -> 0 < g x -> is_derive (fun t : R => ln (g t)) x (b / g x).
Proof.
  intros g x b Hg Hp. eapply d_eq; [apply (d_comp ln g x (/ g x) b)|]; [|exact Hg|unfold Rdiv; ring].
  apply is_derive_Reals. now apply derivable_pt_lim_ln.
Qed.
Lemma d_exp : forall (g : R -> R) (x b : R), is_derive g x b -> is_derive (fun t : R => exp (g t)) x (b * exp (g x)).
Proof. intros g x b Hg. eapply d_eq; [apply (d_comp exp g x (exp (g x)) b)|]; [|exact Hg|ring]. apply is_derive_Reals. apply derivable_pt_lim_exp. Qed.
Lemma d_sqrt : forall (g : R -> R) (x b : R), is_derive g x b -> 0 < g x -> is_derive (fun t : R => sqrt (g t)) x (b / (2 * sqrt (g x))).
Proof.
  intros g x b Hg Hp. eapply d_eq; [apply (d_comp sqrt g x (/ (2 * sqrt (g x))) b)|]; [|exact Hg|unfold Rdiv; ring].
  apply is_derive_Reals. now apply derivable_pt_lim_sqrt.
Qed.
Lemma d_pow : forall (g : R -> R) (n : nat) (x b : R), is_derive g x b -> is_derive (fun t : R => g t ^ n) x (INR n * b * g x ^ (pred n)).
Proof. intros g n x b Hg. exact (is_derive_pow g n x b Hg). Qed.
Lemma d_Rpower : forall (g : R -> R) (y x b : R), is_derive g x b -> 0 < g x -> is_derive (fun t : R => Rpower (g t) y) x (y * Rpower (g x) (y - 1) * b).
Proof.
  intros g y x b Hg Hp. unfold Rpower at 1. eapply d_eq; [apply (d_exp (fun t => y * ln (g t)) x (y * (b / g x)))|].
  - apply d_scal. now apply d_ln.
  - fold (Rpower (g x) y). replace y with (y - 1 + 1) at 2 by ring. rewrite Rpower_plus, Rpower_1 by exact Hp. field. lra.
Qed.
(** functions that agree for positive arguments *)
Lemma d_ext_pos : forall (f g : R -> R) (x l : R), 0 < x -> (forall t, 0 < t -> f t = g t) -> is_derive f x l -> is_derive g x l.
Proof.
  intros f g x l Hx H D. apply is_derive_ext_loc with f; [|exact D]. exists (mkposreal x Hx). intros y Hy. apply H.
  unfold ball in Hy; cbn in Hy. unfold AbsRing_ball, abs, minus, plus, opp in Hy; cbn in Hy. apply Rabs_def2 in Hy. lra.
Qed.
Lemma d_ext : forall (f g : R -> R) (x l : R), (forall t, f t = g t) -> is_derive f x l -> is_derive g x l.
Proof. intros f g x l H D. exact (is_derive_ext f g x l H D). Qed.
(** uniqueness *)
Lemma d_unique : forall (f : R -> R) (x a b : R), is_derive f x a -> is_derive f x b -> a = b.
Proof. intros f x a b Ha Hb. rewrite <- (is_derive_unique f x a Ha). exact (is_derive_unique f x b Hb). Qed.
