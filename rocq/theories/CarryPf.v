(** Carrying is kept by the operators. *)
From Coq Require Import Bool Reals Lra Lia String ZArith.
From Coquelicot Require Import Coquelicot.
From Verif Require Import ThermoScalarModel ThermoScalarSpec ThermoScalarProofs MineralModel CarryModel CarrySpec.
Open Scope R_scope.

Definition leaf (x : TS) (f : R -> R -> R) : texpr := XExt f (fun _ _ => ddt x) (fun _ _ => ddp x) (fun _ _ => err x) (sta x).
Lemma leaf_dom : forall x f T P, carries x f T P -> dom (leaf x f) T P.
Proof. intros x f T P [_ [A B]]. exact (conj A B). Qed.
Lemma leaf_eval : forall x f T P, carries x f T P -> teval (leaf x f) T P = x.
Proof. intros x f T P [A _]. cbn. rewrite <- A. now destruct x. Qed.
Lemma by_expr : forall e x f T P, dom e T P -> teval e T P = x -> (forall t p, den e t p = f t p) -> carries x f T P.
Proof.
  intros e x f T P D E F. pose proof (teval_val e T P D) as A; pose proof (teval_ddt e T P D) as B; pose proof (teval_ddp e T P D) as C. rewrite E in A, B, C. split; [now rewrite A, F|].
  split; [eapply is_derive_ext; [|exact B]; intro t; cbn; apply F|eapply is_derive_ext; [|exact C]; intro p; cbn; apply F].
Qed.
Lemma c_T : forall T P, carries (TK T) (fun t _ => t) T P.
Proof. intros. apply (by_expr XT); reflexivity || exact I. Qed.
Lemma c_bar : forall T P, carries (Pbar P) (fun _ p => p / 100000) T P.
Proof.
  intros T P. split; [cbn; unfold Rdiv; ring|]. split; cbn.
  - replace (0 * (1 / 100000)) with 0 by ring. apply (is_derive_const (P / 100000) T).
  - replace (1 * (1 / 100000)) with (/ 100000) by field. auto_derive; [exact I|field].
Qed.
Lemma c_read : forall x v T P, read_value x v -> carries x (fun _ _ => v) T P.
Proof. intros x v T P [A [B C]]. split; [exact A|]. rewrite B, C. split; apply (is_derive_const v). Qed.
Lemma c_assign : forall c T P, carries (ts_assign c) (fun _ _ => c) T P.
Proof. intros. apply (by_expr (XAssign c)); reflexivity || exact I. Qed.
Lemma c_neg : forall x f T P, carries x f T P -> carries (ts_neg x) (fun t p => - f t p) T P.
Proof. intros x f T P H. apply (by_expr (XNeg (leaf x f))); [exact (leaf_dom _ _ _ _ H)|cbn [teval]; now rewrite (leaf_eval _ _ _ _ H)|reflexivity]. Qed.
Lemma c_add : forall x y f g T P, carries x f T P -> carries y g T P -> carries (ts_add x y) (fun t p => f t p + g t p) T P.
Proof. intros x y f g T P H K. apply (by_expr (XAdd (leaf x f) (leaf y g))); [exact (conj (leaf_dom _ _ _ _ H) (leaf_dom _ _ _ _ K))|cbn [teval]; now rewrite (leaf_eval _ _ _ _ H), (leaf_eval _ _ _ _ K)|reflexivity]. Qed.
Lemma c_sub : forall x y f g T P, carries x f T P -> carries y g T P -> carries (ts_sub x y) (fun t p => f t p - g t p) T P.
Proof. intros x y f g T P H K. apply (by_expr (XSub (leaf x f) (leaf y g))); [exact (conj (leaf_dom _ _ _ _ H) (leaf_dom _ _ _ _ K))|cbn [teval]; now rewrite (leaf_eval _ _ _ _ H), (leaf_eval _ _ _ _ K)|reflexivity]. Qed.
Lemma c_mul : forall x y f g T P, carries x f T P -> carries y g T P -> carries (ts_mul x y) (fun t p => f t p * g t p) T P.
Proof. intros x y f g T P H K. apply (by_expr (XMul (leaf x f) (leaf y g))); [exact (conj (leaf_dom _ _ _ _ H) (leaf_dom _ _ _ _ K))|cbn [teval]; now rewrite (leaf_eval _ _ _ _ H), (leaf_eval _ _ _ _ K)|reflexivity]. Qed.
Lemma c_div : forall x y f g T P, carries x f T P -> carries y g T P -> g T P <> 0 -> carries (ts_div x y) (fun t p => f t p / g t p) T P.
Proof. intros x y f g T P H K N. apply (by_expr (XDiv (leaf x f) (leaf y g))); [exact (conj (leaf_dom _ _ _ _ H) (conj (leaf_dom _ _ _ _ K) N))|cbn [teval]; now rewrite (leaf_eval _ _ _ _ H), (leaf_eval _ _ _ _ K)|reflexivity]. Qed.
Lemma c_dadd : forall c x f T P, carries x f T P -> carries (d_add_ts c x) (fun t p => c + f t p) T P.
Proof. intros c x f T P H. apply (by_expr (XDAdd c (leaf x f))); [exact (leaf_dom _ _ _ _ H)|cbn [teval]; now rewrite (leaf_eval _ _ _ _ H)|reflexivity]. Qed.
Lemma c_addd : forall c x f T P, carries x f T P -> carries (ts_add_d x c) (fun t p => f t p + c) T P.
Proof. intros c x f T P H. apply (by_expr (XAddD (leaf x f) c)); [exact (leaf_dom _ _ _ _ H)|cbn [teval]; now rewrite (leaf_eval _ _ _ _ H)|reflexivity]. Qed.
Lemma c_dsub : forall c x f T P, carries x f T P -> carries (d_sub_ts c x) (fun t p => c - f t p) T P.
Proof. intros c x f T P H. apply (by_expr (XDSub c (leaf x f))); [exact (leaf_dom _ _ _ _ H)|cbn [teval]; now rewrite (leaf_eval _ _ _ _ H)|reflexivity]. Qed.
Lemma c_subd : forall c x f T P, carries x f T P -> carries (ts_sub_d x c) (fun t p => f t p - c) T P.
Proof. intros c x f T P H. apply (by_expr (XSubD (leaf x f) c)); [exact (leaf_dom _ _ _ _ H)|cbn [teval]; now rewrite (leaf_eval _ _ _ _ H)|reflexivity]. Qed.
Lemma c_dmul : forall c x f T P, carries x f T P -> carries (d_mul_ts c x) (fun t p => c * f t p) T P.
Proof. intros c x f T P H. apply (by_expr (XDMul c (leaf x f))); [exact (leaf_dom _ _ _ _ H)|cbn [teval]; now rewrite (leaf_eval _ _ _ _ H)|reflexivity]. Qed.
Lemma c_muld : forall c x f T P, carries x f T P -> carries (ts_mul_d x c) (fun t p => f t p * c) T P.
Proof. intros c x f T P H. apply (by_expr (XMulD (leaf x f) c)); [exact (leaf_dom _ _ _ _ H)|cbn [teval]; now rewrite (leaf_eval _ _ _ _ H)|reflexivity]. Qed.
Lemma c_ddiv : forall c x f T P, carries x f T P -> f T P <> 0 -> carries (d_div_ts c x) (fun t p => c / f t p) T P.
Proof. intros c x f T P H N. apply (by_expr (XDDiv c (leaf x f))); [exact (conj (leaf_dom _ _ _ _ H) N)|cbn [teval]; now rewrite (leaf_eval _ _ _ _ H)|reflexivity]. Qed.
Lemma c_divd : forall c x f T P, carries x f T P -> c <> 0 -> carries (ts_div_d x c) (fun t p => f t p / c) T P.
Proof. intros c x f T P H N. apply (by_expr (XDivD (leaf x f) c)); [exact (conj (leaf_dom _ _ _ _ H) N)|cbn [teval]; now rewrite (leaf_eval _ _ _ _ H)|reflexivity]. Qed.
Lemma c_sqrt : forall x f T P, carries x f T P -> 0 < f T P -> carries (ts_sqrt x) (fun t p => sqrt (f t p)) T P.
Proof. intros x f T P H N. apply (by_expr (XSqrt (leaf x f))); [exact (conj (leaf_dom _ _ _ _ H) N)|cbn [teval]; now rewrite (leaf_eval _ _ _ _ H)|reflexivity]. Qed.
Lemma c_log : forall x f T P, carries x f T P -> 0 < f T P -> carries (ts_log x) (fun t p => ln (f t p)) T P.
Proof. intros x f T P H N. apply (by_expr (XLog (leaf x f))); [exact (conj (leaf_dom _ _ _ _ H) N)|cbn [teval]; now rewrite (leaf_eval _ _ _ _ H)|reflexivity]. Qed.
(** near the point *)
Lemma c_ext : forall x f g T P, (forall t p, f t p = g t p) -> carries x f T P -> carries x g T P.
Proof. intros x f g T P E [A [B C]]. split; [now rewrite A|]. split; [eapply is_derive_ext; [|exact B]; intro t; cbn; apply E|eapply is_derive_ext; [|exact C]; intro p; cbn; apply E]. Qed.
Lemma c_ext_loc : forall x f g T P, locally T (fun t => f t P = g t P) -> locally P (fun p => f T p = g T p) -> carries x f T P -> carries x g T P.
Proof.
  intros x f g T P E1 E2 [A [B C]]. split; [rewrite A; exact (locally_singleton _ _ E1)|].
  split; [eapply is_derive_ext_loc; [exact E1|exact B]|eapply is_derive_ext_loc; [exact E2|exact C]].
Qed.
Lemma d_pos : forall (f : R -> R) (x d : R), is_derive f x d -> 0 < f x -> locally x (fun t => 0 < f t).
Proof.
  intros f x d D H. assert (C : continuous f x) by (apply (ex_derive_continuous f x); now exists d).
  apply (C (fun y => 0 < y)). exists (mkposreal (f x) H). intros y Hy. apply Rabs_lt_between' in Hy. cbn in Hy. lra.
Qed.
Lemma c_loc : forall x f T P, carries x f T P -> 0 < f T P -> locally T (fun t => 0 < f t P) /\ locally P (fun p => 0 < f T p).
Proof. intros x f T P [_ [B C]] H. split; [exact (d_pos (fun t => f t P) T _ B H)|exact (d_pos (fun p => f T p) P _ C H)]. Qed.
Lemma c_pow : forall c x f T P, carries x f T P -> 0 < f T P -> carries (ts_pow_d x c) (fun t p => Rpower (f t p) c) T P.
Proof.
  intros c x f T P H N. destruct (c_loc x f T P H N) as [L1 L2]. apply (c_ext_loc _ (fun t p => cpow (f t p) c)).
  - revert L1. apply filter_imp. intros t Ht. now apply cpow_pos.
  - revert L2. apply filter_imp. intros t Ht. now apply cpow_pos.
  - apply (by_expr (XPowD (leaf x f) c)); [exact (conj (leaf_dom _ _ _ _ H) (or_introl N))|cbn [teval]; now rewrite (leaf_eval _ _ _ _ H)|reflexivity].
Qed.
Lemma c_pown : forall n c x f T P, (1 < n)%nat -> c = INR n -> carries x f T P -> carries (ts_pow_d x c) (fun t p => f t p ^ n) T P.
Proof.
  intros n c x f T P Hn E H. apply (c_ext _ (fun t p => cpow (f t p) c)); [intros; rewrite E; apply cpow_INR|].
  apply (by_expr (XPowD (leaf x f) c)); [|cbn [teval]; now rewrite (leaf_eval _ _ _ _ H)|reflexivity]. split; [exact (leaf_dom _ _ _ _ H)|]. cbn [den leaf]. unfold pow_ok.
  destruct (Req_EM_T (f T P) 0) as [Z|Z]; [right; right; split; [exact Z|]; exists n; split; [lia|exact E]|right; left; split; [exact Z|]; exists (Z.of_nat n); now rewrite E, INR_IZR_INZ].
Qed.
(** the compound assignments have the values and derivatives of the operators *)
Lemma c_same : forall x y f T P, val x = val y -> ddt x = ddt y -> ddp x = ddp y -> carries y f T P -> carries x f T P.
Proof. intros x y f T P A B C [D [E F]]. rewrite <- A in D. rewrite <- B in E. rewrite <- C in F. exact (conj D (conj E F)). Qed.
Lemma c_ipadd : forall x y f g T P, carries x f T P -> carries y g T P -> carries (ip_add x y) (fun t p => f t p + g t p) T P.
Proof. intros x y f g T P H K. apply (c_same _ (ts_add x y)); [reflexivity|reflexivity|reflexivity|now apply c_add]. Qed.
Lemma c_ipsub : forall x y f g T P, carries x f T P -> carries y g T P -> carries (ip_sub x y) (fun t p => f t p - g t p) T P.
Proof. intros x y f g T P H K. apply (c_same _ (ts_sub x y)); [reflexivity|reflexivity|reflexivity|now apply c_sub]. Qed.
Lemma c_ipaddd : forall c x f T P, carries x f T P -> carries (ip_add_d x c) (fun t p => f t p + c) T P.
Proof. intros c x f T P H. apply (c_same _ (ts_add_d x c)); [unfold ts_add_d, d_add_ts, ctor5; cbn; ring|reflexivity|reflexivity|now apply c_addd]. Qed.
(** uniqueness: a ThermoScalar that carries f has no other derivative of it *)
Lemma c_unique : forall x f T P d, carries x f T P -> is_derive (fun t : R => f t P) T d -> ddt x = d.
Proof. intros x f T P d [_ [A _]] B. apply is_derive_unique in A, B. congruence. Qed.
Ltac cstep :=
  match goal with
  | |- carries (TK _) _ _ _ => apply c_T
  | |- carries (Pbar _) _ _ _ => apply c_bar
  | |- carries (ts_assign _) _ _ _ => apply c_assign
  | |- carries (ts_neg _) _ _ _ => eapply c_neg
  | |- carries (ts_add _ _) _ _ _ => eapply c_add
  | |- carries (ts_sub _ _) _ _ _ => eapply c_sub
  | |- carries (ts_mul _ _) _ _ _ => eapply c_mul
  | |- carries (ts_div _ _) _ _ _ => eapply c_div
  | |- carries (d_add_ts _ _) _ _ _ => eapply c_dadd
  | |- carries (ts_add_d _ _) _ _ _ => eapply c_addd
  | |- carries (d_sub_ts _ _) _ _ _ => eapply c_dsub
  | |- carries (ts_sub_d _ _) _ _ _ => eapply c_subd
  | |- carries (d_mul_ts _ _) _ _ _ => eapply c_dmul
  | |- carries (ts_mul_d _ _) _ _ _ => eapply c_muld
  | |- carries (d_div_ts _ _) _ _ _ => eapply c_ddiv
  | |- carries (ts_div_d _ _) _ _ _ => eapply c_divd
  | |- carries (ts_sqrt _) _ _ _ => eapply c_sqrt
  | |- carries (ts_log _) _ _ _ => eapply c_log
  | |- carries (ip_add _ _) _ _ _ => eapply c_ipadd
  | |- carries (ip_sub _ _) _ _ _ => eapply c_ipsub
  | |- carries (ip_add_d _ _) _ _ _ => eapply c_ipaddd
  | H : carries ?x _ ?T ?P |- carries ?x _ ?T ?P => exact H
  end.
Ltac cs := repeat cstep.
