(** Tables of partial derivatives up to the third order: sums, products, compositions, changes of variables.  *)
From Coq Require Import List Bool Reals Lra.
From Coquelicot Require Import Coquelicot.
From Verif Require Import RDeriv RDiff2 WaterModel WaterSpec HelmModel.
Import ListNotations.
Open Scope R_scope.

Definition jet (U : R -> R -> Prop) (F : R -> R -> helm) : Prop := forall t d, U t d -> helm1 F t d /\ helm2 F t d /\ helm3 F t d.
Definition open2 (U : R -> R -> Prop) : Prop := forall t d, U t d -> locally_2d U t d.
Record der := mkDer { d0 : R; d1 : R; d2 : R; d3 : R }.
Definition jet1 (V : R -> Prop) (f : R -> der) : Prop := forall x : R, V x ->
  is_derive (fun u : R => d0 (f u)) x (d1 (f x)) /\ is_derive (fun u : R => d1 (f u)) x (d2 (f x)) /\ is_derive (fun u : R => d2 (f u)) x (d3 (f x)).

Lemma helm_eq : forall a b : helm, h0 a = h0 b -> hT a = hT b -> hD a = hD b -> hTT a = hTT b -> hTD a = hTD b -> hDD a = hDD b ->
  hTTT a = hTTT b -> hTTD a = hTTD b -> hTDD a = hTDD b -> hDDD a = hDDD b -> a = b.
Proof. intros [a0 a1 a2 a3 a4 a5 a6 a7 a8 a9] [b0 b1 b2 b3 b4 b5 b6 b7 b8 b9]; cbn. intros. subst. reflexivity. Qed.

Lemma jet_ext : forall (U : R -> R -> Prop) F G, open2 U -> (forall t d, U t d -> F t d = G t d) -> jet U F -> jet U G.
Proof.
  intros U F G HO HE HF t d HU. destruct (HF t d HU) as [A [[B1 B2] [C1 [C2 C3]]]].
  unfold helm1 in A. cbv beta in A.
  assert (L : locally_2d (fun u v => F u v = G u v) t d).
  { destruct (HO t d HU) as [e He]. exists e. intros u v Hu Hv. apply HE. now apply He. }
  assert (X : forall p : helm -> R, locally_2d (fun u v => p (F u v) = p (G u v)) t d).
  { intro p. destruct L as [e He]. exists e. intros u v Hu Hv. now rewrite He. }
  rewrite (HE t d HU) in A, B1, B2, C1, C2, C3.
  split; [|split; [split|split; [|split]]].
  - exact (e_ext_loc _ _ _ _ _ _ (X h0) A).
  - exact (e_ext_loc _ _ _ _ _ _ (X hT) B1). - exact (e_ext_loc _ _ _ _ _ _ (X hD) B2).
  - exact (e_ext_loc _ _ _ _ _ _ (X hTT) C1). - exact (e_ext_loc _ _ _ _ _ _ (X hTD) C2). - exact (e_ext_loc _ _ _ _ _ _ (X hDD) C3).
Qed.
Lemma jet_sub : forall (U V : R -> R -> Prop) F, (forall t d, V t d -> U t d) -> jet U F -> jet V F.
Proof. intros U V F H HF t d HV. apply HF. now apply H. Qed.

Ltac hp := cbn [h0 hT hD hTT hTD hDD hTTT hTTD hTDD hDDD d0 d1 d2 d3].
Ltac jet_start HF t d HU := let H := fresh "H" in assert (H := HF t d HU); unfold helm1, helm2, helm3 in H; cbv beta in H; destruct H as [? [[? ?] [? [? ?]]]].
Ltac jsplit := unfold helm1, helm2, helm3; split; [|split; [split|split; [|split]]].

Lemma jet_zero : forall U, jet U (fun _ _ => hzero).
Proof. intros U t d _. jsplit; hp; unfold hzero; hp; apply e_const. Qed.
Lemma jet_add : forall (U : R -> R -> Prop) F G, jet U F -> jet U G -> jet U (fun t d => hadd (F t d) (G t d)).
Proof. intros U F G HF HG t d HU. jet_start HF t d HU. jet_start HG t d HU. jsplit; unfold hadd; hp; now apply e_plus. Qed.
Lemma jet_fold : forall (X : Type) U (f : X -> R -> R -> helm) (l : list X) s, jet U s -> (forall x, In x l -> jet U (f x)) ->
  jet U (fun t d => fold_left (fun s x => hadd s (f x t d)) l (s t d)).
Proof.
  intros X U f l. induction l as [|x l IH]; intros s Hs H; cbn; [exact Hs|]. apply (IH (fun t d => hadd (s t d) (f x t d))).
  - apply jet_add; [exact Hs|]. apply H. now left.
  - intros y Hy. apply H. now right.
Qed.
Lemma jet_sum : forall (X : Type) U (f : X -> R -> R -> helm) (l : list X), (forall x, In x l -> jet U (f x)) -> jet U (fun t d => hsum (fun x => f x t d) l).
Proof. intros X U f l H. unfold hsum. apply (jet_fold X U f l (fun _ _ => hzero)); [apply jet_zero|exact H]. Qed.

Definition hmul (a b : helm) : helm :=
  mkHelm (h0 a * h0 b) (hT a * h0 b + h0 a * hT b) (hD a * h0 b + h0 a * hD b)
    (hTT a * h0 b + 2 * hT a * hT b + h0 a * hTT b) (hTD a * h0 b + hT a * hD b + hD a * hT b + h0 a * hTD b) (hDD a * h0 b + 2 * hD a * hD b + h0 a * hDD b)
    (hTTT a * h0 b + 3 * hTT a * hT b + 3 * hT a * hTT b + h0 a * hTTT b)
    (hTTD a * h0 b + hTT a * hD b + 2 * hTD a * hT b + 2 * hT a * hTD b + hD a * hTT b + h0 a * hTTD b)
    (hTDD a * h0 b + hDD a * hT b + 2 * hTD a * hD b + 2 * hD a * hTD b + hT a * hDD b + h0 a * hTDD b)
    (hDDD a * h0 b + 3 * hDD a * hD b + 3 * hD a * hDD b + h0 a * hDDD b).
Lemma jet_mul : forall (U : R -> R -> Prop) F G, jet U F -> jet U G -> jet U (fun t d => hmul (F t d) (G t d)).
Proof.
  intros U F G HF HG t d HU. jet_start HF t d HU. jet_start HG t d HU.
  jsplit; unfold hmul; hp; (eapply e_eq; [er|cbv beta; ring|cbv beta; ring]).
Qed.
Definition hcomp (g : R -> der) (x : helm) : helm :=
  let y := g (h0 x) in
  mkHelm (d0 y) (d1 y * hT x) (d1 y * hD x) (d2 y * hT x * hT x + d1 y * hTT x) (d2 y * hT x * hD x + d1 y * hTD x) (d2 y * hD x * hD x + d1 y * hDD x)
    (d3 y * hT x * hT x * hT x + 3 * d2 y * hT x * hTT x + d1 y * hTTT x)
    (d3 y * hT x * hT x * hD x + d2 y * (hTT x * hD x + 2 * hT x * hTD x) + d1 y * hTTD x)
    (d3 y * hD x * hD x * hT x + d2 y * (hDD x * hT x + 2 * hD x * hTD x) + d1 y * hTDD x)
    (d3 y * hD x * hD x * hD x + 3 * d2 y * hD x * hDD x + d1 y * hDDD x).
Lemma jet_comp : forall (V : R -> Prop) (g : R -> der) (U : R -> R -> Prop) F, jet1 V g -> jet U F -> (forall t d, U t d -> V (h0 (F t d))) -> jet U (fun t d => hcomp g (F t d)).
Proof.
  intros V g U F Hg HF HV t d HU. jet_start HF t d HU. destruct (Hg _ (HV t d HU)) as [G0 [G1 G2]].
  assert (K0 := e_comp (fun u => d0 (g u)) _ _ _ _ _ _ H G0). assert (K1 := e_comp (fun u => d1 (g u)) _ _ _ _ _ _ H G1). assert (K2 := e_comp (fun u => d2 (g u)) _ _ _ _ _ _ H G2).
  cbv beta in K0, K1, K2.
  jsplit; unfold hcomp; cbv zeta; hp; (eapply e_eq; [er|cbv beta; ring|cbv beta; ring]).
Qed.
(** a function of the first variable times a function of the second *)
Definition hsep (f g : der) : helm :=
  mkHelm (d0 f * d0 g) (d1 f * d0 g) (d0 f * d1 g) (d2 f * d0 g) (d1 f * d1 g) (d0 f * d2 g) (d3 f * d0 g) (d2 f * d1 g) (d1 f * d2 g) (d0 f * d3 g).
Lemma e_snd1 : forall (f : R -> R) (x y l : R), is_derive f y l -> diff2 (fun _ v => f v) x y 0 l.
Proof. intros f x y l H. eapply e_eq; [apply (e_comp f (fun _ v => v) x y 0 1 l); [apply e_snd|exact H]|ring|ring]. Qed.
Lemma jet_sep : forall (V W : R -> Prop) (f g : R -> der) (U : R -> R -> Prop), jet1 V f -> jet1 W g -> (forall t d, U t d -> V t /\ W d) -> jet U (fun t d => hsep (f t) (g d)).
Proof.
  intros V W f g U Hf Hg HU t d Ht. destruct (HU t d Ht) as [Vt Wd]. destruct (Hf t Vt) as [A [B C]]. destruct (Hg d Wd) as [A' [B' C']].
  assert (A2 := e_fst1 _ t d _ A). assert (B2 := e_fst1 _ t d _ B). assert (C2 := e_fst1 _ t d _ C).
  assert (A2' := e_snd1 _ t d _ A'). assert (B2' := e_snd1 _ t d _ B'). assert (C2' := e_snd1 _ t d _ C').
  jsplit; unfold hsep; hp; (eapply e_eq; [er|cbv beta; ring|cbv beta; ring]).
Qed.
(** new variables: a function of the first, a multiple of the second *)
Definition hsub (a : der) (k : R) (x : helm) : helm :=
  mkHelm (h0 x) (hT x * d1 a) (hD x * k) (hTT x * d1 a * d1 a + hT x * d2 a) (hTD x * d1 a * k) (hDD x * k * k)
    (hTTT x * d1 a * d1 a * d1 a + 3 * hTT x * d1 a * d2 a + hT x * d3 a) (hTTD x * d1 a * d1 a * k + hTD x * d2 a * k) (hTDD x * d1 a * k * k) (hDDD x * k * k * k).
Lemma jet_sub_var : forall (V : R -> Prop) (a : R -> der) (k : R) (U : R -> R -> Prop) F, jet1 V a -> jet U F ->
  jet (fun t d => V t /\ U (d0 (a t)) (d * k)) (fun t d => hsub (a t) k (F (d0 (a t)) (d * k))).
Proof.
  intros V a k U F Ha HF t d [Vt Ut]. destruct (Ha t Vt) as [A [B C]]. jet_start HF (d0 (a t)) (d * k) Ut.
  assert (A2 := e_fst1 _ t d _ A). assert (B2 := e_fst1 _ t d _ B). assert (C2 := e_fst1 _ t d _ C).
  assert (KD : diff2 (fun _ v : R => v * k) t d 0 k) by (eapply e_eq; [er|cbv beta; ring|cbv beta; ring]).
  assert (K0 := e_comp2 _ (fun u _ => d0 (a u)) (fun _ v => v * k) t d _ _ _ _ _ _ H A2 KD).
  assert (K1 := e_comp2 _ (fun u _ => d0 (a u)) (fun _ v => v * k) t d _ _ _ _ _ _ H0 A2 KD).
  assert (K2 := e_comp2 _ (fun u _ => d0 (a u)) (fun _ v => v * k) t d _ _ _ _ _ _ H1 A2 KD).
  assert (K3 := e_comp2 _ (fun u _ => d0 (a u)) (fun _ v => v * k) t d _ _ _ _ _ _ H2 A2 KD).
  assert (K4 := e_comp2 _ (fun u _ => d0 (a u)) (fun _ v => v * k) t d _ _ _ _ _ _ H3 A2 KD).
  assert (K5 := e_comp2 _ (fun u _ => d0 (a u)) (fun _ v => v * k) t d _ _ _ _ _ _ H4 A2 KD).
  cbv beta in K0, K1, K2, K3, K4, K5.
  jsplit; unfold hsub; hp; (eapply e_eq; [er|cbv beta; ring|cbv beta; ring]).
Qed.

(** functions of one variable *)
Lemma jet1_const : forall V (c : R), jet1 V (fun _ => mkDer c 0 0 0).
Proof. intros V c x _. split; [|split]; cbn; apply d_const. Qed.
Lemma jet1_id : forall V, jet1 V (fun x => mkDer x 1 0 0).
Proof. intros V x _. split; [|split]; cbn; [apply d_id|apply d_const..]. Qed.
Definition dmul (a b : der) : der :=
  mkDer (d0 a * d0 b) (d1 a * d0 b + d0 a * d1 b) (d2 a * d0 b + 2 * d1 a * d1 b + d0 a * d2 b) (d3 a * d0 b + 3 * d2 a * d1 b + 3 * d1 a * d2 b + d0 a * d3 b).
Lemma jet1_mul : forall V f g, jet1 V f -> jet1 V g -> jet1 V (fun x => dmul (f x) (g x)).
Proof.
  intros V f g Hf Hg x Vx. destruct (Hf x Vx) as [A [B C]]. destruct (Hg x Vx) as [A' [B' C']]. split; [|split]; unfold dmul; hp.
  - eapply d_eq; [exact (d_mult _ _ _ _ _ A A')|cbv beta; ring].
  - eapply d_eq; [exact (d_plus _ _ _ _ _ (d_mult _ _ _ _ _ B A') (d_mult _ _ _ _ _ A B'))|cbv beta; ring].
  - eapply d_eq; [exact (d_plus _ _ _ _ _ (d_plus _ _ _ _ _ (d_mult _ _ _ _ _ C A') (d_mult _ _ _ _ _ (d_scal _ 2 _ _ B) B')) (d_mult _ _ _ _ _ A C'))|cbv beta; ring].
Qed.
Definition dadd (a b : der) : der := mkDer (d0 a + d0 b) (d1 a + d1 b) (d2 a + d2 b) (d3 a + d3 b).
Lemma jet1_add : forall V f g, jet1 V f -> jet1 V g -> jet1 V (fun x => dadd (f x) (g x)).
Proof. intros V f g Hf Hg x Vx. destruct (Hf x Vx) as [A [B C]]. destruct (Hg x Vx) as [A' [B' C']]. split; [|split]; unfold dadd; hp; now apply d_plus. Qed.
Definition dcomp (g : R -> der) (a : der) : der :=
  let y := g (d0 a) in mkDer (d0 y) (d1 y * d1 a) (d2 y * d1 a * d1 a + d1 y * d2 a) (d3 y * d1 a * d1 a * d1 a + 3 * d2 y * d1 a * d2 a + d1 y * d3 a).
Lemma jet1_comp : forall (W V : R -> Prop) g f, jet1 W g -> jet1 V f -> (forall x, V x -> W (d0 (f x))) -> jet1 V (fun x => dcomp g (f x)).
Proof.
  intros W V g f Hg Hf HW x Vx. destruct (Hf x Vx) as [A [B C]]. destruct (Hg _ (HW x Vx)) as [A' [B' C']].
  assert (K0 := d_comp (fun u => d0 (g u)) _ _ _ _ A' A). assert (K1 := d_comp (fun u => d1 (g u)) _ _ _ _ B' A). assert (K2 := d_comp (fun u => d2 (g u)) _ _ _ _ C' A). cbv beta in K0, K1, K2.
  split; [|split]; unfold dcomp; cbv zeta; hp.
  - exact K0.
  - eapply d_eq; [exact (d_mult _ _ _ _ _ K1 B)|cbv beta; ring].
  - eapply d_eq; [exact (d_plus _ _ _ _ _ (d_mult _ _ _ _ _ (d_mult _ _ _ _ _ K2 B) B) (d_mult _ _ _ _ _ K1 C))|cbv beta; ring].
Qed.
Lemma jet1_sub : forall (V W : R -> Prop) f, (forall x, W x -> V x) -> jet1 V f -> jet1 W f.
Proof. intros V W f H HF x Wx. apply HF. now apply H. Qed.
Definition open1 (V : R -> Prop) : Prop := forall x : R, V x -> locally x V.
Lemma jet1_ext : forall V f g, open1 V -> (forall x, V x -> f x = g x) -> jet1 V f -> jet1 V g.
Proof.
  intros V f g HO HE Hf x Vx. destruct (Hf x Vx) as [A [B C]]. rewrite (HE x Vx) in A, B, C.
  assert (X : forall p : der -> R, locally x (fun u => p (f u) = p (g u))).
  { intro p. destruct (HO x Vx) as [e He]. exists e. intros u Hu. now rewrite HE by (apply He; exact Hu). }
  split; [|split]; eapply is_derive_ext_loc; try eassumption; [exact (X d0)|exact (X d1)|exact (X d2)].
Qed.
(** exp, ln, inverse, powers *)
Definition anyx (x : R) : Prop := True.
Definition posx (x : R) : Prop := 0 < x.
Definition nzx (x : R) : Prop := x <> 0.
Lemma jet1_exp : jet1 anyx (fun x => mkDer (exp x) (exp x) (exp x) (exp x)).
Proof. intros x _. assert (H : is_derive (fun u : R => exp u) x (exp x)) by (eapply d_eq; [exact (d_exp (fun t => t) x 1 (d_id x))|cbv beta; ring]). split; [|split]; exact H. Qed.
Lemma jet1_inv : jet1 nzx (fun x => mkDer (/ x) (- / x ^ 2) (2 / x ^ 3) (-6 / x ^ 4)).
Proof.
  intros x Hx. unfold nzx in Hx. assert (P2 : x ^ 2 <> 0) by now apply pow_nonzero. assert (P3 : x ^ 3 <> 0) by now apply pow_nonzero. split; [|split]; cbn [d0 d1 d2 d3].
  - eapply d_eq; [exact (d_inv (fun t => t) x 1 (d_id x) Hx)|cbv beta; field; exact Hx].
  - eapply d_eq; [exact (d_opp _ _ _ (d_inv _ x _ (d_pow (fun t => t) 2 x 1 (d_id x)) P2))|cbn; field; exact Hx].
  - eapply d_eq; [exact (d_div (fun _ => 2) _ x _ _ (d_const 2 x) (d_pow (fun t => t) 3 x 1 (d_id x)) P3)|cbn; field; exact Hx].
Qed.
Lemma jet1_ln : jet1 posx (fun x => mkDer (ln x) (/ x) (- / x ^ 2) (2 / x ^ 3)).
Proof.
  intros x Hx. unfold posx in Hx. assert (Hx' : x <> 0) by lra. destruct (jet1_inv x Hx') as [A [B _]]. cbn [d0 d1 d2 d3] in A, B.
  split; [|split]; [|exact A|exact B]. cbn [d0 d1]. eapply d_eq; [exact (d_ln (fun t => t) x 1 (d_id x) Hx)|unfold Rdiv; ring].
Qed.
Lemma powp : forall (x : R) (n : nat), x <> 0 -> INR n * x ^ pred n = INR n * x ^ n / x.
Proof. intros x [|n] Hx; [cbn; unfold Rdiv; ring|]. cbn [pred pow]. field. exact Hx. Qed.
Lemma jet1_pow : forall n : nat, jet1 nzx (fun x => mkDer (x ^ n) (INR n / x * x ^ n) ((INR n - 1) / x * (INR n / x * x ^ n)) ((INR n - 2) / x * ((INR n - 1) / x * (INR n / x * x ^ n)))).
Proof.
  intros n x Hx. unfold nzx in Hx. assert (A : is_derive (fun u : R => u ^ n) x (INR n / x * x ^ n)).
  { eapply d_eq; [exact (d_pow (fun t => t) n x 1 (d_id x))|]. rewrite Rmult_1_r, powp by exact Hx. unfold Rdiv. ring. }
  assert (Q : forall c : R, is_derive (fun u : R => c / u) x (- c / x ^ 2)) by (intro c; eapply d_eq; [exact (d_div (fun _ => c) (fun t => t) x _ _ (d_const c x) (d_id x) Hx)|cbv beta; field; exact Hx]).
  assert (B := d_mult _ _ _ _ _ (Q (INR n)) A). assert (C := d_mult _ _ _ _ _ (Q (INR n - 1)) B). cbv beta in B, C.
  split; [|split]; cbn [d0 d1 d2 d3]; [exact A| |].
  - eapply d_eq; [exact B|field; exact Hx].
  - eapply d_eq; [exact C|field; exact Hx].
Qed.
Lemma jet1_Rpower : forall e : R, jet1 posx (fun x => mkDer (Rpower x e) (e / x * Rpower x e) ((e - 1) / x * (e / x * Rpower x e)) ((e - 2) / x * ((e - 1) / x * (e / x * Rpower x e)))).
Proof.
  intros e x Hx. unfold posx in Hx. assert (N : x <> 0) by lra. assert (A : is_derive (fun u : R => Rpower u e) x (e / x * Rpower x e)).
  { eapply d_eq; [exact (d_Rpower (fun t => t) e x 1 (d_id x) Hx)|]. unfold Rminus. rewrite Rpower_plus, Rpower_Ropp, Rpower_1 by exact Hx. field. exact N. }
  assert (Q : forall c : R, is_derive (fun u : R => c / u) x (- c / x ^ 2)) by (intro c; eapply d_eq; [exact (d_div (fun _ => c) (fun t => t) x _ _ (d_const c x) (d_id x) N)|cbv beta; field; exact N]).
  assert (B := d_mult _ _ _ _ _ (Q e) A). assert (C := d_mult _ _ _ _ _ (Q (e - 1)) B). cbv beta in B, C.
  split; [|split]; cbn [d0 d1 d2 d3]; [exact A| |].
  - eapply d_eq; [exact B|field; exact N].
  - eapply d_eq; [exact C|field; exact N].
Qed.
