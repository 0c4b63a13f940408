(** The equation of Haar, Gallagher and Kell at vanishing density.  *)
From Coq Require Import List Bool ZArith Reals Lra Lia.
From Coquelicot Require Import Coquelicot.
From Verif Require Import RDeriv RDiff2 RImplicit WaterModel WaterSpec HelmModel HelmJet HelmProofs HelmMore SoluteProofs HelmHgk GemsModel GemsSpec GemsJet GemsBase GemsTotal GemsIso.
Import ListNotations.
Open Scope R_scope.

(** *** bounded near zero *)
Definition bnd (f : R -> R) : Prop := exists M e, 0 <= M /\ 0 < e /\ forall d, 0 < d < e -> Rabs (f d) <= M.
Lemma bnd_le : forall (f : R -> R) M e, 0 < e -> (forall d, 0 < d < e -> Rabs (f d) <= M) -> bnd f.
Proof. intros f M e He H. exists M, e. split; [|split; [exact He|exact H]]. assert (X := H (e / 2) ltac:(lra)). assert (Y := Rabs_pos (f (e / 2))). lra. Qed.
Lemma bnd_const : forall c, bnd (fun _ => c). Proof. intro c. apply (bnd_le _ (Rabs c) 1); [lra|]. intros. apply Rle_refl. Qed.
Lemma bnd_id : bnd (fun d => d). Proof. apply (bnd_le _ 1 1); [lra|]. intros d H. rewrite Rabs_pos_eq; lra. Qed.
Lemma two_e : forall (P Q : R -> Prop) e1 e2, 0 < e1 -> 0 < e2 -> (forall d, 0 < d < e1 -> P d) -> (forall d, 0 < d < e2 -> Q d) -> 0 < Rmin e1 e2 /\ forall d, 0 < d < Rmin e1 e2 -> P d /\ Q d.
Proof. intros P Q e1 e2 H1 H2 A B. split; [now apply Rmin_pos|]. intros d H. assert (L1 := Rmin_l e1 e2). assert (L2 := Rmin_r e1 e2). split; [apply A|apply B]; lra. Qed.
Lemma bnd_plus : forall f g, bnd f -> bnd g -> bnd (fun d => f d + g d).
Proof.
  intros f g [M [e [_ [He A]]]] [N [e' [_ [He' B]]]]. destruct (two_e _ _ _ _ He He' A B) as [E C]. apply (bnd_le _ (M + N) _ E). intros d H. destruct (C d H) as [X Y]. assert (Z := Rabs_triang (f d) (g d)). lra.
Qed.
Lemma bnd_mult : forall f g, bnd f -> bnd g -> bnd (fun d => f d * g d).
Proof.
  intros f g [M [e [HM [He A]]]] [N [e' [HN [He' B]]]]. destruct (two_e _ _ _ _ He He' A B) as [E C]. apply (bnd_le _ (M * N) _ E). intros d H. destruct (C d H) as [X Y]. rewrite Rabs_mult. apply Rmult_le_compat; [apply Rabs_pos|apply Rabs_pos|exact X|exact Y].
Qed.
Lemma bnd_opp : forall f, bnd f -> bnd (fun d => - f d).
Proof. intros f [M [e [HM [He A]]]]. apply (bnd_le _ M e He). intros d H. rewrite Rabs_Ropp. now apply A. Qed.
Lemma bnd_minus : forall f g, bnd f -> bnd g -> bnd (fun d => f d - g d).
Proof. intros f g A B. unfold Rminus. apply (bnd_plus f (fun d => - g d) A). now apply bnd_opp. Qed.
Lemma bnd_exp : forall f, bnd f -> bnd (fun d => exp (f d)).
Proof.
  intros f [M [e [HM [He A]]]]. apply (bnd_le _ (exp M) e He). intros d H. assert (X := A d H). rewrite Rabs_pos_eq by (left; apply exp_pos). assert (Y := Rle_abs (f d)). destruct (Rle_lt_or_eq_dec (f d) M ltac:(lra)) as [Z|Z]; [left; now apply exp_increasing|rewrite Z; apply Rle_refl].
Qed.
Lemma bnd_pow : forall f n, bnd f -> bnd (fun d => f d ^ n).
Proof. intros f n H. induction n as [|n IH]; [apply (bnd_const 1)|]. exact (bnd_mult f (fun d => f d ^ n) H IH). Qed.
Lemma bnd_ext : forall (f g : R -> R) e, 0 < e -> (forall d, 0 < d < e -> f d = g d) -> bnd f -> bnd g.
Proof. intros f g e He E [M [e' [HM [He' A]]]]. destruct (two_e _ _ _ _ He He' E A) as [Z C]. apply (bnd_le _ M _ Z). intros d H. destruct (C d H) as [X Y]. now rewrite <- X. Qed.
(** the inverse of what stays away from zero *)
Lemma bnd_inv : forall (f : R -> R) c e, 0 < c -> 0 < e -> (forall d, 0 < d < e -> c <= Rabs (f d)) -> bnd (fun d => / f d).
Proof.
  intros f c e Hc He H. apply (bnd_le _ (/ c) e He). intros d Hd. assert (X := H d Hd). rewrite Rabs_inv. apply Rinv_le_contravar; assumption.
Qed.
Lemma bnd_if : forall (P : R -> Prop) (dec : forall d, {P d} + {~ P d}) (X : Type) (f g : R -> X) (p : X -> R), bnd (fun d => p (f d)) -> bnd (fun d => p (g d)) -> bnd (fun d => p (if dec d then f d else g d)).
Proof.
  intros P dec X f g p [M [e [HM [He A]]]] [N [e' [HN [He' B]]]]. destruct (two_e _ _ _ _ He He' A B) as [E C]. apply (bnd_le _ (M + N) _ E). intros d H. destruct (C d H) as [U V]. destruct (dec d); lra.
Qed.
Ltac bd := first [ assumption | lazymatch goal with |- bnd (fun _ => ?c) => apply (bnd_const c) | |- bnd (fun d => d) => apply bnd_id end
  | lazymatch goal with
    | |- bnd (fun d => @?f d + @?g d) => apply (bnd_plus f g); [bd|bd]
    | |- bnd (fun d => @?f d - @?g d) => apply (bnd_minus f g); [bd|bd]
    | |- bnd (fun d => - @?f d) => apply (bnd_opp f); bd
    | |- bnd (fun d => @?f d * @?g d) => apply (bnd_mult f g); [bd|bd]
    | |- bnd (fun d => @?f d / @?g d) => apply (bnd_mult f (fun d => / g d)); [bd|cbv beta; bd]
    | |- bnd (fun d => @?f d ^ ?n) => apply (bnd_pow f n); bd
    | |- bnd (fun d => exp (@?f d)) => apply (bnd_exp f); bd
    end | idtac ].
(** tables whose entries are bounded *)
Definition db (F : R -> der) : Prop := bnd (fun d => d0 (F d)) /\ bnd (fun d => d1 (F d)) /\ bnd (fun d => d2 (F d)) /\ bnd (fun d => d3 (F d)).
Definition hbd (F : R -> helm) : Prop := bnd (fun d => h0 (F d)) /\ bnd (fun d => hT (F d)) /\ bnd (fun d => hD (F d)) /\ bnd (fun d => hTT (F d)) /\ bnd (fun d => hTD (F d)) /\ bnd (fun d => hDD (F d)) /\
  bnd (fun d => hTTT (F d)) /\ bnd (fun d => hTTD (F d)) /\ bnd (fun d => hTDD (F d)) /\ bnd (fun d => hDDD (F d)).
Ltac sp := repeat match goal with |- _ /\ _ => split end.
Ltac dst H := repeat match type of H with _ /\ _ => let K := fresh in destruct H as [K H] end.
Lemma db_const : forall c, db (fun _ => c). Proof. intro c. unfold db. sp; apply bnd_const. Qed.
Lemma db_mul : forall F G, db F -> db G -> db (fun d => dmul (F d) (G d)).
Proof. intros F G HF HG. unfold db in *. dst HF. dst HG. unfold dmul. cbn [d0 d1 d2 d3]. sp; bd. Qed.
Lemma db_comp : forall (g : R -> der) F, db (fun d => g (d0 (F d))) -> db F -> db (fun d => dcomp g (F d)).
Proof. intros g F HG HF. unfold db in *. dst HF. dst HG. unfold dcomp. cbv zeta. cbn [d0 d1 d2 d3]. sp; bd. Qed.
Lemma hbd_sep : forall F G, db F -> db G -> hbd (fun d => hsep (F d) (G d)).
Proof. intros F G HF HG. unfold db, hbd in *. dst HF. dst HG. unfold hsep. cbn [h0 hT hD hTT hTD hDD hTTT hTTD hTDD hDDD]. sp; bd. Qed.
Lemma hbd_add : forall F G, hbd F -> hbd G -> hbd (fun d => hadd (F d) (G d)).
Proof. intros F G HF HG. unfold hbd in *. dst HF. dst HG. unfold hadd. cbn [h0 hT hD hTT hTD hDD hTTT hTTD hTDD hDDD]. sp; bd. Qed.
Lemma hbd_mul : forall F G, hbd F -> hbd G -> hbd (fun d => hmul (F d) (G d)).
Proof. intros F G HF HG. unfold hbd in *. dst HF. dst HG. unfold hmul. cbn [h0 hT hD hTT hTD hDD hTTT hTTD hTDD hDDD]. sp; bd. Qed.
Lemma hbd_comp : forall (g : R -> der) F, db (fun d => g (h0 (F d))) -> hbd F -> hbd (fun d => hcomp g (F d)).
Proof. intros g F HG HF. unfold db, hbd in *. dst HF. dst HG. unfold hcomp. cbv zeta. cbn [h0 hT hD hTT hTD hDD hTTT hTTD hTDD hDDD]. sp; bd. Qed.
Lemma hbd_sum : forall (X : Type) (F : X -> R -> helm) (l : list X), (forall x, In x l -> hbd (F x)) -> hbd (fun d => hsum (fun x => F x d) l).
Proof.
  intros X F l H. unfold hsum. assert (G : forall l (h : R -> helm), (forall x, In x l -> hbd (F x)) -> hbd h -> hbd (fun d => fold_left (fun s x => hadd s (F x d)) l (h d))).
  { clear l H. induction l as [|x l IH]; intros h H Z; cbn [fold_left]; [exact Z|]. apply (IH (fun d => hadd (h d) (F x d))); [intros y Hy; apply H; now right|]. apply hbd_add; [exact Z|]. apply H. now left. }
  apply (G l (fun _ => hzero) H). unfold hbd. sp; apply bnd_const.
Qed.
(** *** the pieces *)
Lemma db_pow : forall n (f : R -> R), bnd f -> bnd (fun d => / f d) -> db (fun d => dpow n (f d)).
Proof. intros n f A B. unfold db, dpow. cbn [d0 d1 d2 d3]. sp; bd. Qed.
Lemma pow1 : forall n x, x <> 0 -> INR (S n) / x * x ^ S n = INR (S n) * x ^ n. Proof. intros n x H. cbn [pow]. field. exact H. Qed.
Lemma db_pow0 : forall n (f : R -> R) e, 0 < e -> (forall d, 0 < d < e -> f d <> 0) -> bnd f -> db (fun d => dpow (S n) (f d)).
Proof.
  intros n f e He N A. unfold db, dpow. cbn [d0 d1 d2 d3]. split; [bd|]. split; [|split].
  - apply (bnd_ext (fun d => INR (S n) * f d ^ n) _ e He); [intros d Hd; now rewrite (pow1 n (f d) (N d Hd))|bd].
  - apply (bnd_ext (fun d => (INR (S n) - 1) * INR (S n) * f d ^ (n - 1)) _ e He).
    + intros d Hd. assert (Z := N d Hd). rewrite (pow1 n (f d) Z). destruct n as [|n]; [cbn [INR Nat.sub pow]; field; exact Z|]. replace (S n - 1)%nat with n by lia. cbn [pow]. field. exact Z.
    + bd.
  - apply (bnd_ext (fun d => (INR (S n) - 2) * (INR (S n) - 1) * INR (S n) * f d ^ (n - 2)) _ e He).
    + intros d Hd. assert (Z := N d Hd). rewrite (pow1 n (f d) Z). destruct n as [|[|n]]; [cbn [INR Nat.sub pow]; field; exact Z|cbn [INR Nat.sub pow]; field; exact Z|]. replace (S (S n) - 2)%nat with n by lia. cbn [pow]. field. exact Z.
    + bd.
Qed.
Lemma b_F36 : forall x t, hbd (F36 x t).
Proof.
  intros x t. unfold F36. apply (hbd_sep (fun _ => dmul (cst (tz ^ (a_jj x - 1))) (dnp (a_jj x - 1) t)) (fun d => dmul (cst (a_g x / INR (S (a_ii x)))) (dcomp (dpow (S (a_ii x))) (dq d)))); [apply db_const|].
  apply (db_mul (fun _ => cst (a_g x / INR (S (a_ii x))))); [apply db_const|]. apply db_comp.
  - apply (db_pow0 (a_ii x) (fun d => d0 (dq d)) 1); [lra| |unfold dq; cbn [d0]; bd].
    intros d [Hd _]. unfold dq. cbn [d0]. assert (E : exp (- aa * d) < 1) by (rewrite <- exp_0; apply exp_increasing; unfold aa; lra). lra.
  - unfold db, dq. cbn [d0 d1 d2 d3]. sp; bd.
Qed.
Lemma b_F4 : forall x t, 0 < e_dz x -> hbd (F4 x t).
Proof.
  intros x t Hz. unfold F4. apply (hbd_sep (fun _ => dT4 x t) (fun d => dmul (cst (e_g x)) (dD4 x d))); [apply db_const|]. apply (db_mul (fun _ => cst (e_g x))); [apply db_const|].
  assert (A : bnd (fun d => d / e_dz x - 1)) by bd.
  assert (B : bnd (fun d => / (d / e_dz x - 1))).
  { apply (bnd_inv _ (1 / 2) (e_dz x / 2)); [lra|lra|]. intros d Hd. assert (Q : d / e_dz x < 1 / 2) by (apply Rmult_lt_reg_r with (e_dz x); [exact Hz|]; unfold Rdiv at 1; rewrite Rmult_assoc, Rinv_l by lra; lra). rewrite Rabs_left by lra. lra. }
  assert (G : db (fun d => dmul (dcomp (dpow (e_km x)) (aff (e_dz x) d)) (dcomp dexp (dmul (cst (- e_ad x)) (dcomp (dpow (e_k x)) (aff (e_dz x) d)))))).
  { assert (F : db (aff (e_dz x))) by (unfold db, aff; cbn [d0 d1 d2 d3]; sp; bd).
    assert (K : forall n, db (fun d => dcomp (dpow n) (aff (e_dz x) d))) by (intro n; apply db_comp; [now apply (db_pow n (fun d => d / e_dz x - 1))|exact F]).
    apply db_mul; [apply K|]. assert (L : db (fun d => dmul (cst (- e_ad x)) (dcomp (dpow (e_k x)) (aff (e_dz x) d)))) by (apply (db_mul (fun _ => cst (- e_ad x))); [apply db_const|apply K]).
    apply db_comp; [|exact L]. destruct L as [L0 _]. unfold db, dexp. cbn [d0 d1 d2 d3]. sp; apply bnd_exp; exact L0. }
  destruct G as (G0 & G1 & G2 & G3). unfold db, dD4.
  sp; apply (bnd_if (fun d => ex1' x d < EXPTOL) (fun d => Rlt_dec (ex1' x d) EXPTOL) der (fun _ => cst 0)); try assumption; apply bnd_const.
Qed.
Lemma b_P1 : forall t, hbd (P1 t).
Proof.
  intro t. unfold P1. apply (hbd_mul (fun _ => hsep (dRT t) (cst 1)) (fun d => hcomp dphi (Yb t d))); [unfold hbd; sp; apply bnd_const|].
  assert (Y : hbd (Yb t)) by (unfold Yb; apply (hbd_sep (fun _ => dmul (cst (25 / 100)) (dB1 t)) (fun d => mkDer d 1 0 0)); [apply db_const|unfold db; cbn [d0 d1 d2 d3]; sp; bd]).
  apply hbd_comp; [|exact Y]. set (c := d0 (dmul (cst (25 / 100)) (dB1 t))). assert (E : forall d, h0 (Yb t d) = c * d) by reflexivity.
  assert (Q : exists e, 0 < e /\ forall d, 0 < d < e -> Rabs (c * d) <= 1 / 2).
  { exists (1 / (2 * (Rabs c + 1))). assert (U := Rabs_pos c). split; [apply Rdiv_lt_0_compat; lra|]. intros d [Hd Hd']. rewrite Rabs_mult, (Rabs_pos_eq d) by lra.
    apply Rle_trans with ((Rabs c + 1) * d); [nra|]. apply Rle_trans with ((Rabs c + 1) * (1 / (2 * (Rabs c + 1)))); [apply Rmult_le_compat_l; lra|]. right. field. lra. }
  destruct Q as [e [He Q]].
  assert (I : bnd (fun d => / (1 - h0 (Yb t d)))).
  { apply (bnd_inv _ (1 / 2) e); [lra|exact He|]. intros d Hd. assert (X := Q d Hd). rewrite E. apply Rabs_le_between in X. rewrite Rabs_pos_eq; lra. }
  assert (L : bnd (fun d => ln (1 - h0 (Yb t d)))).
  { apply (bnd_le _ (Rabs (ln (1 / 2)) + Rabs (ln (3 / 2))) e He). intros d Hd. assert (X := Q d Hd). rewrite E. apply Rabs_le_between in X.
    assert (L1 : ln (1 / 2) <= ln (1 - c * d)) by (apply ln_le; lra). assert (L2 : ln (1 - c * d) <= ln (3 / 2)) by (apply ln_le; lra).
    assert (A1 := Rle_abs (- ln (1 / 2))). rewrite Rabs_Ropp in A1. assert (A2 := Rle_abs (ln (3 / 2))). assert (A3 := Rabs_pos (ln (1 / 2))). assert (A4 := Rabs_pos (ln (3 / 2))). apply Rabs_le. lra. }
  unfold db, dphi. cbv zeta. cbn [d0 d1 d2 d3]. sp; bd.
Qed.
Lemma b_P2 : forall t, hbd (P2 t).
Proof. intro t. unfold P2. apply (hbd_sep (fun _ => dmul (dRT t) (dadd (dB2 t) (dmul (cst (- gf)) (dB1 t)))) (fun d => mkDer d 1 0 0)); [apply db_const|unfold db; cbn [d0 d1 d2 d3]; sp; bd]. Qed.
(** everything but the logarithm of the density *)
Definition Hreg (t d : R) : helm := hadd (hadd (P1 t d) (P2 t d)) (hadd (hsum (fun x => F36 x t d) terms36) (hsum (fun x => F4 x t d) terms4)).
Lemma b_reg : forall t, hbd (Hreg t).
Proof.
  intro t. unfold Hreg. apply hbd_add; [apply hbd_add; [apply b_P1|apply b_P2]|]. apply (hbd_add (fun d => hsum (fun x => F36 x t d) terms36) (fun d => hsum (fun x => F4 x t d) terms4)).
  - apply (hbd_sum _ (fun x => F36 x t)). intros. apply b_F36.
  - apply (hbd_sum _ (fun x => F4 x t)). intros x Hx. apply b_F4. unfold terms4 in Hx. inl Hx; cbn [e_dz]; lra.
Qed.
(** *** limits at zero, with their rate *)
Definition near0 (f : R -> R) (l : R) : Prop := exists M e, 0 <= M /\ 0 < e /\ forall d, 0 < d < e -> Rabs (f d - l) <= M * d.
Lemma n_const : forall c, near0 (fun _ => c) c. Proof. intro c. exists 0, 1. split; [lra|split; [lra|]]. intros d _. unfold Rminus. rewrite Rplus_opp_r, Rabs_R0. lra. Qed.
Lemma n_small : forall f, bnd f -> near0 (fun d => d * f d) 0.
Proof. intros f [M [e [HM [He A]]]]. exists M, e. split; [exact HM|split; [exact He|]]. intros d Hd. rewrite Rminus_0_r, Rabs_mult, (Rabs_pos_eq d) by lra. rewrite Rmult_comm. apply Rmult_le_compat_r; [lra|now apply A]. Qed.
Lemma n_plus : forall f g l m, near0 f l -> near0 g m -> near0 (fun d => f d + g d) (l + m).
Proof.
  intros f g l m [M [e [HM [He A]]]] [N [e' [HN [He' B]]]]. destruct (two_e _ _ _ _ He He' A B) as [E C]. exists (M + N), (Rmin e e'). split; [lra|split; [exact E|]]. intros d H. destruct (C d H) as [X Y].
  replace (f d + g d - (l + m)) with ((f d - l) + (g d - m)) by ring. assert (Z := Rabs_triang (f d - l) (g d - m)). lra.
Qed.
Lemma n_opp : forall f l, near0 f l -> near0 (fun d => - f d) (- l).
Proof. intros f l [M [e [HM [He A]]]]. exists M, e. split; [exact HM|split; [exact He|]]. intros d H. replace (- f d - - l) with (- (f d - l)) by ring. rewrite Rabs_Ropp. now apply A. Qed.
Lemma n_minus : forall f g l m, near0 f l -> near0 g m -> near0 (fun d => f d - g d) (l - m).
Proof. intros f g l m A B. exact (n_plus f (fun d => - g d) l (- m) A (n_opp g m B)). Qed.
Lemma n_bnd : forall f l, near0 f l -> bnd f.
Proof.
  intros f l [M [e [HM [He A]]]]. assert (E : 0 < Rmin e 1) by (apply Rmin_pos; lra). apply (bnd_le _ (M + Rabs l) _ E). intros d Hd. assert (L1 := Rmin_l e 1). assert (L2 := Rmin_r e 1). assert (X := A d ltac:(lra)).
  replace (f d) with ((f d - l) + l) by ring. assert (Z := Rabs_triang (f d - l) l). assert (M * d <= M * 1) by (apply Rmult_le_compat_l; lra). lra.
Qed.
Lemma n_mult : forall f g l m, near0 f l -> near0 g m -> near0 (fun d => f d * g d) (l * m).
Proof.
  intros f g l m HF [N [e' [HN [He' B]]]]. destruct (n_bnd f l HF) as [K [e2 [HK [He2 C]]]]. destruct HF as [M [e [HM [He A]]]].
  destruct (two_e _ _ _ _ He He' A B) as [E Q]. destruct (two_e _ _ _ _ E He2 Q C) as [E' Q']. exists (K * N + Rabs m * M), (Rmin (Rmin e e') e2). assert (Pm := Rabs_pos m). split; [nra|split; [exact E'|]].
  intros d Hd. destruct (Q' d Hd) as [[X Y] Z]. replace (f d * g d - l * m) with (f d * (g d - m) + m * (f d - l)) by ring.
  assert (T1 := Rabs_triang (f d * (g d - m)) (m * (f d - l))). rewrite !Rabs_mult in T1. assert (P1 := Rabs_pos (f d)). assert (P2 := Rabs_pos (g d - m)). assert (P3 := Rabs_pos (f d - l)).
  assert (U1 : Rabs (f d) * Rabs (g d - m) <= K * (N * d)) by (apply Rmult_le_compat; assumption). assert (U2 : Rabs m * Rabs (f d - l) <= Rabs m * (M * d)) by (apply Rmult_le_compat_l; assumption). lra.
Qed.
Lemma n_away : forall f l, near0 f l -> l <> 0 -> exists e, 0 < e /\ forall d, 0 < d < e -> Rabs l / 2 <= Rabs (f d).
Proof.
  intros f l [M [e [HM [He A]]]] Hl. assert (Lp := Rabs_pos_lt l Hl). assert (E : 0 < Rmin e (Rabs l / (2 * (M + 1)))) by (apply Rmin_pos; [exact He|apply Rdiv_lt_0_compat; lra]).
  exists (Rmin e (Rabs l / (2 * (M + 1)))). split; [exact E|]. intros d Hd. assert (L1 := Rmin_l e (Rabs l / (2 * (M + 1)))). assert (L2 := Rmin_r e (Rabs l / (2 * (M + 1)))). assert (X := A d ltac:(lra)).
  assert (Y : M * d <= Rabs l / 2).
  { apply Rle_trans with ((M + 1) * d); [nra|]. apply Rle_trans with ((M + 1) * (Rabs l / (2 * (M + 1)))); [apply Rmult_le_compat_l; lra|]. right. field. lra. }
  assert (Z := Rabs_triang (f d) (- (f d - l))). replace (f d + - (f d - l)) with l in Z by ring. rewrite Rabs_Ropp in Z. lra.
Qed.
Lemma n_nz : forall f l, near0 f l -> l <> 0 -> exists e, 0 < e /\ forall d, 0 < d < e -> f d <> 0.
Proof. intros f l H Hl. destruct (n_away f l H Hl) as [e [He A]]. exists e. split; [exact He|]. intros d Hd Z. assert (X := A d Hd). rewrite Z, Rabs_R0 in X. assert (Lp := Rabs_pos_lt l Hl). lra. Qed.
Lemma n_pos : forall f l, near0 f l -> 0 < l -> exists e, 0 < e /\ forall d, 0 < d < e -> 0 < f d.
Proof.
  intros f l [M [e [HM [He A]]]] Hl. assert (E : 0 < Rmin e (l / (2 * (M + 1)))) by (apply Rmin_pos; [exact He|apply Rdiv_lt_0_compat; lra]). exists (Rmin e (l / (2 * (M + 1)))). split; [exact E|].
  intros d Hd. assert (L1 := Rmin_l e (l / (2 * (M + 1)))). assert (L2 := Rmin_r e (l / (2 * (M + 1)))). assert (X := A d ltac:(lra)).
  assert (Y : M * d <= l / 2). { apply Rle_trans with ((M + 1) * d); [nra|]. apply Rle_trans with ((M + 1) * (l / (2 * (M + 1)))); [apply Rmult_le_compat_l; lra|]. right. field. lra. }
  apply Rabs_le_between in X. lra.
Qed.
Lemma n_inv : forall f l, near0 f l -> l <> 0 -> near0 (fun d => / f d) (/ l).
Proof.
  intros f l H Hl. destruct (n_away f l H Hl) as [e [He A]]. destruct H as [M [e' [HM [He' B]]]]. assert (Lp := Rabs_pos_lt l Hl). destruct (two_e _ _ _ _ He He' A B) as [E Q]. exists (2 / (Rabs l * Rabs l) * M), (Rmin e e').
  assert (C0 : 0 < 2 / (Rabs l * Rabs l)) by (apply Rdiv_lt_0_compat; [lra|nra]). split; [nra|split; [exact E|]]. intros d Hd. destruct (Q d Hd) as [X Y]. assert (N : f d <> 0) by (intro Z; rewrite Z, Rabs_R0 in X; lra).
  replace (/ f d - / l) with ((l - f d) * (/ f d * / l)) by (field; split; assumption). rewrite Rabs_mult, (Rabs_mult (/ f d)), !Rabs_inv. rewrite <- Rabs_Ropp. replace (- (l - f d)) with (f d - l) by ring.
  assert (I : / Rabs (f d) <= 2 / Rabs l). { replace (2 / Rabs l) with (/ (Rabs l / 2)) by (field; lra). apply Rinv_le_contravar; lra. }
  assert (Ip : 0 < / Rabs l) by now apply Rinv_0_lt_compat. assert (If : 0 <= / Rabs (f d)) by (left; apply Rinv_0_lt_compat; lra).
  replace (2 / (Rabs l * Rabs l) * M * d) with ((M * d) * (2 / Rabs l * / Rabs l)) by (field; lra).
  apply Rmult_le_compat; [apply Rabs_pos|nra|exact Y|]. apply Rmult_le_compat_r; lra.
Qed.
Lemma n_div : forall f g l m, near0 f l -> near0 g m -> m <> 0 -> near0 (fun d => f d / g d) (l / m).
Proof. intros f g l m A B N. apply (n_mult f (fun d => / g d) l (/ m) A). now apply n_inv. Qed.
Lemma n_ext : forall (f g : R -> R) l e, 0 < e -> (forall d, 0 < d < e -> f d = g d) -> near0 f l -> near0 g l.
Proof. intros f g l e He E [M [e' [HM [He' A]]]]. destruct (two_e _ _ _ _ He He' E A) as [Z C]. exists M, (Rmin e e'). split; [exact HM|split; [exact Z|]]. intros d H. destruct (C d H) as [X Y]. now rewrite <- X. Qed.
Lemma n_eq : forall f l m, near0 f l -> l = m -> near0 f m. Proof. intros f l m H <-. exact H. Qed.
Ltac nr := first [ eassumption | lazymatch goal with |- near0 (fun _ => ?c) _ => apply (n_const c) end
  | lazymatch goal with
    | |- near0 (fun d => @?f d + @?g d) _ => eapply (n_plus f g); [nr|nr]
    | |- near0 (fun d => @?f d - @?g d) _ => eapply (n_minus f g); [nr|nr]
    | |- near0 (fun d => - @?f d) _ => eapply (n_opp f); nr
    | |- near0 (fun d => @?f d * @?g d) _ => eapply (n_mult f g); [nr|nr]
    | |- near0 (fun d => @?f d / @?g d) _ => eapply (n_div f g); [nr|nr|]
    end ].
(** *** the table at vanishing density *)
Lemma split_tot : forall (p : helm -> R) t d, (forall a b, p (hadd a b) = p a + p b) -> p (Htot t d) = p (Hreg t d) + p (P3 t d) + p (P4 t d).
Proof. intros p t d Hp. unfold Htot, Hreg. rewrite !Hp. ring. Qed.
Section Lim.
Variable T : R.
Hypothesis HT : 0 < T.
Lemma z4 : forall d, hD (P4 T d) = 0 /\ hTD (P4 T d) = 0 /\ hDD (P4 T d) = 0 /\ hTTD (P4 T d) = 0 /\ hTDD (P4 T d) = 0 /\ hDDD (P4 T d) = 0.
Proof. intro d. assert (X := P4_tables T d HT). cbv zeta in X. apply X. Qed.
Lemma l_D : near0 (fun d => d * hD (Htot T d)) (gascon * T).
Proof.
  destruct (b_reg T) as (_ & _ & B & _). assert (N := n_small _ B). eapply (n_ext (fun d => d * hD (Hreg T d) + gascon * T) _ _ 1); [lra| |eapply n_eq; [nr|ring]].
  intros d [Hd _]. rewrite (split_tot hD) by reflexivity. rewrite (proj1 (z4 d)). unfold P3, hsep, dRT, dln. cbn [hD d0 d1]. field. lra.
Qed.
Lemma l_TD : near0 (fun d => d * hTD (Htot T d)) gascon.
Proof.
  destruct (b_reg T) as (_ & _ & _ & _ & B & _). assert (N := n_small _ B). eapply (n_ext (fun d => d * hTD (Hreg T d) + gascon) _ _ 1); [lra| |eapply n_eq; [nr|ring]].
  intros d [Hd _]. rewrite (split_tot hTD) by reflexivity. destruct (z4 d) as (_ & Z & _). rewrite Z. unfold P3, hsep, dRT, dln. cbn [hTD d0 d1]. field. lra.
Qed.
Lemma l_DD : near0 (fun d => d * d * hDD (Htot T d)) (- (gascon * T)).
Proof.
  destruct (b_reg T) as (_ & _ & _ & _ & _ & B & _). assert (N := n_small _ (bnd_mult _ _ bnd_id B)). eapply (n_ext (fun d => d * (d * hDD (Hreg T d)) + - (gascon * T)) _ _ 1); [lra| |eapply n_eq; [nr|ring]].
  intros d [Hd _]. rewrite (split_tot hDD) by reflexivity. destruct (z4 d) as (_ & _ & Z & _). rewrite Z. unfold P3, hsep, dRT, dln. cbn [hDD d0 d1 d2]. field. lra.
Qed.
Lemma l_TTD : near0 (fun d => d * hTTD (Htot T d)) 0.
Proof.
  destruct (b_reg T) as (_ & _ & _ & _ & _ & _ & _ & B & _). assert (N := n_small _ B). eapply (n_ext (fun d => d * hTTD (Hreg T d)) _ _ 1); [lra| |nr].
  intros d [Hd _]. rewrite (split_tot hTTD) by reflexivity. destruct (z4 d) as (_ & _ & _ & Z & _). rewrite Z. unfold P3, hsep, dRT, dln. cbn [hTTD d0 d1 d2]. ring.
Qed.
Lemma l_TDD : near0 (fun d => d * d * hTDD (Htot T d)) (- gascon).
Proof.
  destruct (b_reg T) as (_ & _ & _ & _ & _ & _ & _ & _ & B & _). assert (N := n_small _ (bnd_mult _ _ bnd_id B)). eapply (n_ext (fun d => d * (d * hTDD (Hreg T d)) + - gascon) _ _ 1); [lra| |eapply n_eq; [nr|ring]].
  intros d [Hd _]. rewrite (split_tot hTDD) by reflexivity. destruct (z4 d) as (_ & _ & _ & _ & Z & _). rewrite Z. unfold P3, hsep, dRT, dln. cbn [hTDD d0 d1 d2]. field. lra.
Qed.
Lemma l_DDD : near0 (fun d => d * d * d * hDDD (Htot T d)) (2 * (gascon * T)).
Proof.
  destruct (b_reg T) as (_ & _ & _ & _ & _ & _ & _ & _ & _ & B). assert (N := n_small _ (bnd_mult _ _ bnd_id (bnd_mult _ _ bnd_id B))). eapply (n_ext (fun d => d * (d * (d * hDDD (Hreg T d))) + 2 * (gascon * T)) _ _ 1); [lra| |eapply n_eq; [nr|ring]].
  intros d [Hd _]. rewrite (split_tot hDDD) by reflexivity. destruct (z4 d) as (_ & _ & _ & _ & _ & Z). rewrite Z. unfold P3, hsep, dRT, dln. cbn [hDDD d0 d1 d2 d3]. field. lra.
Qed.
Lemma l_Den : near0 (fun d => d * (2 * hD (Htot T d) + d * hDD (Htot T d))) (gascon * T).
Proof.
  assert (A := l_D). assert (B := l_DD). eapply (n_ext (fun d => 2 * (d * hD (Htot T d)) + d * d * hDD (Htot T d)) _ _ 1); [lra|intros; ring|]. eapply n_eq; [nr|ring].
Qed.
End Lim.
(** states of low density are regular and stable *)
Definition off (T : R) : Prop := 0 < T /\ b1 (bb T) <> 0 /\ forall x, In x terms4 -> - e_at x * (T / e_tz x - 1) * (T / e_tz x - 1) <> EXPTOL.
Lemma gas_p : 0 < gascon. Proof. unfold gascon. lra. Qed.
Lemma low_away : forall d x, 0 < d < 1 / 100 -> In x terms4 -> 1 / 10000000000 < Rabs (d / e_dz x - 1) /\ - e_ad x * (d / e_dz x - 1) ^ e_k x <> EXPTOL.
Proof.
  intros d x Hd Hx. unfold terms4 in Hx. inl Hx; cbn [e_dz e_ad e_k]; unfold EXPTOL; (split; [rewrite Rabs_left; lra|]).
  - set (y := d / (319 / 1000) - 1). assert (-1 <= y <= - (9 / 10)) by (unfold y; lra). cbn [pow]. nra.
  - set (y := d / (319 / 1000) - 1). assert (-1 <= y <= - (9 / 10)) by (unfold y; lra). cbn [pow]. nra.
  - set (y := d / (319 / 1000) - 1). assert (-1 <= y <= - (9 / 10)) by (unfold y; lra). cbn [pow]. nra.
  - set (y := d / (155 / 100) - 1). assert (-1 <= y <= - (99 / 100)) by (unfold y; lra). assert (98 / 100 <= y * y) by nra. set (z := y * y) in *. assert (96 / 100 <= z * z) by nra. replace (y ^ 4) with (z * z) by (unfold z; ring). lra.
Qed.
Lemma low : forall T, off T -> exists e, 0 < e /\ forall d, 0 < d < e -> regular T d /\ 0 < dpdd (state_at T d).
Proof.
  intros T [HT [HB HO]]. assert (X := l_Den T HT). destruct (n_pos _ _ X) as [e [He A]]; [assert (G := gas_p); nra|].
  assert (Y := n_const 1). assert (Z : near0 (fun d => 1 - d * (25 / 100 * b1 (bb T))) 1). { eapply n_eq; [apply (n_minus (fun _ => 1) (fun d => d * (25 / 100 * b1 (bb T))) 1 0 Y); apply (n_small (fun _ => 25 / 100 * b1 (bb T))), bnd_const|ring]. }
  destruct (n_pos _ _ Z ltac:(lra)) as [e' [He' B]]. destruct (two_e _ _ _ _ He He' A B) as [E Q]. exists (Rmin (Rmin e e') (1 / 100)). split; [apply Rmin_pos; [exact E|lra]|].
  intros d Hd. assert (L1 := Rmin_l (Rmin e e') (1 / 100)). assert (L2 := Rmin_r (Rmin e e') (1 / 100)). destruct (Q d ltac:(lra)) as [U V].
  assert (HR : regular T d). { split; [exact HT|split; [lra|split; [exact HB|split; [lra|]]]]. intros x Hx. destruct (low_away d x ltac:(lra) Hx) as [K1 K2]. split; [exact K1|split; [exact K2|now apply HO]]. }
  split; [exact HR|]. destruct (tot T d HR) as (_ & _ & _ & _ & _ & F & _). rewrite <- F. replace (2 * d * hD (Htot T d) + d * d * hDD (Htot T d)) with (d * (2 * hD (Htot T d) + d * hDD (Htot T d))) by ring. exact U.
Qed.
