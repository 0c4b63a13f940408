(** Concrete data for the examples about reactions. *)
From Coq Require Import List Bool Reals Lra Lia.
From Coquelicot Require Import Coquelicot.
From Verif Require Import RDeriv ReacModel ReacSpec ReacProofs ReacDens ReacConv.
Import ListNotations.
Open Scope R_scope.

(** a liquid with constant expansivity and compressibility *)
Definition liquid (T P : R) : water :=
  mkW (1000 * exp (- (1 / 2000) * (T - 298) + P / 2000000000)) (1 / 2000) (/ 2000000000) 0.
Lemma liquid_ok : forall T P, water_ok liquid T P.
Proof.
  intros T P. constructor; cbn [rho alp bet dal liquid].
  - pose proof (exp_pos (- (1 / 2000) * (T - 298) + P / 2000000000)). lra.
  - eapply d_eq; [apply d_scal, d_exp; auto_derive; [trivial|reflexivity]|]. cbv beta. field.
  - apply d_const.
  - eapply d_eq; [apply d_scal, d_exp; auto_derive; [trivial|reflexivity]|]. cbv beta. field.
Qed.
(** a reaction with seven logK coefficients; one with Cp coefficients; one with H and S; ... *)
Definition u0 : sc := mkSc 0 false.
Definition g (x : R) : sc := mkSc x true.
Definition rx_lgk : rdata := mkR u0 u0 u0 u0 u0 u0 (29815 / 100) 100000 [1; 2; 3; 4; 5; 6; 7] [].
Definition rx_hs : rdata := mkR u0 (g (-10)) (g 5) (g 0) u0 u0 (29815 / 100) 100000 [] [].
Definition rx_hscp : rdata := mkR u0 (g (-10)) (g 5) (g 3) (g 2) u0 (29815 / 100) 100000 [] [].
Definition rx_cp : rdata := mkR u0 (g (-10)) (g 5) (g 3) u0 u0 (29815 / 100) 100000 [] [1; 2; 3; 4; 5].
Definition rx_hg : rdata := mkR (g 7) (g (-10)) u0 u0 u0 u0 (29815 / 100) 100000 [] [].
Definition rx_h : rdata := mkR u0 (g (-10)) u0 u0 u0 (g 4) (29815 / 100) 100000 [] [].
Definition rx_v : rdata := mkR u0 (g 0) (g 5) u0 (g 2) u0 (29815 / 100) 100000 [] [].
Lemma Cp_pos : forall T, 0 < T -> Cp5 (resize 5 (rC rx_cp)) T <> 0.
Proof.
  intros T HT. unfold Cp5, resize, at_. cbn [rC rx_cp repeat app firstn nth]. pose proof (sqrt_lt_R0 T HT) as Hs.
  pose proof (Rdiv_lt_0_compat 3 (T * T) ltac:(lra) ltac:(nra)). pose proof (Rdiv_lt_0_compat 4 (sqrt T) ltac:(lra) Hs). nra.
Qed.
Lemma frantz_unset : exists t, model_frantz [1; 0; 0; 0; 0; 0; 0] (liquid 400 200000) 400 200000 = Some t /\ lnK t <> 0 /\ lgK t = 0.
Proof.
  eexists. split; [reflexivity|]. split; [|reflexivity]. cbn [lnK]. pose proof lg_pos as Hl. apply Rgt_not_eq.
  match goal with |- ?x > 0 => replace x with lg_to_ln by field end. exact Hl.
Qed.
Lemma ryz_volume : exists t, model_ryzhenko [1; 1; 0] (liquid 400 200000) 400 200000 = Some t /\ dV t <> 0.
Proof.
  eexists. split; [reflexivity|]. cbn [dV]. pose proof Rgas_pos. pose proof LN10_pos. pose proof rb_zz_pos. pose proof (w_pos _ _ _ (liquid_ok 400 200000)).
  set (rr := rho (liquid 400 200000)) in *. cbn [bet liquid]. 
  match goal with |- ?x <> 0 => replace x with (- (Rgas / rb_zz * (rb_e * 400 + rb_f + rb_g / 400) / 20000)) by (field; repeat split; lra) end.
  apply Rlt_not_eq. assert (0 < rb_e * 400 + rb_f + rb_g / 400) by (unfold rb_e, rb_f, rb_g; lra).
  pose proof (Rdiv_lt_0_compat Rgas rb_zz ltac:(lra) ltac:(lra)). 
  pose proof (Rmult_lt_0_compat _ _ H4 H3). lra.
Qed.
