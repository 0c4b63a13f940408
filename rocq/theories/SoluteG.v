(** Lemmas on the g function and the effective Born coefficient. *)
From Coq Require Import List Bool Reals Lra Lia.
From Coquelicot Require Import Coquelicot.
From Verif Require Import RDeriv MineralModel MineralSpec SoluteModel SoluteSpec SoluteProofs.
Open Scope R_scope.

Lemma ag_neg : forall c, ag c < 0.
Proof. intros. unfold ag. assert (0 <= (c - 438) ^ 2) by apply pow2_ge_0. cbn [pow] in H. nra. Qed.
Lemma bg_big : forall c, 3 < bg c.
Proof. intros. unfold bg. assert (0 <= (c - 424) ^ 2) by apply pow2_ge_0. cbn [pow] in H. nra. Qed.
Lemma ag_d : forall T, is_derive (fun t : R => ag (t - C_K)) T (agT (T - C_K)).
Proof. intros T. unfold ag, agT. eapply d_eq; [dr|]. cbv beta. lra. Qed.
Lemma bg_d : forall T, is_derive (fun t : R => bg (t - C_K)) T (bgT (T - C_K)).
Proof. intros T. unfold bg, bgT. eapply d_eq; [dr|]. cbv beta. lra. Qed.
Lemma agT_d : forall T, is_derive (fun t : R => agT (t - C_K)) T agTT.
Proof. intros T. unfold agT, agTT. eapply d_eq; [dr|]. cbv beta. lra. Qed.
Lemma bgT_d : forall T, is_derive (fun t : R => bgT (t - C_K)) T bgTT.
Proof. intros T. unfold bgT, bgTT. eapply d_eq; [dr|]. cbv beta. lra. Qed.

(** *** region I *)
Section One.
Context (w : R -> R -> wet) (T P : R).
Hypothesis Hw : water_ok w T P.
Hypothesis H0 : 0 < d_ (w T P).
Hypothesis H1 : d_ (w T P) < 1000.
Hypothesis HdT : d_T (w T P) <> 0.
Hypothesis HdP : d_P (w T P) <> 0.
Let F := fun t p => g_one (t - C_K) (w t p).
Ltac prep := destruct Hw as (W1 & W2 & W3 & W4 & W5 & W6); assert (D1 := ag_d T); assert (D2 := bg_d T); assert (D3 := agT_d T); assert (D4 := bgT_d T);
  assert (N1 := ag_neg (T - C_K)); assert (N2 := bg_big (T - C_K)).
Lemma g_nz : g_ (F T P) <> 0.
Proof. unfold F. cbn [g_ g_one]. assert (N1 := ag_neg (T - C_K)). apply Rmult_integral_contrapositive_currified; [lra|]. apply Rgt_not_eq, exp_pos. Qed.
Lemma one_T : is_derive (fun t : R => g_ (F t P)) T (g_T (F T P)).
Proof. prep. unfold F. cbn [g_ g_T g_one]. unfold Rpower. eapply d_eq; [dr; lra|]. cbv beta. field. repeat split; lra. Qed.
Lemma one_P : is_derive (fun p : R => g_ (F T p)) P (100000 * g_P (F T P)).
Proof. prep. unfold F. cbn [g_ g_P g_one]. unfold Rpower. eapply d_eq; [dr; lra|]. cbv beta. field. repeat split; lra. Qed.
Lemma one_gT : forall t p, g_T (F t p) = g_ (F t p) * (agT (t - C_K) / ag (t - C_K) + bgT (t - C_K) * ln (1 - d_ (w t p) / 1000)
   + d_ (w t p) / 1000 * (- d_T (w t p) / d_ (w t p)) * bg (t - C_K) / (1 - d_ (w t p) / 1000)).
Proof. reflexivity. Qed.
Lemma one_gP : forall t p, g_P (F t p) = - g_ (F t p) * (d_ (w t p) / 1000) * (d_P (w t p) / d_ (w t p)) * bg (t - C_K) / (1 - d_ (w t p) / 1000).
Proof. reflexivity. Qed.
Lemma one_TT : is_derive (fun t : R => g_T (F t P)) T (g_TT (F T P)).
Proof.
  prep. assert (Dg := one_T). rewrite one_gT in Dg. assert (N3 := g_nz). eapply d_ext; [intros t; symmetry; apply one_gT|]. eapply d_eq; [dr; lra|]. cbv beta.
  change (g_TT (F T P)) with (let g := g_ (F T P) in let c := T - C_K in let r := d_ (w T P) / 1000 in let al := - d_T (w T P) / d_ (w T P) in let alT := - d_TT (w T P) / d_ (w T P) + al * al in let gT := g_T (F T P) in
    g * (agTT / ag c - (agT c / ag c) ^ 2 + bgTT * ln (1 - r) + r * al * bg c / (1 - r) * (2 * bgT c / bg c + alT / al - al - r * al / (1 - r))) + gT * gT / g).
  cbv zeta. rewrite one_gT. generalize dependent (g_ (F T P)). intros g _ N3. field. repeat split; lra.
Qed.
Lemma one_TP : is_derive (fun t : R => g_P (F t P)) T (g_TP (F T P)).
Proof.
  prep. assert (Dg := one_T). rewrite one_gT in Dg. assert (N3 := g_nz). eapply d_ext; [intros t; symmetry; apply one_gP|]. eapply d_eq; [dr; lra|]. cbv beta.
  change (g_TP (F T P)) with (let g := g_ (F T P) in let c := T - C_K in let r := d_ (w T P) / 1000 in let al := - d_T (w T P) / d_ (w T P) in let be := d_P (w T P) / d_ (w T P) in let alP := - d_TP (w T P) / d_ (w T P) - al * be in
    let gT := g_T (F T P) in let gP := g_P (F T P) in gP * (bgT c / bg c - al - alP / be - r * al / (1 - r)) + gP * gT / g).
  cbv zeta. rewrite one_gT, one_gP. generalize dependent (g_ (F T P)). intros g _ N3. field. repeat split; lra.
Qed.
Lemma one_PP : is_derive (fun p : R => g_P (F T p)) P (100000 * g_PP (F T P)).
Proof.
  prep. assert (Dg := one_P). rewrite one_gP in Dg. assert (N3 := g_nz). eapply d_ext; [intros t; symmetry; apply one_gP|]. eapply d_eq; [dr; lra|]. cbv beta.
  change (g_PP (F T P)) with (let g := g_ (F T P) in let r := d_ (w T P) / 1000 in let be := d_P (w T P) / d_ (w T P) in let beP := d_PP (w T P) / d_ (w T P) - be * be in
    let gP := g_P (F T P) in gP * (gP / g + be + beP / be + r * be / (1 - r))).
  cbv zeta. rewrite one_gP. generalize dependent (g_ (F T P)). intros g _ N3. field. repeat split; lra.
Qed.
End One.

(** *** region II *)
Lemma region2_eq : forall c P, region2 c P = (rlt 155 c && rlt P 1000)%bool.
Proof.
  intros. unfold region2, rlt, rle. destruct (Rlt_dec 155 c), (Rlt_dec c 355), (Rlt_dec P 1000), (Rle_dec 355 c), (Rle_dec 500 P), (Rlt_dec P 500); cbn; try reflexivity; exfalso; lra.
Qed.
Lemma region2_in : forall c P, region2 c P = true <-> 155 < c /\ P < 1000.
Proof. intros. rewrite region2_eq. unfold rlt. destruct (Rlt_dec 155 c), (Rlt_dec P 1000); cbn; intuition (try discriminate; lra). Qed.
Lemma region2_out : forall c P, c <= 155 \/ 1000 <= P -> region2 c P = false.
Proof. intros. destruct (region2 c P) eqn:E; [apply region2_in in E; lra|reflexivity]. Qed.
Lemma Rpower_pred : forall a y, 0 < a -> Rpower a (y - 1) = Rpower a y / a.
Proof. intros. unfold Rminus. rewrite Rpower_plus, Rpower_Ropp, Rpower_1 by assumption. reflexivity. Qed.
Lemma aux_d : forall y T, 0 < (T - C_K - 155) / 300 -> is_derive (fun t : R => Rpower ((t - C_K - 155) / 300) y) T (y * Rpower ((T - C_K - 155) / 300) y / (300 * ((T - C_K - 155) / 300))).
Proof.
  intros y T Ha. eapply d_eq; [apply (d_Rpower (fun t : R => (t - C_K - 155) / 300)); [dr; lra|exact Ha]|]. cbv beta. rewrite Rpower_pred by exact Ha.
  assert (E : T - C_K - 155 <> 0) by lra. field. repeat split; [lra | unfold C_K in *; lra ..].
Qed.
Lemma aux_p : forall T, 0 < (T - C_K - 155) / 300 -> is_derive (fun t : R => ((t - C_K - 155) / 300) ^ 16) T (16 * ((T - C_K - 155) / 300) ^ 16 / (300 * ((T - C_K - 155) / 300))).
Proof.
  intros T Ha. assert (Dl : is_derive (fun t : R => (t - C_K - 155) / 300) T (1 / 300)). { eapply d_eq; [dr; lra|]. cbv beta. field. }
  eapply d_eq; [apply (d_pow _ 16 T _ Dl)|]. cbn [pred]. rewrite <- (tech_pow_Rmult _ 15). revert Ha. clear Dl. generalize ((T - C_K - 155) / 300). intros a Ha.
  generalize (a ^ 15). intros q. cbn [INR]. field. lra.
Qed.

Section Two.
Context (x : R -> R -> gfun) (T P : R).
Hypothesis Hx : g_ok x T P.
Hypothesis Hx2 : g_ok2 x T P.
Hypothesis HT : 155 < T - C_K.
Hypothesis HP : P < 1000.
Let F := fun t p => g_two (t - C_K) p (x t p).
Lemma two_pos : 0 < (T - C_K - 155) / 300. Proof. lra. Qed.
Ltac prep := destruct Hx as (W1 & W2 & W3); destruct Hx2 as (W4 & W5); assert (D1 := aux_d (48/10) T two_pos); assert (D2 := aux_p T two_pos); assert (N1 := two_pos);
   unfold F; cbn [g_ g_T g_P g_TT g_TP g_PP g_two].
Ltac fin := cbv beta; cbn [INR pred]; try (generalize dependent (Rpower ((T - C_K - 155) / 300) (48/10)); intros); try (generalize dependent (((T - C_K - 155) / 300) ^ 16); intros); field; repeat split; lra.
Lemma two_T : is_derive (fun t : R => g_ (F t P)) T (g_T (F T P)).
Proof. prep. eapply d_eq; [dr; nz0; try lra|]. fin. Qed.
Lemma two_P : is_derive (fun p : R => g_ (F T p)) P (100000 * g_P (F T P)).
Proof. prep. eapply d_eq; [dr; nz0; try lra|]. fin. Qed.
Lemma two_TT : is_derive (fun t : R => g_T (F t P)) T (g_TT (F T P)).
Proof. prep. eapply d_eq; [dr; nz0; try lra|]. fin. Qed.
Lemma two_TP : is_derive (fun t : R => g_P (F t P)) T (g_TP (F T P)).
Proof. prep. eapply d_eq; [dr; nz0; try lra|]. fin. Qed.
Lemma two_PP : is_derive (fun p : R => g_P (F T p)) P (100000 * g_PP (F T P)).
Proof. prep. eapply d_eq; [dr; nz0; try lra|]. fin. Qed.
End Two.
