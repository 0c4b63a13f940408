(** Lemmas: all that thmLVS reports belongs to one fundamental equation. *)
From Coq Require Import Reals Lra.
From Coquelicot Require Import Coquelicot.
From Verif Require Import RDeriv LvsModel LvsSpec LvsPf.
Open Scope R_scope.

Ltac asR := match goal with |- ?a = ?b => change (@eq R a b) end.
Section Th.
Variables (c : lvs) (T D r th : R -> R) (x T' D' r' th' : R).
Hypothesis K : lvs_constants c.
Hypothesis Hp : path c T D r th x T' D' r' th'.
Hypothesis Rg : regular c (D x) (r x) (th x).
Let h := hd c r th x r' th'.
Let tau := - Tw c (T x) / T x * T'.
Let s y := s0 c (r y) (th y) + s1 c (r y) (th y).
Let am y := amu_ c (r y) (th y).
Let MM := d2PdM2 c (r x) (th x).
Let MT := d2PdMT c (r x) (th x).
Let TT := d2PdT2 c (r x) (th x).
Lemma HsT : solves c (T x) (D x) (r x) (th x). Proof. destruct Hp as [L _]. exact (locally_singleton _ _ L). Qed.
Lemma T0 : 0 < T x. Proof. exact (proj1 HsT). Qed.
Lemma Tn : T x <> 0. Proof. pose proof T0. lra. Qed.
Lemma r0 : 0 < r x. Proof. exact (proj1 (proj2 HsT)). Qed.
Lemma dT : is_derive T x T'. Proof. exact (proj1 (proj2 Hp)). Qed.
Lemma dD : is_derive D x D'. Proof. exact (proj1 (proj2 (proj2 Hp))). Qed.
Lemma dr : is_derive r x r'. Proof. exact (proj1 (proj2 (proj2 (proj2 Hp)))). Qed.
Lemma dth : is_derive th x th'. Proof. exact (proj2 (proj2 (proj2 (proj2 Hp)))). Qed.
Lemma Tw_d : is_derive (fun y => Tw c (T y)) x tau.
Proof. unfold Tw, tau, Tw. eapply d_eq; [apply d_div; [apply d_const|exact dT|exact Tn]|]. cbv beta. pose proof Tn. field. assumption. Qed.
Lemma dTw_d : is_derive (fun y => dTw c (T y)) x tau.
Proof. unfold dTw. eapply d_eq; [apply d_plus; [apply d_const|exact Tw_d]|]. ring. Qed.
Lemma am_d : is_derive am x h. Proof. exact (amu_d c r th x r' th' r0 dr dth). Qed.
Lemma E0 : l_al c + l_b c * (l_del c + 1) = 2. Proof. exact (proj1 (proj1 K)). Qed.
Lemma a0 : l_a c <> 0. Proof. destruct K as [_ [_ [[X _] _]]]. lra. Qed.
Lemma td_eq : td c r th x r' th' = tau + l_c c * h.
Proof.
  apply d_unique with (fun y => r y * (1 - l_b2 c * (th y * th y))) x; [exact (t_d c r th x r' th' dr dth)|].
  apply is_derive_ext_loc with (fun y => dTw c (T y) + l_c c * am y).
  - destruct Hp as [L _]. revert L. apply filter_imp. intros y [_ [_ [E _]]]. exact E.
  - apply d_plus; [exact dTw_d|apply d_scal; exact am_d].
Qed.
Lemma ali_eq : l_ali c = l_al c - 1 / 2. Proof. exact (proj1 (proj2 (proj1 K))). Qed.
Lemma bi_eq' : l_bi c = l_b c + 1 / 2. Proof. exact (proj1 (proj2 (proj2 (proj1 K)))). Qed.
Lemma P0 : one_potential c (l_al c - 0) (l_p00 c) (l_p20 c) (l_p40 c) (l_s00 c) (l_s20 c).
Proof. rewrite Rminus_0_r. exact (proj1 (proj1 (proj2 K))). Qed.
Lemma P1 : one_potential c (l_al c - 1 / 2) (l_p01 c) (l_p21 c) (l_p41 c) (l_s01 c) (l_s21 c).
Proof. rewrite <- ali_eq. exact (proj2 (proj1 (proj2 K))). Qed.
Lemma s_dd : is_derive s x (MT * h + TT * tau).
Proof.
  pose proof (s_d c 0 (l_k0 c) _ _ _ _ _ E0 P0 r th x r' th' r0 dr dth (proj1 Rg)) as A. pose proof (s_d c (1 / 2) (l_k1 c) _ _ _ _ _ E0 P1 r th x r' th' r0 dr dth (proj1 Rg)) as B.
  pose proof (d_plus _ _ _ _ _ A B) as C. apply (d_ext _ s) in C.
  - eapply d_eq; [exact C|]. rewrite td_eq. fold h. unfold MT, TT, d2PdMT, d2PdT2, yy, ww. cbv [sx0 sx1 sd0 sd1]. ring.
  - intros y. unfold s, si, s0, s1, sx0, sx1. rewrite ali_eq, Rminus_0_r. reflexivity.
Qed.
Lemma rho_d : is_derive (fun y => rhow c (T y) (r y) (th y)) x ((l_p11 c + MT) * tau + MM * h).
Proof.
  pose proof (m_d c 0 (l_k0 c) E0 r th x r' th' r0 dr dth (proj1 Rg) a0) as A. pose proof (m_d c (1 / 2) (l_k1 c) E0 r th x r' th' r0 dr dth (proj1 Rg) a0) as B.
  pose proof (d_plus _ _ _ _ _ (d_plus _ _ _ _ _ (d_plus _ _ _ _ _ A B) (d_scal _ (l_c c) _ _ s_dd)) (d_plus _ _ _ _ _ (d_const 1 x) (d_scal _ (l_p11 c) _ _ dTw_d))) as C.
  eapply d_ext in C; [|intros y; instantiate (1 := fun y => rhow c (T y) (r y) (th y)); unfold rhow, mi, s; cbv beta; rewrite bi_eq', Rplus_0_r; ring].
  eapply d_eq; [exact C|]. rewrite td_eq. fold h. unfold MM, MT, TT, d2PdM2, d2PdMT, d2PdT2, yy, ww, zz. field. exact a0.
Qed.
Lemma rc0 : l_rc c <> 0. Proof. destruct K as [_ [_ [[_ [_ [X _]]] _]]]. lra. Qed.
Lemma D_eq : D' = l_rc c * ((l_p11 c + MT) * tau + MM * h).
Proof.
  apply d_unique with D x; [exact dD|]. apply is_derive_ext_loc with (fun y => l_rc c * rhow c (T y) (r y) (th y)); [|apply d_scal; exact rho_d].
  destruct Hp as [L _]. revert L. apply filter_imp. intros y [_ [_ [_ E]]]. now symmetry.
Qed.
Lemma Pw0_d : is_derive (fun y => Pw0 c (T y)) x (dP0dT c (T x) * tau).
Proof.
  unfold Pw0, dP0dT. pose proof dTw_d as d. eapply d_eq; [apply d_plus; [apply d_const|]; apply d_mult; [exact d|]; apply d_plus; [apply d_const|]; apply d_mult; [exact d|]; apply d_plus; [apply d_const|]; apply d_scal_r; exact d|].
  cbv beta. ring.
Qed.
Lemma Pw_d : is_derive (fun y => Pw c (T y) (r y) (th y)) x ((dP0dT c (T x) + l_p11 c * am x + s x) * tau + D x / l_rc c * h).
Proof.
  pose proof (pi_d c 0 (l_k0 c) _ _ _ _ _ E0 P0 r th x r' th' r0 dr dth) as A. pose proof (pi_d c (1 / 2) (l_k1 c) _ _ _ _ _ E0 P1 r th x r' th' r0 dr dth) as B.
  pose proof (d_plus _ _ _ _ _ (d_plus _ _ _ _ _ Pw0_d (d_mult _ _ _ _ _ am_d (d_plus _ _ _ _ _ (d_const 1 x) (d_scal _ (l_p11 c) _ _ dTw_d)))) (d_plus _ _ _ _ _ A B)) as C.
  eapply d_ext in C; [|intros y; instantiate (1 := fun y => Pw c (T y) (r y) (th y)); unfold Pw, dPw, pi_, p0th, p1th, am; cbv beta; rewrite ali_eq, Rminus_0_r; ring].
  eapply d_eq; [exact C|]. rewrite td_eq. fold h. cbv beta. rewrite (proj2 (proj2 (proj2 HsT))). replace (l_rc c * rhow c (T x) (r x) (th x) / l_rc c) with (rhow c (T x) (r x) (th x)) by (field; exact rc0).
  unfold rhow, mi, si, s, s0, s1, sx0, sx1, am. rewrite bi_eq', ali_eq, Rminus_0_r, Rplus_0_r. ring.
Qed.
(** all in terms of tau and h *)
Let F y := thmLVS c (T y) (D y) (r y) (th y).
Let P y := Pof c (T y) (r y) (th y).
Let u := dTw c (T x).
Let Q := Pw c (T x) (r x) (th x).
Lemma Tp : T' = - T x / Tw c (T x) * tau.
Proof. unfold tau, Tw. pose proof Tn. assert (l_Tc c <> 0) by (destruct K as [_ [_ [[_ [X _]] _]]]; lra). field. split; assumption. Qed.
Definition dPdT_ : R := h_alpha (F x) / h_beta (F x).
Lemma Dn : D x <> 0. Proof. destruct Rg as [_ [_ X]]. lra. Qed.
Lemma MMn : MM <> 0. Proof. exact (proj1 (proj2 Rg)). Qed.
Lemma Tcn : l_Tc c <> 0. Proof. destruct K as [_ [_ [[_ [X _]] _]]]; lra. Qed.
Lemma Pcn : l_Pc c <> 0. Proof. destruct K as [_ [_ [[_ [_ [_ X]]] _]]]; lra. Qed.
Lemma KPcon : l_Pcon c = l_Pc c / l_Tc c. Proof. exact (proj1 (proj2 (proj2 (proj2 K)))). Qed.
Lemma KS : l_Scon c = 1000 * (l_Pc c / l_Tc c). Proof. rewrite <- KPcon. exact (proj1 (proj2 (proj2 (proj2 (proj2 K))))). Qed.
Lemma KU : l_Ucon c = 1000 * l_Pc c. Proof. exact (proj1 (proj2 (proj2 (proj2 (proj2 (proj2 K)))))). Qed.
Lemma Kd : l_dPcon c = l_Pc c / l_Tc c / l_rc c ^ 2. Proof. rewrite <- KPcon. exact (proj2 (proj2 (proj2 (proj2 (proj2 (proj2 K)))))). Qed.
Definition Pp : R := l_Pcon c * (((dP0dT c (T x) + l_p11 c * am x + s x) * tau + D x / l_rc c * h) * T x + Q * T').
Lemma P_d : is_derive P x Pp.
Proof. unfold P, Pof, Pp. eapply d_eq; [apply d_mult; [apply d_scal_r; exact Pw_d|exact dT]|]. cbv beta. fold Q. ring. Qed.
Lemma alpha_beta : dPdT_ = l_Pcon c * (Q - Tw c (T x) * dPdTcd c (T x) (D x) (r x) (th x)).
Proof.
  unfold dPdT_, F, thmLVS. cbn [h_alpha h_beta]. fold Q. unfold dPdD. fold MM. rewrite Kd. pose proof Tn. pose proof Dn. pose proof MMn. pose proof rc0. pose proof Tcn. pose proof Pcn. field. repeat split; assumption.
Qed.
Lemma P_total : Pp = dPdT_ * T' + dPdD c (T x) (D x) (r x) (th x) * D'.
Proof.
  rewrite alpha_beta. unfold Pp, dPdD, dPdTcd. fold MM MT (am x). rewrite D_eq, Tp, Kd, KPcon. unfold s, Tw. pose proof Tn. pose proof Dn. pose proof MMn. pose proof rc0. pose proof Tcn. pose proof Pcn. field. repeat split; assumption.
Qed.
Lemma alpha_total : D' = - h_alpha (F x) * D x * T' + h_beta (F x) * D x * Pp.
Proof.
  rewrite P_total. unfold dPdT_, F, thmLVS. cbn [h_alpha h_beta]. unfold dPdD. fold MM. rewrite Kd. pose proof Tn. pose proof Dn. pose proof MMn. pose proof rc0. pose proof Tcn. pose proof Pcn. field. repeat split; assumption.
Qed.
Definition M0 (y : R) : R := l_mc c + dTw c (T y) * (l_m1 c + dTw c (T y) * (l_m2 c + dTw c (T y) * l_m3 c)).
Lemma M0_d : is_derive M0 x (dM0dT c (T x) * tau).
Proof.
  unfold M0, dM0dT. pose proof dTw_d as d. eapply d_eq; [apply d_plus; [apply d_const|]; apply d_mult; [exact d|]; apply d_plus; [apply d_const|]; apply d_mult; [exact d|]; apply d_plus; [apply d_const|]; apply d_scal_r; exact d|].
  cbv beta. ring.
Qed.
Lemma dM0_d : is_derive (fun y => dM0dT c (T y)) x (d2M0dT c (T x) * tau).
Proof.
  unfold dM0dT, d2M0dT. pose proof dTw_d as d. eapply d_eq; [apply d_plus; [apply d_const|]; apply d_mult; [exact d|]; apply d_plus; [apply d_const|]; apply d_scal; exact d|]. cbv beta. ring.
Qed.
Lemma dP0_d : is_derive (fun y => dP0dT c (T y)) x (d2P0dT c (T x) * tau).
Proof.
  unfold dP0dT, d2P0dT. pose proof dTw_d as d. eapply d_eq; [apply d_plus; [apply d_const|]; apply d_mult; [exact d|]; apply d_plus; [apply d_const|]; apply d_scal; exact d|]. cbv beta. ring.
Qed.
(** G = Scon/rc T (amu + M0) wherever D is not 0 *)
Lemma nearD : locally x (fun y : R => D y <> 0 /\ 0 < T y).
Proof.
  destruct Hp as [L _]. apply filter_and.
  - apply (ex_derive_continuous D x (ex_intro _ _ dD) (fun z => z <> 0)). exists (mkposreal (D x) (proj2 (proj2 Rg))). intros z Hz E. subst z.
    unfold ball in Hz; cbn in Hz. unfold AbsRing_ball, abs, minus, plus, opp in Hz; cbn in Hz. apply Rabs_def2 in Hz. pose proof (proj2 (proj2 Rg)). lra.
  - revert L. apply filter_imp. intros y [A _]. exact A.
Qed.
Lemma G_d : is_derive (fun y => h_G (F y)) x (- h_S (F x) * T' + 1000 / D x * Pp).
Proof.
  apply is_derive_ext_loc with (fun y => l_Scon c / l_rc c * (T y * (am y + M0 y))).
  - generalize nearD. apply filter_imp. intros y [Dy Ty]. unfold F, thmLVS, M0. cbn [h_G]. fold (am y). pose proof rc0. pose proof Tcn. asR. field. repeat split; try assumption; lra.
  - eapply d_eq; [apply d_scal; apply d_mult; [exact dT|apply d_plus; [exact am_d|exact M0_d]]|]. cbv beta.
    unfold F, thmLVS, Pp, M0. cbn [h_S]. fold (am x) u Q. rewrite Tp, KS, KPcon. unfold s, Tw. pose proof Tn. pose proof Dn. pose proof rc0. pose proof Tcn. field. repeat split; assumption.
Qed.
Lemma S_d : is_derive (fun y => h_S (F y)) x (h_Cv (F x) / T x * T' - 1000 * dPdT_ / D x ^ 2 * D').
Proof.
  apply is_derive_ext_loc with (fun y => l_Scon c * ((Pw c (T y) (r y) (th y) - Tw c (T y) * (dP0dT c (T y) + l_p11 c * am y + s y)) / D y - (am y + M0 y - Tw c (T y) * dM0dT c (T y)) / l_rc c)).
  - generalize nearD. apply filter_imp. intros y [Dy Ty]. unfold F, thmLVS, M0. cbn [h_S]. fold (am y). unfold s. pose proof rc0. asR. field. split; assumption.
  - eapply d_eq.
    + apply d_scal. apply d_minus.
      * apply d_div; [|exact dD|exact Dn]. apply d_minus; [exact Pw_d|]. apply d_mult; [exact Tw_d|]. apply d_plus; [apply d_plus; [exact dP0_d|apply d_scal; exact am_d]|exact s_dd].
      * apply (d_scal_r _ (/ l_rc c)). apply d_minus; [apply d_plus; [exact am_d|exact M0_d]|apply d_mult; [exact Tw_d|exact dM0_d]].
    + cbv beta. rewrite alpha_beta. unfold F, thmLVS, dPdTcd. cbn [h_Cv]. fold MM MT TT (am x) Q. rewrite D_eq, Tp, KS, KPcon. unfold s, Tw. pose proof Tn. pose proof Dn. pose proof rc0. pose proof Tcn. pose proof MMn. field. repeat split; assumption.
Qed.
Lemma H_eq : forall y, D y <> 0 -> 0 < T y -> h_H (F y) = h_U (F y) + 1000 * P y / D y.
Proof. intros y Dy Ty. unfold F, thmLVS, P, Pof. cbn [h_H h_U]. rewrite KS, KU, KPcon. unfold Tw. pose proof Tcn. pose proof rc0. assert (T y <> 0) by lra. field. repeat split; assumption. Qed.
Lemma A_d : is_derive (fun y => h_A (F y)) x (- h_S (F x) * T' + 1000 * P x / D x ^ 2 * D').
Proof.
  apply is_derive_ext_loc with (fun y => h_G (F y) - 1000 * P y / D y).
  - generalize nearD. apply filter_imp. intros y [Dy Ty]. pose proof (H_eq y Dy Ty) as E. change (h_H (F y) - T y * h_S (F y) - 1000 * P y / D y = h_U (F y) - T y * h_S (F y)). rewrite E. ring.
  - eapply d_eq; [apply d_minus; [exact G_d|apply d_div; [apply d_scal; exact P_d|exact dD|exact Dn]]|]. cbv beta. pose proof Dn. field. assumption.
Qed.
Lemma U_d : is_derive (fun y => h_U (F y)) x (h_Cv (F x) * T' + (1000 * P x - 1000 * T x * dPdT_) / D x ^ 2 * D').
Proof.
  apply (d_ext (fun y => h_A (F y) + T y * h_S (F y))); [intros y; change (h_U (F y) - T y * h_S (F y) + T y * h_S (F y) = h_U (F y)); ring|].
  eapply d_eq; [apply d_plus; [exact A_d|apply d_mult; [exact dT|exact S_d]]|]. cbv beta. pose proof Tn. pose proof Dn. field. split; assumption.
Qed.
Lemma Cp_eq : h_Cp (F x) = h_Cv (F x) + 1000 * T x * h_alpha (F x) ^ 2 / (D x * h_beta (F x)).
Proof.
  unfold F, thmLVS. cbn [h_Cp h_Cv h_alpha h_beta]. unfold dPdD. fold MM Q. rewrite KS, Kd, KPcon. pose proof Tn. pose proof Dn. pose proof MMn. pose proof rc0. pose proof Tcn. pose proof Pcn. field. repeat split; assumption.
Qed.
Lemma beta_n : h_beta (F x) <> 0.
Proof.
  pose proof Tn. pose proof Dn. pose proof MMn. pose proof rc0. pose proof Tcn. pose proof Pcn.
  assert (E : h_beta (F x) * (l_Pc c / l_Tc c / l_rc c ^ 2 * D x * D x * T x / MM) = 1); [|intro Z; rewrite Z, Rmult_0_l in E; lra].
  unfold F, thmLVS. cbn [h_beta]. unfold dPdD. fold MM. rewrite Kd. field. repeat split; assumption.
Qed.
Lemma H_d : is_derive (fun y => h_H (F y)) x (h_Cp (F x) * T' + 1000 / D x * (1 - T x * h_alpha (F x)) * Pp).
Proof.
  apply is_derive_ext_loc with (fun y => h_U (F y) + 1000 * P y / D y); [generalize nearD; apply filter_imp; intros y [Dy Ty]; symmetry; now apply H_eq|].
  eapply d_eq; [apply d_plus; [exact U_d|apply d_div; [apply d_scal; exact P_d|exact dD|exact Dn]]|]. cbv beta. rewrite alpha_total, Cp_eq. unfold dPdT_. pose proof Dn. pose proof beta_n. field. split; assumption.
Qed.
End Th.
