(** Faults of the compensated Redlich-Kwong fluids, and states that meet the hypotheses of the theorems. *)
From Coq Require Import List Bool Reals Lra Lia String Ascii.
From Coquelicot Require Import Coquelicot.
From Verif Require Import RDeriv GasModel GasSpec GasCubic GasProofs GasDeriv GasMore GasPhase CorkModel CorkSpec CorkCubic CorkProofs CorkDeriv CorkInst.
Open Scope R_scope.

Lemma sqrt_is : forall x y, 0 <= y -> y * y = x -> sqrt x = y.
Proof. intros x y H E. rewrite <- E. now apply sqrt_square. Qed.
Ltac reg_num s := unfold mrk_regular, regular, mrk_cb, mrk_cc, mrk_cd, c_q, c_r, RR; rewrite ?(sqrt_is _ s) by lra; unfold a_co2, b_co2, a_h2o_hot, a_h2o_gas, a_h2o_liq, b_h2o.
Lemma co2_reg : mrk_regular (a_co2 900) b_co2 900 (1000 / 1000).
Proof. reg_num 30. split; [apply Rlt_not_eq; lra|]. intros [H _]. revert H. apply Rlt_not_eq. lra. Qed.
Lemma co2_reg9 : mrk_regular (a_co2 900) b_co2 900 (9000 / 1000).
Proof. reg_num 30. split; [apply Rgt_not_eq; lra|]. intros [H _]. revert H. apply Rlt_not_eq. lra. Qed.
Lemma hot_reg : mrk_regular (a_h2o_hot 900) b_h2o 900 (1000 / 1000).
Proof. reg_num 30. split; [apply Rlt_not_eq; lra|]. intros [H _]. revert H. apply Rlt_not_eq. lra. Qed.
Lemma gas_reg : mrk_regular (a_h2o_gas 400) b_h2o 400 (1 / 1000).
Proof. reg_num 20. split; [apply Rgt_not_eq; lra|]. intros [H _]. revert H. apply Rlt_not_eq. lra. Qed.
(** the true slope of the Gibbs energy, whatever slopes the code has for the attraction and above p0 too *)
Lemma vir_g_T : forall p0 (c d : R -> R) ce p T c' d', is_derive c T c' -> is_derive d T d' -> is_derive (fun t => vir_g p0 (c t) (d t) ce p) T (vir_g p0 c' d' 0 p).
Proof.
  intros p0 c d ce p T c' d' Dc Dd. unfold vir_g. destruct (Rlt_dec p0 p); [|apply d_const].
  eapply d_eq; [apply d_plus; [apply d_plus; [apply d_scal_r, d_scal_r, d_scal; exact Dc|unfold Rdiv; apply d_scal_r, d_scal_r; exact Dd]|apply d_const]|]. cbv beta. field.
Qed.
Lemma slope_any : forall (e : R -> abpar) b (c d : R -> R) ce p0 T p l c' d', 0 < b -> (forall t, e_b (e t) = b) -> 0 < T -> 0 < p ->
  is_derive (fun t => e_a (e t)) T l -> is_derive c T c' -> is_derive d T d' -> mrk_regular (e_a (e T)) b T p ->
  exists (F : R -> fug) u, b < u /\ eos_rk (att (e_a (e T)) T) b T u = 1000 * p /\ locally T (fun t => mf vapour (mkCork (e t) (c t) (d t) ce p0) t p = Some (F t)) /\
    f_v (F T) = u + vir_v p0 (c T) (d T) ce p /\ f_g (F T) = gres_rk (att (e_a (e T)) T) b T (1000 * p) u + 1000 * vir_g p0 (c T) (d T) ce p /\
    f_h (F T) = hres_rk (att (e_a (e T)) T) (datt (e_a (e T)) (e_da (e T)) T) b T (1000 * p) (f_v (F T)) + (if Rlt_dec b (f_v (F T)) then 0 else f_h (F T) - hres_rk (att (e_a (e T)) T) (datt (e_a (e T)) (e_da (e T)) T) b T (1000 * p) (f_v (F T))) /\
    f_g (F T) = f_h (F T) - T * f_s (F T) /\
    is_derive (fun t => f_g (F t)) T (- ((hres_rk (att (e_a (e T)) T) (datt (e_a (e T)) l T) b T (1000 * p) u - gres_rk (att (e_a (e T)) T) b T (1000 * p) u) / T) + 1000 * vir_g p0 c' d' 0 p).
Proof.
  intros e b c d ce p0 T p l c' d' Hb Eb HT Hp Da Dc Dd Hr.
  destruct (vf_T e b vapour c d ce p0 T p Hb Eb HT Hp (ex_intro _ _ Da) Hr (or_introl eq_refl)) as (u & Eu & Lu). destruct (Eu : exists u1 : R, is_derive u T u1) as [u1 Du]. destruct (locally_singleton _ _ Lu) as (_ & Hu & E & _).
  assert (G : forall t, 0 < t -> b < u t -> Rg * t * (mrk_lng (e_a (e t)) b t p (u t) + vir_g p0 (c t) (d t) ce p / (RR * t)) = gres_rk (att (e_a (e t)) t) b t (1000 * p) (u t) + 1000 * vir_g p0 (c t) (d t) ce p).
  { intros t Ht Hut. rewrite <- (lng_gres _ b t p Hb Ht _ Hut). rewrite RR_Rg', <- RR_Rg. field. generalize RR_pos. lra. }
  exists (fun t => mrk_fug (e t) t p (u t + vir_v p0 (c t) (d t) ce p) (mrk_lng (e_a (e t)) b t p (u t) + vir_g p0 (c t) (d t) ce p / (RR * t))), (u T). split; [exact Hu|]. split; [exact E|]. split; [|split; [reflexivity|split; [exact (G T HT Hu)|split; [|split]]]].
  - generalize Lu. apply filter_imp. intros t (_ & _ & _ & Et). unfold mf. rewrite Et. reflexivity.
  - cbn [mrk_fug f_h f_v]. destruct (Rlt_dec b _) as [L|L]; [|ring]. rewrite Rplus_0_r. rewrite <- (h_hres _ b T p Hb HT (e_da (e T)) (e_d2a (e T)) _ L). unfold mrk_h. cbn [e_a e_b e_da]. now rewrite (Eb T).
  - cbn [mrk_fug f_g f_h f_s]. match goal with |- ?g = ?h - _ => generalize g h end. intros. field. lra.
  - cbn [mrk_fug f_g]. apply is_derive_ext_loc with (fun t => gres_rk (att (e_a (e t)) t) b t (1000 * p) (u t) + 1000 * vir_g p0 (c t) (d t) ce p).
    + generalize Lu. apply filter_imp. intros t (Ht & Hut & _). symmetry. exact (G t Ht Hut).
    + apply d_plus; [apply (gres_rk_T b T (1000 * p) Hb HT ltac:(lra) (fun t => att (e_a (e t)) t) (datt (e_a (e T)) l T) u u1 Hu); [exact (att_d (fun t => e_a (e t)) T _ HT Da)|exact Du|exact E]|apply d_scal, vir_g_T; assumption].
Qed.
(** water above 695 K: the code differentiates a cubic in 673 - T *)
Lemma sup_da : forall T, is_derive (fun t => e_a (h2o_sup t)) T (-22291 / 100000 + 2 * (-38022 / 100000000) * (T - 673) + 3 * (17791 / 100000000000) * (T - 673) ^ 2).
Proof.
  intros T. unfold h2o_sup. cbn [e_a]. assert (D : is_derive (fun t : R => t - 673) T 1) by (eapply d_eq; [apply d_minus; [apply d_id|apply d_const]|ring]).
  eapply d_eq; [apply d_plus; [apply d_plus; [apply d_plus; [apply d_const|apply d_scal; exact D]|apply d_scal, (d_pow (fun t => t - 673)); exact D]|apply d_scal, (d_pow (fun t => t - 673)); exact D]|]. cbv beta. cbn [INR pred pow]. ring.
Qed.
Lemma ln_vb : forall v b, 0 < b -> b < v -> 0 < ln ((v + b) / v).
Proof. intros v b Hb Hv. rewrite <- ln_1. apply ln_increasing; [lra|]. apply Rmult_lt_reg_r with v; [lra|]. unfold Rdiv. rewrite Rmult_assoc, Rinv_l by lra. lra. Qed.
Lemma h2o_hot_entropy : forall Tc Pc T P, 695 < T -> T < 1300 -> 0 < P -> P <= 2000 -> mrk_regular (a_h2o_hot T) b_h2o T (P / 1000) ->
  exists F : R -> fug, locally T (fun t => cork_pure PI "H2O" Tc Pc t P = Some (F t)) /\
  exists l, is_derive (fun t => f_g (F t)) T l /\ l <> - f_s (F T) /\ f_g (F T) = f_h (F T) - T * f_s (F T).
Proof.
  intros Tc Pc T P HT HT' HP HP' Hr. rewrite <- sup_a in Hr. assert (H0 : 0 < T) by lra. assert (Hs := s_pos T H0). assert (Da := sup_da T). revert Da. generalize (eq_refl (-22291 / 100000 + 2 * (-38022 / 100000000) * (T - 673) + 3 * (17791 / 100000000000) * (T - 673) ^ 2)). generalize (-22291 / 100000 + 2 * (-38022 / 100000000) * (T - 673) + 3 * (17791 / 100000000000) * (T - 673) ^ 2) at 1 3. intros dl Edl Da.
  destruct (slope_any h2o_sup b_h2o (fun _ => h2o_c) (fun _ => h2o_d) h2o_e h2o_p0 T (P / 1000) _ 0 0 b_h2o_pos sup_b H0 ltac:(lra) Da (d_const _ _) (d_const _ _) Hr) as (F & u & Hu & Eu & L & V & G & Hh & GS & D).
  destruct (vir_low h2o_p0 h2o_c h2o_d h2o_e (P / 1000) ltac:(unfold h2o_p0; lra)) as [V0 G0]. destruct (vir_low h2o_p0 0 0 0 (P / 1000) ltac:(unfold h2o_p0; lra)) as [_ G1].
  rewrite V0, Rplus_0_r in V. rewrite G0, Rmult_0_r, Rplus_0_r in G. rewrite G1, Rmult_0_r, Rplus_0_r in D. rewrite V in Hh. destruct (Rlt_dec b_h2o u); [|lra]. rewrite Rplus_0_r in Hh.
  exists F. split; [generalize (near_both _ _ _ (near_gt 695 T HT) L); apply filter_imp; intros t [A B]; rewrite h2o_pure_sup by exact A; exact B|]. eexists. split; [exact D|]. split; [|exact GS].
  intros X. assert (S : f_s (F T) = (f_h (F T) - f_g (F T)) / T) by (rewrite GS; field; lra). rewrite S, Hh, G in X. apply Ropp_eq_compat in X. rewrite !Ropp_involutive in X. unfold Rdiv in X. apply Rmult_eq_reg_r in X; [|apply Rinv_neq_0_compat; lra].
  assert (Lp := ln_vb u b_h2o b_h2o_pos Hu). unfold hres_rk in X. set (A := att _ _) in X. assert (Y : (datt (e_a (h2o_sup T)) dl T - datt (e_a (h2o_sup T)) (e_da (h2o_sup T)) T) * (T / b_h2o * ln ((u + b_h2o) / u)) = 0).
  { revert X. generalize (datt (e_a (h2o_sup T)) (e_da (h2o_sup T)) T) (datt (e_a (h2o_sup T)) dl T). generalize (ln ((u + b_h2o) / u)). unfold Rdiv. intros z x y X. match type of X with ?l = ?r => transitivity (l - r); [ring|lra] end. }
  apply Rmult_integral in Y. destruct Y as [Y|Y]; [|revert Y; apply Rgt_not_eq, Rmult_lt_0_compat; [apply Rdiv_lt_0_compat; [lra|exact b_h2o_pos]|exact Lp]].
  assert (Z : datt (e_a (h2o_sup T)) dl T - datt (e_a (h2o_sup T)) (e_da (h2o_sup T)) T = 1000 / sqrt T * (2 * (-22291 / 100000) + 6 * (17791 / 100000000000) * (T - 673) ^ 2)).
  { unfold datt. generalize (e_a (h2o_sup T)). intros a. unfold h2o_sup, h2o_fl, h2o_cubic. cbn [e_da]. rewrite Edl. field. lra. }
  rewrite Z in Y. apply Rmult_integral in Y. destruct Y as [Y|Y]; [revert Y; apply Rgt_not_eq, Rdiv_lt_0_compat; lra|]. assert ((T - 673) ^ 2 < 393129) by nra. lra.
Qed.
(** carbon dioxide above 5 kbar: the enthalpy is that of a Redlich-Kwong fluid of the corrected volume *)
Lemma co2_high_entropy : forall Tc Pc, exists F : R -> fug, locally 900 (fun t => cork_pure PI "CO2" Tc Pc t 9000 = Some (F t)) /\
  exists l, is_derive (fun t => f_g (F t)) 900 l /\ l <> - f_s (F 900) /\ f_g (F 900) = f_h (F 900) - 900 * f_s (F 900).
Proof.
  intros Tc Pc. assert (Hr := co2_reg9). rewrite <- co2_a in Hr.
  assert (Dc : is_derive (fun T : R => -178198 / 1000000 + 245317 / 10000000000 * T) 900 (245317 / 10000000000)) by (eapply d_eq; [apply d_plus; [apply d_const|apply d_scal, d_id]|ring]).
  assert (Dd : is_derive (fun T : R => 540776 / 100000000 + -159046 / 100000000000 * T) 900 (-159046 / 100000000000)) by (eapply d_eq; [apply d_plus; [apply d_const|apply d_scal, d_id]|ring]).
  destruct (slope_any co2_ab b_co2 _ _ 0 5 900 (9000 / 1000) _ _ _ b_co2_pos co2_b ltac:(lra) ltac:(lra) (co2_da 900) Dc Dd Hr) as (F & u & Hu & Eu & L & V & G & Hh & GS & D).
  exists F. split; [generalize L; apply filter_imp; intros t Et; rewrite co2_pure; exact Et|]. eexists. split; [exact D|]. split; [|exact GS]. intros X.
  assert (S4 : sqrt (9000 / 1000 - 5) = 2) by (apply sqrt_is; lra). assert (S9 : sqrt 900 = 30) by (apply sqrt_is; lra).
  unfold vir_v, vir_g in V, G, X. destruct (Rlt_dec 5 (9000 / 1000)) as [_|]; [|lra]. rewrite S4 in V, G, X.
  assert (Vu : f_v (F 900) = u - 296333556 / 1000000000) by (rewrite V; generalize (sqrt 2); intros; lra).
  rewrite Vu in Hh. unfold b_co2 in Hh, Hu. destruct (Rlt_dec 3.057 (u - 296333556 / 1000000000)) as [Hv|Hv].
  - rewrite Rplus_0_r in Hh. assert (S : f_s (F 900) = (f_h (F 900) - f_g (F 900)) / 900) by (rewrite GS; field).
    assert (K : 0 < ln ((u - 296333556 / 1000000000 + 3.057) / (u - 296333556 / 1000000000)) - ln ((u + 3.057) / u)).
    { apply Rlt_Rminus, ln_increasing; [apply Rdiv_lt_0_compat; lra|]. apply Rmult_lt_reg_r with (u * (u - 296333556 / 1000000000)); [apply Rmult_lt_0_compat; lra|].
      replace ((u + 3.057) / u * (u * (u - 296333556 / 1000000000))) with ((u + 3.057) * (u - 296333556 / 1000000000)) by (field; lra). replace ((u - 296333556 / 1000000000 + 3.057) / (u - 296333556 / 1000000000) * (u * (u - 296333556 / 1000000000))) with ((u - 296333556 / 1000000000 + 3.057) * u) by (field; lra). lra. }
    rewrite S, Hh, G in X. unfold hres_rk, gres_rk, att, datt, co2_ab, b_co2 in X. cbn [e_a e_da] in X. rewrite S9 in X.
    revert X K. generalize (ln ((u - 296333556 / 1000000000 + 3.057) / (u - 296333556 / 1000000000))) (ln ((u + 3.057) / u)). intros y x X K. unfold Rgas in X. lra.
  - exfalso. unfold eos_rk, att, co2_ab, b_co2, Rgas in Eu. cbn [e_a] in Eu. rewrite S9 in Eu.
    set (w := u - 3.057) in *. assert (Hw : 0 < w < 0.2964) by (unfold w; lra). replace u with (w + 3.057) in Eu by (unfold w; ring). clearbody w.
    assert (A : 8.31451 * 900 / w > 25000). { apply Rlt_gt, Rmult_lt_reg_r with w; [lra|]. unfold Rdiv. rewrite Rmult_assoc, Rinv_l by lra. lra. }
    assert (B : 1000 * (6598 / 10 + 21078 / 100000 * 900 + -63976 / 100000000 * 900 ^ 2) / 30 / ((w + 3.057) * (w + 3.057 + 3.057)) < 1000).
    { apply Rmult_lt_reg_r with ((w + 3.057) * (w + 3.057 + 3.057)); [apply Rmult_lt_0_compat; lra|]. unfold Rdiv at 1. rewrite Rmult_assoc, Rinv_l by (apply Rgt_not_eq, Rmult_lt_0_compat; lra). assert (0 < w * w) by (apply Rmult_lt_0_compat; lra). lra. }
    lra.
Qed.
