(** The residual functions reported by the cubic equations of state: values and slopes. *)
From Coq Require Import List Bool Reals Lra Lia.
From Coquelicot Require Import Coquelicot.
From Verif Require Import RDeriv GasModel GasSpec GasCubic GasProofs GasDeriv.
Open Scope R_scope.

Lemma srk_a_eq : forall Tc Pc w T, e_a (srk_ab Tc Pc w T) = a_srk Tc Pc w T.
Proof. intros. unfold srk_ab, a_srk, alpha, srk_m, srk_ac. cbn [e_a]. rewrite Rgas_Rg. replace 0.48 with (48/100) by lra. replace 1.574 with (1574/1000) by lra. replace 0.176 with (176/1000) by lra. replace 0.42747 with (42747/100000) by lra. ring. Qed.
Lemma srk_b_eq : forall Tc Pc w T, e_b (srk_ab Tc Pc w T) = b_srk Tc Pc.
Proof. intros. unfold srk_ab, b_srk. cbn [e_b]. rewrite Rgas_Rg. lra. Qed.
Lemma b_srk_pos : forall Tc Pc, 0 < Tc -> 0 < Pc -> 0 < b_srk Tc Pc.
Proof. intros. unfold b_srk, Rgas. apply Rdiv_lt_0_compat; lra. Qed.
Lemma scaled_sq : forall ac k T Tc, 0 < ac -> 0 <= ac * alpha k T Tc.
Proof. intros. unfold alpha. apply Rmult_le_pos; [lra|apply pow2_ge_0]. Qed.
Lemma ac_pos : forall c Tc Pc, 0 < c -> 0 < Tc -> 0 < Pc -> 0 < c * Rgas ^ 2 * Tc ^ 2 / Pc.
Proof. intros. apply Rdiv_lt_0_compat; [|lra]. apply Rmult_lt_0_compat; [|apply pow_lt; lra]. apply Rmult_lt_0_compat; [lra|]. apply pow_lt. unfold Rgas. lra. Qed.
Lemma a_srk_nn : forall Tc Pc w T, 0 < Tc -> 0 < Pc -> 0 <= a_srk Tc Pc w T.
Proof. intros. unfold a_srk. apply scaled_sq, ac_pos; lra. Qed.
(** slopes of the attraction, for any factor and any exponent coefficient *)
Lemma attr_d : forall ac k Tc T, 0 < Tc -> 0 < T ->
  let sqa := fun t => 1 + k * (1 - sqrt (t / Tc)) in let dsqa := fun t => - (1 / 2) * k / (sqrt (t / Tc) * Tc) in let d2 := 1 / 4 * k / (T / Tc * sqrt (T / Tc) * Tc ^ 2) in
  is_derive (fun t => sqa t ^ 2 * ac) T (2 * ac * (sqa T * dsqa T)) /\ is_derive (fun t => 2 * ac * (sqa t * dsqa t)) T (2 * ac * (dsqa T * dsqa T + sqa T * d2)).
Proof.
  intros ac k Tc T Hc HT sqa dsqa d2. split.
  - eapply d_eq; [apply d_scal_r, d_pow, (sqa_d k Tc T Hc HT)|]. cbn [INR pred]. unfold sqa, dsqa. ring.
  - eapply d_eq; [apply d_scal, d_mult; [apply (sqa_d k Tc T Hc HT)|apply (dsqa_d k Tc T Hc HT)]|]. reflexivity.
Qed.
Lemma a_srk_d : forall Tc Pc w T, 0 < Tc -> 0 < T -> is_derive (a_srk Tc Pc w) T (e_da (srk_ab Tc Pc w T)).
Proof. intros Tc Pc w T Hc HT. eapply d_ext; [intros t; apply srk_a_eq|]. exact (proj1 (attr_d (srk_ac Tc Pc) (srk_m w) Tc T Hc HT)). Qed.
Lemma a_srk_d2 : forall Tc Pc w T, 0 < Tc -> 0 < T -> is_derive (fun t => e_da (srk_ab Tc Pc w t)) T (e_d2a (srk_ab Tc Pc w T)).
Proof. intros Tc Pc w T Hc HT. exact (proj2 (attr_d (srk_ac Tc Pc) (srk_m w) Tc T Hc HT)). Qed.

(** *** the result of a query, Soave-Redlich-Kwong *)
Lemma ln_1p : forall b v, 0 < b -> b < v -> 1 + b / v = (v + b) / v.
Proof. intros. field. lra. Qed.
Lemma srk_vals : forall Tc Pc w T P f, 0 < Tc -> 0 < Pc -> 0 < T -> 0 < P -> b_srk Tc Pc * P < 1000 * (Rgas * T) -> srk_pure PI Tc Pc w T P = Some f ->
  let a := a_srk Tc Pc w T in let b := b_srk Tc Pc in let v := f_v f in let e := srk_ab Tc Pc w T in
  b < v /\ eos_rk a b T v = P /\ (forall u, b < u -> gres_rk a b T P v <= gres_rk a b T P u) /\
  f_g f = gres_rk a b T P v /\ f_h f = hres_rk a (e_da e) b T P v /\ f_s f = (f_h f - f_g f) / T /\ Rgas * T * ln (f_phi f) = f_g f /\
  f_c f = T * e_d2a e / b * ln ((v + b) / v) + T * srk_pt e v * (- / srk_pv T e v * srk_pt e v) - Rgas.
Proof.
  intros Tc Pc w T P f Hc Hp HT HP Hl E a b v e. unfold srk_pure in E. destruct (cardano _ _ _ _) as [r|] eqn:Er; [|discriminate].
  set (z := pick (srk_lnf (eA (e_a (srk_ab Tc Pc w T)) T P) (eB (e_b (srk_ab Tc Pc w T)) T P)) r) in *.
  assert (E' : Some f = Some f) by reflexivity. rewrite <- E in E' at 1. clear E. injection E' as E'. fold e in E', z.
  assert (Ev : v = z * Rg * T / P) by (unfold v; rewrite <- E'; reflexivity). assert (E1 : f_phi f = exp (srk_lnf (eA (e_a e) T P) (eB (e_b e) T P) z)) by (rewrite <- E'; reflexivity). assert (E2 : f_g f = srk_h T e z v - T * srk_s e z v) by (rewrite Ev, <- E'; reflexivity).
  assert (E3 : f_h f = srk_h T e z v) by (rewrite Ev, <- E'; reflexivity). assert (E4 : f_s f = srk_s e z v) by (rewrite Ev, <- E'; reflexivity). assert (E5 : f_c f = srk_c T e (eB (e_b e) T P) z v) by (rewrite Ev, <- E'; reflexivity). clear E'. clearbody v. rewrite E1, E2, E3, E4, E5. clear E1 E2 E3 E4 E5. assert (Ea : e_a e = a) by apply srk_a_eq. assert (Eb : e_b e = b) by apply srk_b_eq.
  assert (Hb : 0 < b) by (now apply b_srk_pos). assert (G := Rg_pos). rewrite Rgas_Rg in *.
  destruct (rk_chosen a b T P Hb HT HP) with (r := r) as (C1 & C2 & C3 & C4 & C5).
  - now apply a_srk_nn.
  - exact Hl.
  - rewrite <- Ea, <- Eb. exact Er.
  - rewrite <- Ea, <- Eb in C1, C2, C3, C4, C5. fold z in C1, C2, C3, C4, C5. rewrite <- Ev in C2, C3, C4, C5. rewrite Eb in C1, C2. rewrite Ea, Eb in C3, C4, C5.
    assert (Ez : z = P * v / (Rg * T)) by (rewrite Ev; field; repeat split; lra).
    assert (Eg : srk_h T e z v - T * srk_s e z v = gres_rk a b T P v).
    { unfold srk_h, srk_s, gres_rk. rewrite Ea, Eb, Rgas_Rg. rewrite (ln_1p b v Hb C2). rewrite Ez. replace (P * v / (Rg * T) * (1 - b / v)) with (P * (v - b) / (Rg * T)) by (field; repeat split; lra). field. repeat split; lra. }
    assert (Eh : srk_h T e z v = hres_rk a (e_da e) b T P v).
    { unfold srk_h, hres_rk. rewrite Ea, Eb, Rgas_Rg. rewrite (ln_1p b v Hb C2). rewrite Ez. field. repeat split; lra. }
    split; [exact C2|]. split; [exact C3|]. split; [exact C5|]. split; [exact Eg|]. split; [exact Eh|]. split; [field; lra|]. split.
    + rewrite ln_exp. rewrite Ea, Eb, Eg. exact C4.
    + unfold srk_c. rewrite Eb. replace (1 + eB b T P / z) with ((v + b) / v); [unfold Rdiv; ring|]. rewrite Ez. unfold eB. field. repeat split; lra.
Qed.
(** what stays true near a point *)
Lemma near_gt : forall c x : R, c < x -> locally x (fun t => c < t).
Proof. intros c x H. exact (open_gt c x H). Qed.
Lemma near_lt : forall c x : R, x < c -> locally x (fun t => t < c).
Proof. intros c x H. exact (open_lt c x H). Qed.
Lemma near_both : forall (x : R) (Q1 Q2 : R -> Prop), locally x Q1 -> locally x Q2 -> locally x (fun t => Q1 t /\ Q2 t).
Proof. intros x Q1 Q2 H1 H2. apply filter_and; assumption. Qed.
Lemma lim_near_T : forall b P T, 0 < T -> b * P < 1000 * (Rgas * T) -> locally T (fun t => 0 < t /\ b * P < 1000 * (Rgas * t)).
Proof.
  intros b P T HT Hl. apply near_both; [now apply near_gt|]. assert (G : 0 < Rgas) by (unfold Rgas; lra).
  assert (H : b * P / (1000 * Rgas) < T). { apply Rmult_lt_reg_r with (1000 * Rgas); [lra|]. unfold Rdiv. rewrite Rmult_assoc, Rinv_l by lra. lra. }
  generalize (near_gt _ _ H). apply filter_imp. intros t Ht. apply Rmult_lt_compat_r with (r := 1000 * Rgas) in Ht; [|lra]. unfold Rdiv in Ht. rewrite Rmult_assoc, Rinv_l in Ht by lra. lra.
Qed.
Lemma lim_near_P : forall b P T, 0 < b -> 0 < P -> b * P < 1000 * (Rgas * T) -> locally P (fun p => 0 < p /\ b * p < 1000 * (Rgas * T)).
Proof.
  intros b P T Hb HP Hl. apply near_both; [now apply near_gt|].
  assert (H : P < 1000 * (Rgas * T) / b). { apply Rmult_lt_reg_r with b; [lra|]. unfold Rdiv. rewrite Rmult_assoc, Rinv_l by lra. lra. }
  generalize (near_lt _ _ H). apply filter_imp. intros t Ht. apply Rmult_lt_compat_r with (r := b) in Ht; [|lra]. unfold Rdiv in Ht. rewrite Rmult_assoc, Rinv_l in Ht by lra. lra.
Qed.
(** slopes *)
Lemma srk_dP : forall Tc Pc w T P (F : R -> fug), 0 < Tc -> 0 < Pc -> 0 < T -> 0 < P -> b_srk Tc Pc * P < 1000 * (Rgas * T) ->
  locally P (fun p => srk_pure PI Tc Pc w T p = Some (F p)) -> ex_derive (fun p => f_v (F p)) P -> is_derive (fun p => f_g (F p)) P (f_v (F P) - Rgas * T / P).
Proof.
  intros Tc Pc w T P F Hc Hp HT HP Hl HF [v1 D]. assert (HF0 := locally_singleton _ _ HF). destruct (srk_vals _ _ _ _ _ _ Hc Hp HT HP Hl HF0) as (V1 & V2 & _).
  apply is_derive_ext_loc with (fun p => gres_rk (a_srk Tc Pc w T) (b_srk Tc Pc) T p (f_v (F p))).
  - generalize (near_both _ _ _ HF (lim_near_P _ _ _ (b_srk_pos _ _ Hc Hp) HP Hl)). apply filter_imp. intros p [E [H1 H2]]. symmetry. exact (proj1 (proj2 (proj2 (proj2 (srk_vals _ _ _ _ _ _ Hc Hp HT H1 H2 E))))).
  - apply (gres_rk_P (b_srk Tc Pc) T P) with (v := fun p => f_v (F p)) (v1 := v1); [apply b_srk_pos; assumption|exact HT|exact HP|exact V1|exact D|exact V2].
Qed.
Lemma srk_dT : forall Tc Pc w T P (F : R -> fug), 0 < Tc -> 0 < Pc -> 0 < T -> 0 < P -> b_srk Tc Pc * P < 1000 * (Rgas * T) ->
  locally T (fun t => srk_pure PI Tc Pc w t P = Some (F t)) -> ex_derive (fun t => f_v (F t)) T ->
  is_derive (fun t => f_g (F t)) T (- f_s (F T)) /\ (Derive (eos_rk (a_srk Tc Pc w T) (b_srk Tc Pc) T) (f_v (F T)) <> 0 -> is_derive (fun t => f_h (F t)) T (f_c (F T))).
Proof.
  intros Tc Pc w T P F Hc Hp HT HP Hl HF [v1 D]. assert (HF0 := locally_singleton _ _ HF). destruct (srk_vals _ _ _ _ _ _ Hc Hp HT HP Hl HF0) as (V1 & V2 & _ & V3 & V4 & V5 & _ & V6).
  assert (Hb := b_srk_pos _ _ Hc Hp). assert (Da := a_srk_d Tc Pc w T Hc HT). assert (D2 := a_srk_d2 Tc Pc w T Hc HT).
  assert (NB := near_both _ _ _ HF (lim_near_T _ _ _ HT Hl)). split.
  - apply is_derive_ext_loc with (fun t => gres_rk (a_srk Tc Pc w t) (b_srk Tc Pc) t P (f_v (F t))).
    + generalize NB. apply filter_imp. intros t [E [H1 H2]]. symmetry. exact (proj1 (proj2 (proj2 (proj2 (srk_vals _ _ _ _ _ _ Hc Hp H1 HP H2 E))))).
    + eapply d_eq; [apply (gres_rk_T (b_srk Tc Pc) T P) with (a := a_srk Tc Pc w) (v := fun p => f_v (F p)) (v1 := v1); [exact Hb|exact HT|exact HP|exact V1|exact Da|exact D|exact V2]|]. cbv beta. rewrite V5, V4, V3. reflexivity.
  - intros NZ. apply is_derive_ext_loc with (fun t => hres_rk (a_srk Tc Pc w t) (e_da (srk_ab Tc Pc w t)) (b_srk Tc Pc) t P (f_v (F t))).
    + generalize NB. apply filter_imp. intros t [E [H1 H2]]. symmetry. exact (proj1 (proj2 (proj2 (proj2 (proj2 (srk_vals _ _ _ _ _ _ Hc Hp H1 HP H2 E)))))).
    + assert (Br := rk_branch (b_srk Tc Pc) T Hb (a_srk Tc Pc w) _ (fun t => f_v (F t)) v1 V1 Da D).
      assert (B0 : is_derive (fun t => eos_rk (a_srk Tc Pc w t) (b_srk Tc Pc) t (f_v (F t))) T 0).
      { apply is_derive_ext_loc with (fun _ => P); [|apply d_const]. generalize NB. apply filter_imp. intros t [E [H1 H2]]. symmetry. exact (proj1 (proj2 (srk_vals _ _ _ _ _ _ Hc Hp H1 HP H2 E))). }
      assert (Z := d_unique _ _ _ _ Br B0). cbv beta in Z.
      assert (Pv : is_derive (eos_rk (a_srk Tc Pc w T) (b_srk Tc Pc) T) (f_v (F T)) (srk_pv T (srk_ab Tc Pc w T) (f_v (F T)))).
      { unfold eos_rk, srk_pv. rewrite srk_a_eq, srk_b_eq. eapply d_eq; [apply d_minus; apply d_div; [apply d_const|apply d_minus; [apply d_id|apply d_const]|lra|apply d_const|apply d_mult; [apply d_id|apply d_plus; [apply d_id|apply d_const]]|apply Rgt_not_eq, Rmult_lt_0_compat; lra]|]. cbv beta. rewrite Rgas_Rg. field. repeat split; lra. }
      rewrite (is_derive_unique _ _ _ Pv) in NZ.
      eapply d_eq; [apply (hres_rk_T (b_srk Tc Pc) T P) with (a := a_srk Tc Pc w) (da := fun t => e_da (srk_ab Tc Pc w t)) (v := fun t => f_v (F t)) (v1 := v1); [exact Hb|exact V1|exact Da|exact D2|exact D|exact V2]|]. cbv beta.
      rewrite V6. unfold srk_pt. unfold srk_pv in NZ |- *. rewrite srk_a_eq, srk_b_eq in *. rewrite Rgas_Rg in *.
      set (pt := Rg / (f_v (F T) - b_srk Tc Pc) - e_da (srk_ab Tc Pc w T) / (f_v (F T) * (f_v (F T) + b_srk Tc Pc))) in *. set (pv := - Rg * T / _ ^ 2 + _) in *.
      assert (Ev : v1 = - / pv * pt) by (apply Rmult_eq_reg_l with pv; [field_simplify; [lra|exact NZ]|exact NZ]). rewrite <- Ev. ring.
Qed.

(** *** Peng-Robinson form, for any temperature function of the parameters *)
Section PRV.
Variables (ac Tc b : R) (e : R -> abpar).
Hypothesis Hb : 0 < b.
Hypothesis He : forall t, 0 < t -> e_b (e t) = b /\ 0 <= e_a (e t).
Lemma pr_vals : forall T P f, 0 < T -> 0 < P -> b * P < 1000 * (Rgas * T) -> pr_pure PI ac (e T) Tc T P = Some f ->
  let a := e_a (e T) in let v := f_v f in
  b < v /\ eos_pr a b T v = P /\ (forall u, b < u -> gres_pr a b T P v <= gres_pr a b T P u) /\
  f_g f = gres_pr a b T P v /\ (forall kk da, pr_kk ac Tc T a = Some kk -> kk * a = - T * da -> f_h f = hres_pr a da b T P v) /\ f_s f = (f_h f - f_g f) / T /\ Rgas * T * ln (f_phi f) = f_g f /\
  f_c f = T * e_d2a (e T) / (2 * sqrt 2 * b) * prl b v + T * pr_pt (e T) v * (- / pr_pv T (e T) v * pr_pt (e T) v) - Rgas.
Proof.
  intros T P f HT HP Hl E a v. unfold pr_pure in E. destruct (cardano _ _ _ _) as [r|] eqn:Er; [|discriminate]. fold a in E, Er. destruct (pr_kk ac Tc T a) as [kk|] eqn:Ek; [|discriminate].
  destruct (He T HT) as [Eb Ha]. fold a in Ha. rewrite Eb in E, Er. set (z := pick (pr_lnf (eA a T P) (eB b T P)) r) in *.
  assert (E' : Some f = Some f) by reflexivity. rewrite <- E in E' at 1. clear E. injection E' as E'.
  assert (Ev : v = z * Rg * T / P) by (unfold v; rewrite <- E'; reflexivity). assert (E1 : f_phi f = exp (pr_lnf (eA a T P) (eB b T P) z)) by (rewrite <- E'; reflexivity). assert (E2 : f_g f = pr_g T (eA a T P) (eB b T P) z) by (rewrite <- E'; reflexivity).
  assert (E3 : f_h f = pr_h T (eA a T P) (eB b T P) z kk) by (rewrite <- E'; reflexivity). assert (E4 : f_s f = (f_h f - f_g f) / T) by (rewrite <- E'; reflexivity). assert (E5 : f_c f = pr_c T (e T) (eB b T P) z v) by (rewrite Ev, <- E'; reflexivity). clear E'. clearbody v.
  assert (G := Rg_pos). rewrite Rgas_Rg in *. destruct sqrt2 as [S2 [H1 H2]].
  destruct (pr_chosen a b T P Hb HT HP) with (r := r) as (C1 & C2 & C3 & C4 & C5).
  - exact Ha.
  - exact Hl.
  - exact Er.
  - fold z in C1, C2, C3, C4, C5. rewrite <- Ev in C2, C3, C4, C5.
    assert (Ez : z = v * P / (Rg * T)) by (rewrite Ev; field; repeat split; lra).
    assert (EL : pr_log (eB b T P) z = prl b v) by (rewrite Ez; now apply pr_log_v).
    assert (Eg : pr_g T (eA a T P) (eB b T P) z = Rg * T * pr_lnf (eA a T P) (eB b T P) z). { unfold pr_g, pr_lnf. destruct (Rlt_dec (eB b T P) z); [ring|contradiction]. }
    split; [exact C2|]. split; [exact C3|]. split; [exact C5|]. split; [rewrite E2, Eg; exact C4|]. split; [|split; [exact E4|split]].
    + intros kk' da [= <-] Hk. rewrite E3. unfold pr_h, hres_pr. rewrite EL. fold (prl b v). rewrite Rgas_Rg, sqrt8. unfold eA, eB. rewrite Ez.
      replace (a - T * da) with (a * (1 + kk)) by (replace (T * da) with (- (kk * a)) by lra; ring). field. repeat split; lra.
    + rewrite E1, E2, ln_exp, Eg. reflexivity.
    + rewrite E5. unfold pr_c. rewrite EL, Eb, sqrt8. unfold Rdiv. rewrite (Rmult_comm b (2 * sqrt 2)). ring.
Qed.
Variables (T P : R).
Hypothesis HT : 0 < T.
Hypothesis HP : 0 < P.
Hypothesis Hl : b * P < 1000 * (Rgas * T).
Lemma pr_dP : forall (F : R -> fug), locally P (fun p => pr_pure PI ac (e T) Tc T p = Some (F p)) -> ex_derive (fun p => f_v (F p)) P -> is_derive (fun p => f_g (F p)) P (f_v (F P) - Rgas * T / P).
Proof.
  intros F HF [v1 D]. assert (HF0 := locally_singleton _ _ HF). destruct (pr_vals _ _ _ HT HP Hl HF0) as (V1 & V2 & _).
  apply is_derive_ext_loc with (fun p => gres_pr (e_a (e T)) b T p (f_v (F p))).
  - generalize (near_both _ _ _ HF (lim_near_P _ _ _ Hb HP Hl)). apply filter_imp. intros p [E [H1 H2]]. symmetry. exact (proj1 (proj2 (proj2 (proj2 (pr_vals _ _ _ HT H1 H2 E))))).
  - apply (gres_pr_P b T P Hb HT HP) with (v := fun p => f_v (F p)) (v1 := v1); [exact V1|exact D|exact V2].
Qed.
(** the slope of the attraction used is the true one, near T *)
Hypothesis Hd : locally T (fun t => is_derive (fun t => e_a (e t)) t (e_da (e t)) /\ forall kk, pr_kk ac Tc t (e_a (e t)) = Some kk -> kk * e_a (e t) = - t * e_da (e t)).
Lemma pr_some_kk : forall t p f, pr_pure PI ac (e t) Tc t p = Some f -> exists kk, pr_kk ac Tc t (e_a (e t)) = Some kk.
Proof. intros t p f. unfold pr_pure. destruct (cardano _ _ _ _); [|discriminate]. destruct (pr_kk _ _ _ _) as [kk|]; [|discriminate]. intros _. now exists kk. Qed.
Lemma pr_dT : forall (F : R -> fug), locally T (fun t => pr_pure PI ac (e t) Tc t P = Some (F t)) -> ex_derive (fun t => f_v (F t)) T ->
  is_derive (fun t => f_g (F t)) T (- f_s (F T)) /\ (is_derive (fun t => e_da (e t)) T (e_d2a (e T)) -> Derive (eos_pr (e_a (e T)) b T) (f_v (F T)) <> 0 -> is_derive (fun t => f_h (F t)) T (f_c (F T))).
Proof.
  intros F HF [v1 D]. assert (HF0 := locally_singleton _ _ HF). assert (Hd0 := locally_singleton _ _ Hd). cbv beta in HF0, Hd0. destruct Hd0 as [Da Hk]. destruct (pr_some_kk _ _ _ HF0) as [kk Ek].
  destruct (pr_vals _ _ _ HT HP Hl HF0) as (V1 & V2 & _ & V3 & V4 & V5 & _ & V6). specialize (V4 _ _ Ek (Hk _ Ek)). destruct (He T HT) as [Eb _].
  assert (Hq := pr_quad b _ Hb V1). assert (NB := near_both _ _ _ HF (near_both _ _ _ Hd (lim_near_T _ _ _ HT Hl))). split.
  - apply is_derive_ext_loc with (fun t => gres_pr (e_a (e t)) b t P (f_v (F t))).
    + generalize NB. apply filter_imp. intros t [E [_ [H1 H2]]]. symmetry. exact (proj1 (proj2 (proj2 (proj2 (pr_vals _ _ _ H1 HP H2 E))))).
    + eapply d_eq; [apply (gres_pr_T b T P Hb HT HP) with (a := fun t => e_a (e t)) (v := fun p => f_v (F p)) (v1 := v1); [exact V1|exact Da|exact D|exact V2]|]. cbv beta. rewrite V5, V4, V3. reflexivity.
  - intros D2 NZ. apply is_derive_ext_loc with (fun t => hres_pr (e_a (e t)) (e_da (e t)) b t P (f_v (F t))).
    + generalize NB. apply filter_imp. intros t [E [[_ Hk'] [H1 H2]]]. symmetry. destruct (pr_some_kk _ _ _ E) as [kk' Ek']. exact (proj1 (proj2 (proj2 (proj2 (proj2 (pr_vals _ _ _ H1 HP H2 E))))) _ _ Ek' (Hk' _ Ek')).
    + assert (Br := pr_branch b T Hb (fun t => e_a (e t)) _ (fun t => f_v (F t)) v1 V1 Da D).
      assert (B0 : is_derive (fun t => eos_pr (e_a (e t)) b t (f_v (F t))) T 0).
      { apply is_derive_ext_loc with (fun _ => P); [|apply d_const]. generalize NB. apply filter_imp. intros t [E [_ [H1 H2]]]. symmetry. exact (proj1 (proj2 (pr_vals _ _ _ H1 HP H2 E))). }
      assert (Z := d_unique _ _ _ _ Br B0). cbv beta in Z.
      assert (Ed : pr_den (e T) (f_v (F T)) = f_v (F T) ^ 2 + 2 * b * f_v (F T) - b ^ 2) by (unfold pr_den; rewrite Eb; ring).
      assert (Pv : is_derive (eos_pr (e_a (e T)) b T) (f_v (F T)) (pr_pv T (e T) (f_v (F T)))).
      { unfold eos_pr, pr_pv. rewrite Ed, Eb. eapply d_eq; [apply d_minus; apply d_div; [apply d_const|apply d_minus; [apply d_id|apply d_const]|lra|apply d_const|apply d_minus; [apply d_plus; [apply d_pow, d_id|apply d_scal, d_id]|apply d_const]|lra]|]. cbv beta. cbn [INR pred]. rewrite Rgas_Rg. field. repeat split; lra. }
      rewrite (is_derive_unique _ _ _ Pv) in NZ.
      eapply d_eq; [apply (hres_pr_T b T P Hb) with (a := fun t => e_a (e t)) (da := fun t => e_da (e t)) (v := fun t => f_v (F t)) (v1 := v1); [exact V1|exact Da|exact D2|exact D|exact V2]|]. cbv beta.
      rewrite V6. unfold pr_pt. unfold pr_pv in NZ |- *. rewrite Ed, Eb in *. rewrite Rgas_Rg in *.
      set (pt := Rg / (f_v (F T) - b) - e_da (e T) / _) in *. set (pv := - Rg * T / _ ^ 2 + _) in *.
      assert (Ev : v1 = - / pv * pt) by (apply Rmult_eq_reg_l with pv; [field_simplify; [lra|exact NZ]|exact NZ]). rewrite <- Ev. ring.
Qed.
End PRV.
