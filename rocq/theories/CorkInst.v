(** Carbon dioxide and water. *)
From Coq Require Import List Bool Reals Lra Lia String Ascii.
From Coquelicot Require Import Coquelicot.
From Verif Require Import RDeriv GasModel GasSpec GasCubic GasProofs GasDeriv GasMore GasPhase CorkModel CorkSpec CorkCubic CorkProofs CorkDeriv.
Open Scope R_scope.

Lemma fst_map : forall (o : option (R * R)) (f : R -> R -> fug) (l : R -> list R), option_map fst (match o with Some (v, g) => Some (f v g, l v) | None => None end) = match o with Some (v, g) => Some (f v g) | None => None end.
Proof. intros [[v g]|] f l; reflexivity. Qed.
Lemma co2_pure : forall Tc Pc T P, cork_pure PI "CO2" Tc Pc T P = mf vapour (co2_par T) T (P / 1000).
Proof. intros. unfold cork_pure, cork_co2, mf. cbn [cork_code]. exact (fst_map _ _ _). Qed.
Lemma h2o_pure : forall Tc Pc T P, cork_pure PI "H2O" Tc Pc T P = option_map (fun '(e, v, g) => mrk_fug e T (P / 1000) v g) (h2o_state PI T (P / 1000)).
Proof. intros. unfold cork_pure, cork_h2o. cbn [cork_code]. destruct (h2o_state PI T (P / 1000)) as [[[e v] g]|]; reflexivity. Qed.
Lemma h2o_pure_sup : forall Tc Pc T P, 695 < T -> cork_pure PI "H2O" Tc Pc T P = mf vapour (h2o_par (h2o_sup T)) T (P / 1000).
Proof. intros. rewrite h2o_pure. unfold h2o_state, mf. destruct (Rlt_dec 695 T); [|lra]. destruct (volume_fugacity _ _ _ _ _) as [[v g]|]; reflexivity. Qed.
Lemma h2o_pure_vap : forall Tc Pc T P, T <= 695 -> P < 1000 * h2o_psat T -> cork_pure PI "H2O" Tc Pc T P = mf vapour (h2o_par (h2o_vap T)) T (P / 1000).
Proof. intros. rewrite h2o_pure. unfold h2o_state, mf. destruct (Rlt_dec 695 T); [lra|]. destruct (Rlt_dec (P / 1000) (h2o_psat T)); [|lra]. destruct (volume_fugacity _ _ _ _ _) as [[v g]|]; reflexivity. Qed.
(** published and coded numbers *)
Lemma co2_a : forall T, e_a (co2_ab T) = a_co2 T. Proof. intros. unfold co2_ab, a_co2. cbn [e_a]. lra. Qed.
Lemma co2_b : forall T, e_b (co2_ab T) = b_co2. Proof. intros. unfold co2_ab, b_co2. cbn [e_b]. lra. Qed.
Lemma b_co2_pos : 0 < b_co2. Proof. unfold b_co2. lra. Qed.
Lemma b_h2o_pos : 0 < b_h2o. Proof. unfold b_h2o. lra. Qed.
Lemma cubic_b : forall x k1 k2 k3, e_b (h2o_cubic x k1 k2 k3) = b_h2o. Proof. intros. unfold h2o_cubic, h2o_b, b_h2o. cbn [e_b]. lra. Qed.
Lemma vap_b : forall T, e_b (h2o_vap T) = b_h2o. Proof. intros. unfold h2o_vap. destruct (Rlt_dec T 673); apply cubic_b. Qed.
Lemma con_b : forall T, e_b (h2o_con T) = b_h2o. Proof. intros. unfold h2o_con. destruct (Rlt_dec T 673); apply cubic_b. Qed.
Lemma sup_b : forall T, e_b (h2o_sup T) = b_h2o. Proof. intros. unfold h2o_sup, h2o_b, b_h2o. cbn [e_b]. lra. Qed.
Lemma sup_a : forall T, e_a (h2o_sup T) = a_h2o_hot T. Proof. intros. unfold h2o_sup, a_h2o_hot, h2o_a0. cbn [e_a]. lra. Qed.
Lemma gas_a : forall T, e_a (h2o_gas T) = a_h2o_gas T. Proof. intros. unfold h2o_gas, h2o_cubic, a_h2o_gas, h2o_a0. cbn [e_a]. lra. Qed.
Lemma liq_a : forall T, e_a (h2o_liq T) = a_h2o_liq T. Proof. intros. unfold h2o_liq, h2o_cubic, a_h2o_liq, h2o_a0. cbn [e_a]. lra. Qed.
Lemma vir_vcorr : forall p0 c d e P, vir_v p0 c d e (P / 1000) = vcorr c d e (1000 * p0) P.
Proof.
  intros. unfold vir_v, vcorr. replace (P / 1000 - p0) with ((P - 1000 * p0) / 1000) by field. destruct (Rlt_dec p0 (P / 1000)); destruct (Rlt_dec (1000 * p0) P); try lra; reflexivity.
Qed.
(** the volume *)
Lemma mf_vapour : forall k T P, let a := e_a (k_ab k) in let b := e_b (k_ab k) in 0 < b -> 0 < T -> 0 < P -> mrk_regular a b T (P / 1000) ->
  exists f u, mf vapour k T (P / 1000) = Some f /\ b < u /\ eos_rk (att a T) b T u = P /\ (forall w, b < w -> eos_rk (att a T) b T w = P -> w <= u) /\
  f_v f = u + vcorr (k_c k) (k_d k) (k_e k) (1000 * k_p0 k) P /\ (P <= 1000 * k_p0 k -> f_g f = gres_rk (att a T) b T P u) /\ f_g f = Rgas * T * ln (f_phi f) /\ f_g f = f_h f - T * f_s f.
Proof.
  intros k T P a b Hb HT HP Hr. destruct (vapour_ok k T (P / 1000) Hb HT ltac:(lra) Hr) as (u & Hu & E & M & V). fold a b in Hu, E, M, V. replace (1000 * (P / 1000)) with P in * by field.
  unfold mf. rewrite V. do 2 eexists. split; [reflexivity|]. split; [exact Hu|]. split; [exact E|]. split; [exact M|]. cbn [mrk_fug f_v f_g f_phi f_h f_s]. rewrite Rgas_Rg, ln_exp, vir_vcorr. split; [reflexivity|]. split.
  - intros L. destruct (vir_low (k_p0 k) (k_c k) (k_d k) (k_e k) (P / 1000) ltac:(lra)) as [_ ->]. replace P with (1000 * (P / 1000)) at 2 by field. rewrite <- (lng_gres a b T (P / 1000) Hb HT u Hu), Rgas_Rg. unfold Rdiv. now rewrite Rmult_0_l, Rplus_0_r.
  - split; [reflexivity|]. match goal with |- ?g = ?h - _ => generalize g h end. intros. field. lra.
Qed.
Lemma co2_volume : forall Tc Pc T P, 0 < T -> 0 < P -> let a := a_co2 T in let b := b_co2 in mrk_regular a b T (P / 1000) ->
  exists f u, cork_pure PI "CO2" Tc Pc T P = Some f /\ b < u /\ eos_rk (att a T) b T u = P /\ (forall w, b < w -> eos_rk (att a T) b T w = P -> w <= u) /\
  f_v f = u + vcorr (-0.178198 + 2.45317e-5 * T) (5.40776e-3 - 1.59046e-6 * T) 0 5000 P /\ (P <= 5000 -> f_g f = gres_rk (att a T) b T P u) /\ f_g f = Rgas * T * ln (f_phi f) /\ f_g f = f_h f - T * f_s f.
Proof.
  intros Tc Pc T P HT HP a b Hr. rewrite co2_pure. subst a b. rewrite <- co2_a, <- (co2_b T) in *. assert (Hb : 0 < e_b (k_ab (co2_par T))) by (cbn [co2_par k_ab]; rewrite co2_b; exact b_co2_pos). destruct (mf_vapour (co2_par T) T P Hb HT HP Hr) as (f & u & X). exists f, u. cbn [co2_par k_c k_d k_e k_p0 k_ab] in X.
  replace (-0.178198 + 2.45317e-5 * T) with (-178198 / 1000000 + 245317 / 10000000000 * T) by lra. replace (5.40776e-3 - 1.59046e-6 * T) with (540776 / 100000000 + -159046 / 100000000000 * T) by lra. replace 5000 with (1000 * 5) by lra. exact X.
Qed.
Lemma h2o_sup_volume : forall Tc Pc T P, 695 < T -> 0 < P -> let a := a_h2o_hot T in let b := b_h2o in mrk_regular a b T (P / 1000) ->
  exists f u, cork_pure PI "H2O" Tc Pc T P = Some f /\ b < u /\ eos_rk (att a T) b T u = P /\ (forall w, b < w -> eos_rk (att a T) b T w = P -> w <= u) /\
  f_v f = u + vcorr (-0.08909) 0.0019853 0.080331 2000 P /\ (P <= 2000 -> f_g f = gres_rk (att a T) b T P u) /\ f_g f = Rgas * T * ln (f_phi f) /\ f_g f = f_h f - T * f_s f.
Proof.
  intros Tc Pc T P HT HP a b Hr. rewrite h2o_pure_sup by exact HT. subst a b. rewrite <- sup_a, <- (sup_b T) in *. assert (Hb : 0 < e_b (k_ab (h2o_par (h2o_sup T)))) by (cbn [h2o_par k_ab]; rewrite sup_b; exact b_h2o_pos). destruct (mf_vapour (h2o_par (h2o_sup T)) T P Hb ltac:(lra) HP Hr) as (f & u & X). exists f, u. cbn [h2o_par k_c k_d k_e k_p0 k_ab] in X. unfold h2o_c, h2o_d, h2o_e, h2o_p0 in X.
  replace (-0.08909) with (-8909 / 100000) by lra. replace 0.0019853 with (19853 / 10000000) by lra. replace 0.080331 with (80331 / 1000000) by lra. replace 2000 with (1000 * 2) by lra. exact X.
Qed.
Lemma psat_small : forall T, 0 < T -> T <= 695 -> h2o_psat T < 2.
Proof.
  intros T H0 H1. unfold h2o_psat. assert (A2 : T ^ 2 <= 483025) by nra. assert (A4 : T ^ 4 <= 233313150625) by (replace (T ^ 4) with (T ^ 2 * T ^ 2) by ring; assert (0 <= T ^ 2) by nra; nra). assert (A5 : T ^ 5 <= 233313150625 * 695). { replace (T ^ 5) with (T ^ 4 * T) by ring. apply Rmult_le_compat; try lra. replace (T ^ 4) with ((T ^ 2) ^ 2) by ring. apply pow2_ge_0. }
  assert (0 <= T ^ 3) by (apply pow_le; lra). lra.
Qed.
Lemma h2o_vapour_volume : forall Tc Pc T P, 0 < T -> T < 673 -> 0 < P -> P < 1000 * h2o_psat T -> let a := a_h2o_gas T in let b := b_h2o in mrk_regular a b T (P / 1000) ->
  exists f u, cork_pure PI "H2O" Tc Pc T P = Some f /\ b < u /\ eos_rk (att a T) b T u = P /\ (forall w, b < w -> eos_rk (att a T) b T w = P -> w <= u) /\
  f_v f = u /\ f_g f = gres_rk (att a T) b T P u /\ f_g f = Rgas * T * ln (f_phi f) /\ f_g f = f_h f - T * f_s f.
Proof.
  intros Tc Pc T P H0 HT HP Hs a b Hr. rewrite h2o_pure_vap by lra. subst a b. assert (Ev : h2o_vap T = h2o_gas T) by (unfold h2o_vap; destruct (Rlt_dec T 673); [reflexivity|lra]). rewrite <- gas_a, <- (vap_b T), <- Ev in *. assert (Hb : 0 < e_b (k_ab (h2o_par (h2o_vap T)))) by (cbn [h2o_par k_ab]; rewrite vap_b; exact b_h2o_pos).
  destruct (mf_vapour (h2o_par (h2o_vap T)) T P Hb H0 HP Hr) as (f & u & X1 & X2 & X3 & X4 & X5 & X6 & X7). exists f, u. cbn [h2o_par k_c k_d k_e k_p0 k_ab] in *. assert (S := psat_small T H0 ltac:(lra)). unfold h2o_p0 in *. split; [exact X1|]. split; [exact X2|]. split; [exact X3|]. split; [exact X4|]. split; [|split; [apply X6; lra|exact X7]]. rewrite X5. unfold vcorr. destruct (Rlt_dec (1000 * 2) P); [lra|]. ring.
Qed.
(** slopes *)
Definition slopes (pure : R -> R -> option fug) (T P : R) : Prop :=
  exists F : R -> R -> fug, locally T (fun t => pure t P = Some (F t P)) /\ locally P (fun q => pure T q = Some (F T q)) /\
    is_derive (fun q => f_g (F T q)) P (f_v (F T P) - Rgas * T / P) /\ is_derive (fun t => f_g (F t P)) T (- f_s (F T P)) /\ is_derive (fun t => f_h (F t P)) T (f_c (F T P)).
Lemma mf_slopes : forall (pure : R -> R -> option fug) (e : R -> abpar) b (c d : R -> R) ce p0 T P, 0 < b -> (forall t, e_b (e t) = b) -> 0 < T -> 0 < P -> P <= 1000 * p0 ->
  locally T (fun t => pure t P = mf vapour (mkCork (e t) (c t) (d t) ce p0) t (P / 1000)) -> locally P (fun q => pure T q = mf vapour (mkCork (e T) (c T) (d T) ce p0) T (q / 1000)) ->
  locally T (fun t => is_derive (fun t => e_a (e t)) t (e_da (e t))) -> is_derive (fun t => e_da (e t)) T (e_d2a (e T)) -> mrk_regular (e_a (e T)) b T (P / 1000) -> slopes pure T P.
Proof.
  intros pure e b c d ce p0 T P Hb Eb HT HP Hp0 L1 L2 La D2 Hr.
  destruct (ck_T e b vapour c d ce p0 T (P / 1000) Hb Eb HT ltac:(lra) ltac:(lra) La D2 Hr (or_introl eq_refl)) as (F1 & K1 & DG & DH).
  assert (Hr' : mrk_regular (e_a (k_ab (mkCork (e T) (c T) (d T) ce p0))) (e_b (k_ab (mkCork (e T) (c T) (d T) ce p0))) T (P / 1000)) by (cbn [k_ab]; rewrite Eb; exact Hr).
  destruct (ck_P (mkCork (e T) (c T) (d T) ce p0) vapour T P ltac:(cbn [k_ab]; rewrite Eb; exact Hb) HT HP Hr' (or_introl eq_refl)) as (F2 & K2 & DP).
  apply (join pure T P F1 F2) with (g2 := fun f => f_v f - Rgas * T / P); [| |exact DP|exact DG|exact DH].
  - generalize (near_both _ _ _ L1 K1). apply filter_imp. intros t [A B]. now rewrite A.
  - generalize (near_both _ _ _ L2 K2). apply filter_imp. intros t [A B]. now rewrite A.
Qed.
Lemma co2_da : forall T, is_derive (fun t => e_a (co2_ab t)) T (e_da (co2_ab T)).
Proof. intros T. unfold co2_ab. cbn [e_a e_da]. eapply d_eq; [apply d_plus; [apply d_plus; [apply d_const|apply d_scal, d_id]|apply d_scal, d_pow, d_id]|]. cbv beta. cbn [INR pred pow]. ring. Qed.
Lemma co2_d2a : forall T, is_derive (fun t => e_da (co2_ab t)) T (e_d2a (co2_ab T)).
Proof. intros T. unfold co2_ab. cbn [e_d2a e_da]. eapply d_eq; [apply d_plus; [apply d_const|apply d_scal, d_id]|]. ring. Qed.
Lemma co2_slopes : forall Tc Pc T P, 0 < T -> 0 < P -> P <= 5000 -> mrk_regular (a_co2 T) b_co2 T (P / 1000) -> slopes (cork_pure PI "CO2" Tc Pc) T P.
Proof.
  intros Tc Pc T P HT HP H5 Hr. apply (mf_slopes _ co2_ab b_co2 (fun T => -178198 / 1000000 + 245317 / 10000000000 * T) (fun T => 540776 / 100000000 + -159046 / 100000000000 * T) 0 5 T P b_co2_pos co2_b HT HP ltac:(lra)).
  - apply filter_forall. intros t. exact (co2_pure Tc Pc t P).
  - apply filter_forall. intros q. exact (co2_pure Tc Pc T q).
  - apply filter_forall. exact co2_da.
  - apply co2_d2a.
  - rewrite co2_a. exact Hr.
Qed.
(** dG/dP above that pressure too *)
Lemma co2_work : forall Tc Pc T P, 0 < T -> 0 < P -> mrk_regular (a_co2 T) b_co2 T (P / 1000) ->
  exists F : R -> fug, locally P (fun q => cork_pure PI "CO2" Tc Pc T q = Some (F q)) /\ is_derive (fun q => f_g (F q)) P (f_v (F P) - Rgas * T / P).
Proof.
  intros Tc Pc T P HT HP Hr. rewrite <- co2_a, <- (co2_b T) in Hr. destruct (ck_P (co2_par T) vapour T P ltac:(cbn [co2_par k_ab]; rewrite co2_b; exact b_co2_pos) HT HP Hr (or_introl eq_refl)) as (F & L & D). exists F. split; [|exact D]. generalize L. apply filter_imp. intros q E. now rewrite co2_pure.
Qed.
Lemma h2o_sup_work : forall Tc Pc T P, 695 < T -> 0 < P -> mrk_regular (a_h2o_hot T) b_h2o T (P / 1000) ->
  exists F : R -> fug, locally P (fun q => cork_pure PI "H2O" Tc Pc T q = Some (F q)) /\ is_derive (fun q => f_g (F q)) P (f_v (F P) - Rgas * T / P).
Proof.
  intros Tc Pc T P HT HP Hr. rewrite <- sup_a, <- (sup_b T) in Hr. destruct (ck_P (h2o_par (h2o_sup T)) vapour T P ltac:(cbn [h2o_par k_ab]; rewrite sup_b; exact b_h2o_pos) ltac:(lra) HP Hr (or_introl eq_refl)) as (F & L & D). exists F. split; [|exact D]. generalize L. apply filter_imp. intros q E. now rewrite h2o_pure_sup.
Qed.
Lemma cubic_da : forall k1 k2 k3 T, is_derive (fun t => e_a (h2o_cubic (673 - t) k1 k2 k3)) T (e_da (h2o_cubic (673 - T) k1 k2 k3)).
Proof.
  intros k1 k2 k3 T. unfold h2o_cubic. cbn [e_a e_da]. assert (D : is_derive (fun t : R => 673 - t) T (-1)) by (eapply d_eq; [apply d_minus; [apply d_const|apply d_id]|ring]).
  eapply d_eq; [apply d_plus; [apply d_plus; [apply d_plus; [apply d_const|apply d_scal; exact D]|apply d_scal, (d_pow (fun t => 673 - t)); exact D]|apply d_scal, (d_pow (fun t => 673 - t)); exact D]|]. cbv beta. cbn [INR pred pow]. ring.
Qed.
Lemma cubic_d2a : forall k1 k2 k3 T, is_derive (fun t => e_da (h2o_cubic (673 - t) k1 k2 k3)) T (e_d2a (h2o_cubic (673 - T) k1 k2 k3)).
Proof.
  intros k1 k2 k3 T. unfold h2o_cubic. cbn [e_d2a e_da]. assert (D : is_derive (fun t : R => 673 - t) T (-1)) by (eapply d_eq; [apply d_minus; [apply d_const|apply d_id]|ring]).
  eapply d_eq; [apply d_minus; [apply d_minus; [apply d_const|apply d_scal; exact D]|apply d_scal, (d_pow (fun t => 673 - t)); exact D]|]. cbv beta. cbn [INR pred pow]. ring.
Qed.
Lemma vap_near : forall T, T <> 673 -> exists k1 k2 k3, (forall t, T < 673 /\ t < 673 \/ 673 < T /\ 673 < t -> h2o_vap t = h2o_cubic (673 - t) k1 k2 k3) /\ locally T (fun t => T < 673 /\ t < 673 \/ 673 < T /\ 673 < t).
Proof.
  intros T N. destruct (Rlt_dec T 673) as [L|L].
  - do 3 eexists. split; [intros t [[_ H]|[H _]]; [unfold h2o_vap; destruct (Rlt_dec t 673); [reflexivity|exfalso; lra]|exfalso; lra]|]. generalize (near_lt 673 T L). apply filter_imp. intros t Ht. left. split; [exact L|exact Ht].
  - do 3 eexists. split; [intros t [[H _]|[_ H]]; [exfalso; lra|unfold h2o_vap; destruct (Rlt_dec t 673); [exfalso; lra|reflexivity]]|]. generalize (near_gt 673 T ltac:(lra)). apply filter_imp. intros t Ht. right. split; [lra|exact Ht].
Qed.
Lemma psat_d : forall T, ex_derive h2o_psat T.
Proof. intros T. eexists. unfold h2o_psat. apply d_plus; [apply d_minus; [apply d_plus; [apply d_const|apply d_scal, d_pow, d_id]|apply d_scal, d_pow, d_id]|apply d_scal, d_pow, d_id]. Qed.
Lemma h2o_vapour_slopes : forall Tc Pc T P, 0 < T -> T < 695 -> T <> 673 -> 0 < P -> P < 1000 * h2o_psat T -> mrk_regular (e_a (h2o_vap T)) b_h2o T (P / 1000) -> slopes (cork_pure PI "H2O" Tc Pc) T P.
Proof.
  intros Tc Pc T P H0 HT N HP Hs Hr. assert (S := psat_small T H0 ltac:(lra)). destruct (vap_near T N) as (k1 & k2 & k3 & Ev & Lv). assert (Iv := locally_singleton _ _ Lv). cbv beta in Iv.
  assert (Ed : forall t, (T < 673 /\ t < 673 \/ 673 < T /\ 673 < t) -> locally t (fun x => h2o_vap x = h2o_cubic (673 - x) k1 k2 k3)).
  { intros t [[A B]|[A B]]; [generalize (near_lt 673 t B)|generalize (near_gt 673 t B)]; apply filter_imp; intros x Hx; apply Ev; [left|right]; split; assumption. }
  apply (mf_slopes _ h2o_vap b_h2o (fun _ => h2o_c) (fun _ => h2o_d) h2o_e h2o_p0 T P b_h2o_pos vap_b H0 HP ltac:(unfold h2o_p0; lra)).
  - assert (Dx : ex_derive (fun t => 1000 * h2o_psat t) T) by (destruct (psat_d T) as [l Hl]; eexists; apply d_scal; exact Hl).
    generalize (near_both _ _ _ (near_lt 695 T HT) (near_cont _ T P Dx Hs)). apply filter_imp. intros t [A B]. exact (h2o_pure_vap Tc Pc t P ltac:(lra) B).
  - generalize (near_lt (1000 * h2o_psat T) P Hs). apply filter_imp. intros q Hq. exact (h2o_pure_vap Tc Pc T q ltac:(lra) Hq).
  - generalize Lv. apply filter_imp. intros t It. apply is_derive_ext_loc with (fun x => e_a (h2o_cubic (673 - x) k1 k2 k3)).
    + generalize (Ed t It). apply filter_imp. intros x Ex. now rewrite Ex.
    + rewrite (Ev t It). apply cubic_da.
  - apply is_derive_ext_loc with (fun x => e_da (h2o_cubic (673 - x) k1 k2 k3)).
    + generalize (Ed T Iv). apply filter_imp. intros x Ex. now rewrite Ex.
    + rewrite (Ev T Iv). apply cubic_d2a.
  - exact Hr.
Qed.
