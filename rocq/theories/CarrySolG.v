(** Proofs: functionG and the Born coefficient carry their derivatives. *)
From Coq Require Import Bool Reals Lra Lia.
From Coquelicot Require Import Coquelicot.
From Verif Require Import RDeriv ThermoScalarModel ThermoScalarSpec ThermoScalarProofs MineralModel CarryModel CarrySpec CarryPf GasMore GasPhase SoluteModel SoluteSpec SoluteProofs SoluteG SoluteG2 CarryReacPf CarrySolute CarrySoluteSpec CarrySolPf.
Open Scope R_scope.
Lemma rlt_t : forall x y, x < y -> rlt x y = true. Proof. intros x y H. unfold rlt. destruct (Rlt_dec x y); [reflexivity|contradiction]. Qed.
Lemma rlt_f : forall x y, y <= x -> rlt x y = false. Proof. intros x y H. unfold rlt. destruct (Rlt_dec x y); [lra|reflexivity]. Qed.
Lemma isz_f : forall x, x <> 0 -> is_zero x = false. Proof. intros x H. unfold is_zero. destruct (Req_EM_T x 0); [contradiction|reflexivity]. Qed.
(** the derivatives of the correction vanish on and outside the boundary *)
Lemma ftTT_flat : forall a k, 0 < a < 1 -> 0 <= k -> 0 < (1824 / 100 * Rpower a (48 / 10) + 240 * k * a ^ 16) / (300 * a) ^ 2 <= (1 + k) * a ^ 2.
Proof.
  intros a k Ha Hk. destruct (small_pow a (48 / 10 - 1 - 1)) as [A B]; [exact Ha|lra|]. rewrite !Rpower_pred in A, B by lra.
  assert (C : 0 < a ^ 14 <= a ^ 2). { split; [apply pow_lt; lra|]. replace (a ^ 14) with (a ^ 2 * a ^ 12) by ring. assert (0 < a ^ 2) by (apply pow_lt; lra). assert (a ^ 12 <= 1). { rewrite <- (pow1 12). apply pow_incr. lra. } nra. }
  replace ((1824 / 100 * Rpower a (48 / 10) + 240 * k * a ^ 16) / (300 * a) ^ 2) with (1824 / 9000000 * (Rpower a (48 / 10) / a / a) + 240 / 90000 * (k * a ^ 14)) by (field; lra).
  assert (0 <= k * a ^ 14) by (apply Rmult_le_pos; lra). assert (k * a ^ 14 <= k * a ^ 2) by (apply Rmult_le_compat_l; lra). assert (0 < a ^ 2) by (apply pow_lt; lra). assert (0 <= k * a ^ 2) by (apply Rmult_le_pos; lra). split; lra.
Qed.
Definition outside (T P : R) : Prop := T - C_K <= 155 \/ 1000 <= P.
Section Out.
Variables (T P : R).
Hypothesis O : outside T P.
Let zero : gfun -> R := fun _ => 0.
Lemma out_T : forall k, k g_zero = 0 -> (P < 1000 -> exists C, 0 <= C /\ forall a, 0 < a < 1 -> Rabs (k (g_two (155 + 300 * a) P g_zero)) <= C * a ^ 2) -> is_derive (fun t : R => k (corr (t - C_K) P)) T 0.
Proof. intros k K B. apply (along_T k zero T P K eq_refl); [|exact B]. intros H1 H2. destruct O; lra. Qed.
Lemma out_P : forall k, k g_zero = 0 -> (155 < T - C_K -> exists C, 0 <= C /\ forall p, 0 < 1000 - p < 300 -> Rabs (k (g_two (T - C_K) p g_zero)) <= C * (1000 - p) ^ 2) -> is_derive (fun p : R => k (corr (T - C_K) p)) P 0.
Proof. intros k K B. pose proof (along_P k zero T P K eq_refl) as X. unfold zero in X. rewrite Rmult_0_r in X. apply X; [|exact B]. intros H1 H2. destruct O; lra. Qed.
Lemma Ea : forall a, (155 + 300 * a - 155) / 300 = a. Proof. intros; field. Qed.
Ltac bT F := intros _; pose proof af1_pos as AP; eexists; split; [|intros a Ha; cbn [g_ g_T g_P g_TT g_two g_zero]; rewrite Ea; first [apply (bound_T _ _ af1 _ af1_pos); now apply F|rewrite (Rmult_comm (af2 * _ + _)); apply (bound_T _ _ af1 _ af1_pos); now apply F]];
  apply Rmult_le_pos; [apply Rabs_pos|lra].
Lemma o_gT : is_derive (fun t : R => g_ (corr (t - C_K) P)) T 0. Proof. apply out_T; [reflexivity|]. bT ft_flat. Qed.
Lemma o_gTT : is_derive (fun t : R => g_T (corr (t - C_K) P)) T 0. Proof. apply out_T; [reflexivity|]. bT ftT_flat. Qed.
Lemma o_gPT : is_derive (fun t : R => g_P (corr (t - C_K) P)) T 0. Proof. apply out_T; [reflexivity|]. bT ft_flat. Qed.
Lemma o_gTTT : is_derive (fun t : R => g_TT (corr (t - C_K) P)) T 0. Proof. apply out_T; [reflexivity|]. bT ftTT_flat. Qed.
Ltac bP F := intros _; eexists; split; [|intros p Hp; cbn [g_ g_T g_P g_TT g_two g_zero]; first [apply bound_P; apply (F _ Hp)|rewrite (Rmult_comm (af2 * _ + _)); apply bound_P; apply (F _ Hp)]]; apply Rabs_pos.
Lemma afb1 : forall p, 0 < 1000 - p < 300 -> Rabs (af2 * (1000 - p) ^ 3 + af3 * (1000 - p) ^ 4) <= 1 * (1000 - p) ^ 2. Proof. intros p Hp. apply (proj1 (af_bound _ Hp)). Qed.
Lemma afb2 : forall p, 0 < 1000 - p < 300 -> Rabs (- (3 * af2 * (1000 - p) ^ 3 + 4 * af3 * (1000 - p) ^ 4) / ((1000 - p) * 100000)) <= 1 * (1000 - p) ^ 2. Proof. intros p Hp. apply (proj2 (af_bound _ Hp)). Qed.
Lemma o_gP : is_derive (fun p : R => g_ (corr (T - C_K) p)) P 0. Proof. apply out_P; [reflexivity|]. bP afb1. Qed.
Lemma o_gTP : is_derive (fun p : R => g_T (corr (T - C_K) p)) P 0. Proof. apply out_P; [reflexivity|]. bP afb1. Qed.
Lemma o_gPP : is_derive (fun p : R => g_P (corr (T - C_K) p)) P 0. Proof. apply out_P; [reflexivity|]. bP afb2. Qed.
Lemma o_gTTP : is_derive (fun p : R => g_TT (corr (T - C_K) p)) P 0. Proof. apply out_P; [reflexivity|]. bP afb1. Qed.
End Out.
Lemma in_bar : forall (f : R -> R) P d, is_derive f (P / 100000) d -> is_derive (fun p : R => f (p / 100000)) P (d / 100000).
Proof.
  intros f P d H. pose proof (is_derive_comp f (fun p : R => p / 100000) P d (1 / 100000) H) as X.
  assert (Y : is_derive (fun p : R => p / 100000) P (1 / 100000)) by (eapply d_eq; [dr; lra|lra]). specialize (X Y).
  replace (d / 100000) with (scal (1 / 100000) d); [exact X|]. unfold scal. cbn. unfold mult. cbn. field.
Qed.

Section G.
Variables (T P : R) (w : wetT) (W : R -> R -> wet).
Hypothesis CW : carriesWet w W T P.
Let G (t p : R) : gfun := g_of (functionG t (p / 100000) (W t p)).
Lemma c_TC : carries (TdegC T) (fun t p => t - C_K) T P.
Proof. unfold TdegC. cs3. Qed.
Lemma c_ag : carries (agS T) (fun t p => ag (t - C_K)) T P. Proof. pose proof c_TC. unfold agS, ag. cs3. Qed.
Lemma c_bg : carries (bgS T) (fun t p => bg (t - C_K)) T P. Proof. pose proof c_TC. unfold bgS, bg. cs3. Qed.
Lemma c_agT : carries (agTS T) (fun t p => agT (t - C_K)) T P. Proof. pose proof c_TC. unfold agTS, agT. cs3. Qed.
Lemma c_bgT : carries (bgTS T) (fun t p => bgT (t - C_K)) T P. Proof. pose proof c_TC. unfold bgTS, bgT. cs3. Qed.
Section One.
Hypothesis D0 : 0 < d_ (W T P) < 1000.
Hypothesis DT : d_T (W T P) <> 0.
Hypothesis DP : d_P (W T P) <> 0.
Let g1 (t p : R) : gfun := g_one (t - C_K) (W t p).
Lemma one_nz : ag (T - C_K) * Rpower (1 - d_ (W T P) / 1000) (bg (T - C_K)) <> 0.
Proof. pose proof (ag_neg (T - C_K)). assert (0 < Rpower (1 - d_ (W T P) / 1000) (bg (T - C_K))) by apply exp_pos. nra. Qed.
Lemma one_carries : carriesG (g_oneTS T w) g1 T P /\ carries (y_TP (g_oneTS T w)) (fun t p => g_TP (g1 t p)) T P /\ carries (y_PP (g_oneTS T w)) (fun t p => g_PP (g1 t p)) T P.
Proof.
  destruct CW as [W1 [W2 [W3 [W4 [W5 W6]]]]]. pose proof c_ag as A1. pose proof c_bg as A2. pose proof c_agT as A3. pose proof c_bgT as A4. pose proof (ag_neg (T - C_K)) as N1. pose proof (bg_big (T - C_K)) as N2. pose proof one_nz as N3.
  assert (N4 : - d_T (W T P) / d_ (W T P) <> 0) by (apply Rmult_integral_contrapositive_currified; [lra|apply Rinv_neq_0_compat; lra]).
  assert (N5 : d_P (W T P) / d_ (W T P) <> 0) by (apply Rmult_integral_contrapositive_currified; [lra|apply Rinv_neq_0_compat; lra]).
  unfold carriesG, g1, g_oneTS, g_one. cbv zeta. cbn [y_ y_T y_P y_TT y_TP y_PP g_ g_T g_P g_TT g_TP g_PP].
  split; [split; [|split; [|split]]|split]; cs3; first [exact N3|exact N4|exact N5|lra].
Qed.
Let S (t p : R) : gfun := gsum (g1 t p) (corr (t - C_K) (p / 100000)).
Lemma locT : locally T (fun t => G t P = S t P).
Proof.
  destruct CW as [W1 [W2 [W3 _]]]. assert (A := near_cont_lt _ _ 1000 (ex_d _ _ _ (proj1 (proj2 W1))) (proj2 D0)). assert (B := near_nz _ _ (ex_d _ _ _ (proj1 (proj2 W2))) DT). assert (C := near_nz _ _ (ex_d _ _ _ (proj1 (proj2 W3))) DP).
  assert (D := near_both _ _ _ A (near_both _ _ _ B C)). eapply filter_imp; [|exact D]. intros t (X & Y & Z). unfold G. rewrite split_g by assumption. reflexivity.
Qed.
Lemma locP : locally P (fun p => G T p = S T p).
Proof.
  destruct CW as [W1 [W2 [W3 _]]]. assert (A := near_cont_lt _ _ 1000 (ex_d _ _ _ (proj2 (proj2 W1))) (proj2 D0)). assert (B := near_nz _ _ (ex_d _ _ _ (proj2 (proj2 W2))) DT). assert (C := near_nz _ _ (ex_d _ _ _ (proj2 (proj2 W3))) DP).
  assert (D := near_both _ _ _ A (near_both _ _ _ B C)). eapply filter_imp; [|exact D]. intros p (X & Y & Z). unfold G. rewrite split_g by assumption. reflexivity.
Qed.
Lemma carriesG_loc : forall g F H, locally T (fun t => H t P = F t P) -> locally P (fun p => H T p = F T p) -> carriesG g F T P -> carriesG g H T P.
Proof.
  intros g F H L1 L2 [A [B [C D]]].
  assert (X : forall x (k : gfun -> R), carries x (fun t p => k (F t p)) T P -> carries x (fun t p => k (H t p)) T P).
  { intros x k K. refine (c_ext_loc _ _ _ _ _ _ _ K); [revert L1|revert L2]; apply filter_imp; intros u E; now rewrite E. }
  split; [now apply X|]. split; [now apply X|]. split; now apply X.
Qed.
Lemma add_flat : forall x (f k : R -> R -> R), carries x f T P -> k T P = 0 -> is_derive (fun t : R => k t P) T 0 -> is_derive (fun p : R => k T p) P 0 -> carries x (fun t p => f t p + k t p) T P.
Proof.
  intros x f k [A [B C]] Z D1 D2. split; [rewrite A, Z; ring|]. split.
  - eapply d_eq; [apply d_plus; [exact B|exact D1]|ring].
  - eapply d_eq; [apply d_plus; [exact C|exact D2]|ring].
Qed.
Lemma two_carries : 155 < T - C_K -> P / 100000 < 1000 -> forall x X, carriesG x X T P -> carriesG (g_twoTS T P x) (fun t p => g_two (t - C_K) (p / 100000) (X t p)) T P.
Proof.
  intros H1 H2 x X [A1 [A2 [A3 A4]]]. pose proof c_TC as A5. unfold carriesG, g_twoTS, g_two. cbv zeta. cbn [y_ y_T y_P y_TT g_ g_T g_P g_TT].
  split; [|split; [|split]]; cs3; first [lra | apply pow_nonzero; lra].
Qed.
Theorem low_carries : exists g, functionGTS T P w = Some g /\ carriesG g G T P.
Proof.
  destruct CW as [W1 [W2 [W3 _]]]. unfold functionGTS. rewrite (proj1 W1), (proj1 W2), (proj1 W3). rewrite rlt_f by lra. rewrite !isz_f by (try assumption; lra). cbn [orb]. eexists. split; [reflexivity|].
  apply (carriesG_loc _ S); [exact locT|exact locP|]. destruct one_carries as [[A1 [A2 [A3 A4]]] _].
  rewrite (proj1 c_TC), (proj1 (c_bar T P)). destruct (region2 (T - C_K) (P / 100000)) eqn:ER.
  - apply region2_in in ER. destruct ER as [R1 R2]. apply (carriesG_loc _ (fun t p => g_two (t - C_K) (p / 100000) (g1 t p))).
    + assert (L : locally T (fun t : R => 155 + C_K < t)) by (apply near_gt; lra). revert L. apply filter_imp. intros t Ht. unfold S. rewrite corr_in by lra.
      unfold gsum, g_two. cbn [g_ g_T g_P g_TT g_TP g_PP g_zero]. f_equal; ring.
    + assert (L : locally P (fun p : R => p < 100000000)) by (apply near_lt; lra). revert L. apply filter_imp. intros p Hp. unfold S. rewrite corr_in by lra.
      unfold gsum, g_two. cbn [g_ g_T g_P g_TT g_TP g_PP g_zero]. f_equal; ring.
    + apply two_carries; [exact R1|exact R2|]. exact (conj A1 (conj A2 (conj A3 A4))).
  - assert (O : outside T (P / 100000)). { unfold outside. destruct (Rle_dec (T - C_K) 155) as [L|L]; [now left|]. right. destruct (Rlt_dec (P / 100000) 1000) as [L2|L2]; [|lra]. exfalso. assert (X : region2 (T - C_K) (P / 100000) = true) by (apply region2_in; lra). congruence. }
    assert (Z : corr (T - C_K) (P / 100000) = g_zero) by (apply corr_out; exact O).
    assert (Y : forall k : gfun -> R, is_derive (fun q : R => k (corr (T - C_K) q)) (P / 100000) 0 -> is_derive (fun p : R => k (corr (T - C_K) (p / 100000))) P 0).
    { intros k K. eapply d_eq; [apply (in_bar (fun q : R => k (corr (T - C_K) q)) P 0 K)|lra]. }
    unfold carriesG, S. cbn [gsum g_ g_T g_P g_TT]. split; [|split; [|split]]; (apply add_flat; [assumption|rewrite Z; reflexivity| |apply Y]).
    + exact (o_gT T _ O). + exact (o_gP T _ O). + exact (o_gTT T _ O). + exact (o_gTP T _ O). + exact (o_gPT T _ O). + exact (o_gPP T _ O). + exact (o_gTTT T _ O). + exact (o_gTTP T _ O).
Qed.
End One.
Theorem dense_carries : 1000 < d_ (W T P) -> exists g, functionGTS T P w = Some g /\ carriesG g G T P.
Proof.
  intro D. destruct CW as [W1 _]. unfold functionGTS. rewrite (proj1 W1). rewrite rlt_t by exact D. eexists. split; [reflexivity|].
  apply (carriesG_loc _ (fun _ _ => g_zero)).
  - assert (L := near_cont _ _ 1000 (ex_d _ _ _ (proj1 (proj2 W1))) D). revert L. apply filter_imp. intros t Ht. unfold G, functionG. cbv beta in Ht. now rewrite rlt_t by exact Ht.
  - assert (L := near_cont _ _ 1000 (ex_d _ _ _ (proj2 (proj2 W1))) D). revert L. apply filter_imp. intros t Ht. unfold G, functionG. cbv beta in Ht. now rewrite rlt_t by exact Ht.
  - unfold carriesG, g_zeroTS. cbn [y_ y_T y_P y_TT g_zero g_ g_T g_P g_TT]. split; [|split; [|split]]; apply c_assign.
Qed.
End G.

(** *** the Born coefficient *)
Section O.
Variables (T P z wref : R) (g : gts) (G : R -> R -> gfun).
Hypothesis CG : carriesG g G T P.
Hypothesis N1 : re_ref z wref + Rabs z * g_ (G T P) <> 0.
Hypothesis N2 : rH + g_ (G T P) <> 0.
Ltac side := first [assumption | apply pow_nonzero; assumption | apply Rmult_integral_contrapositive_currified; [first [assumption|apply Rmult_integral_contrapositive_currified; assumption]|assumption]].
Theorem omega_reak_carries : forall hp, carriesEl (omega_reakTS z hp wref g) (fun t p => omega_reak z hp wref (G t p)) T P.
Proof.
  intro hp. destruct CG as [A1 [A2 [A3 A4]]]. unfold omega_reakTS, omega_reak. destruct (is_zero z || hp)%bool.
  - unfold carriesEl. cbn [u_w u_T u_P u_TT o_w o_T o_P o_TT]. split; [|split; [|split]]; apply c_assign.
  - unfold carriesEl. cbv zeta. cbn [u_w u_T u_P u_TT o_w o_T o_P o_TT]. split; [|split; [|split]]; cs3; side.
Qed.
Theorem omega_gems_carries : carriesEl (omega_gemsTS z wref g) (fun t p => omega_gems z wref (G t p)) T P.
Proof.
  destruct CG as [A1 [A2 [A3 A4]]]. assert (N1' : z ^ 2 / (wref / eta + z / (rH + 0)) + Rabs z * g_ (G T P) <> 0).
  { unfold re_ref in N1. rewrite Rplus_0_r. replace (z ^ 2) with (z * z) by ring. exact N1. }
  unfold omega_gemsTS, omega_gems. destruct (is_zero z).
  - unfold carriesEl. cbn [u_w u_T u_P u_TT o_w o_T o_P o_TT]. split; [|split; [|split]]; apply c_assign.
  - unfold carriesEl. cbv zeta. cbn [u_w u_T u_P u_TT o_w o_T o_P o_TT]. split; [|split; [|split]]; cs3; side.
Qed.
End O.
