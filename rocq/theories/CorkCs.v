(** The corresponding-states fluids. *)
From Coq Require Import List Bool Reals Lra Lia String Ascii.
From Coquelicot Require Import Coquelicot.
From Verif Require Import RDeriv GasModel GasSpec GasCubic GasProofs GasDeriv GasMore GasPhase CorkModel CorkSpec CorkProofs CorkDeriv CorkInst CorkWit.
Open Scope R_scope.

Definition cs_fug (Tc Pc T P : R) : fug := fst (cork_cs Tc (Pc / 1000) T (P / 1000)).
Lemma other_pure : forall pi formula Tc Pc T P, formula <> "CO2"%string -> formula <> "H2O"%string -> cork_pure pi formula Tc Pc T P = Some (cs_fug Tc Pc T P).
Proof. intros pi formula Tc Pc T P N1 N2. unfold cork_pure, cork_code. destruct (string_dec formula "H2O") as [E|_]; [contradiction|]. destruct (string_dec formula "CO2") as [E|_]; [contradiction|]. reflexivity. Qed.
Section Cs.
Variables (a c d : R -> R) (b da dc dd : R).
Hypothesis Hb : 0 < b.
Hypothesis Da : forall t, is_derive a t da.
Hypothesis Dc : forall t, is_derive c t dc.
Hypothesis Dd : forall t, is_derive d t dd.
Let k (t : R) : cspar := mkCs (a t) b (c t) (d t) da dc dd.
(** R T ln phi in kJ *)
Definition csg (k : cspar) (T p : R) : R := s_b k * p + s_a k / (s_b k * sqrt T) * (ln (RR * T + s_b k * p) - ln (RR * T + 2 * s_b k * p)) + 2 / 3 * s_c k * p * sqrt p + s_d k / 2 * p ^ 2.
Lemma csg_g : forall k T p, 0 < T -> 0 < p -> Rg * T * ln (cs_fc k T p) = 1000 * csg k T p.
Proof.
  intros k0 T p HT Hp. assert (Q := RT_kpos T HT). unfold cs_fc. unfold Rdiv at 1. rewrite ln_mult by (try apply exp_pos; apply Rinv_0_lt_compat; lra). rewrite ln_exp, ln_Rinv by lra. unfold cs_rtlnf, csg. rewrite RR_Rg'. generalize (ln (1000 * p)) (ln (RR * T + s_b k0 * p)) (ln (RR * T + 2 * s_b k0 * p)). intros x y z.
  generalize (s_a k0 / (s_b k0 * sqrt T)). intros w. field. generalize RR_pos. lra.
Qed.
Lemma csg_P : forall T P, 0 < T -> 0 < P -> is_derive (fun q => 1000 * csg (k T) T (q / 1000)) P (cs_v (k T) T (P / 1000) - Rgas * T / P).
Proof.
  intros T P HT HP. assert (Q := RT_kpos T HT). assert (S := s_pos T HT). assert (Hp : 0 < P / 1000) by lra. assert (Sp := sqrt_lt_R0 _ Hp). assert (Dq : is_derive (fun q : R => q / 1000) P (/ 1000)) by (eapply d_eq; [unfold Rdiv; apply d_scal_r, d_id|ring]).
  assert (B : 0 < b * (P / 1000)) by (apply Rmult_lt_0_compat; assumption). unfold csg, k. cbn [s_a s_b s_c s_d]. eapply d_eq.
  - apply d_scal, d_plus; [apply d_plus; [apply d_plus; [apply d_scal; exact Dq|apply d_scal, d_minus]|]|].
    + apply (d_ln (fun q => RR * T + b * (q / 1000))); [apply d_plus; [apply d_const|apply d_scal; exact Dq]|lra].
    + apply (d_ln (fun q => RR * T + 2 * b * (q / 1000))); [apply d_plus; [apply d_const|apply d_scal; exact Dq]|lra].
    + apply d_mult; [apply d_scal; exact Dq|apply (d_sqrt (fun q => q / 1000)); [exact Dq|exact Hp]].
    + apply d_scal, (d_pow (fun q => q / 1000)). exact Dq.
  - cbv beta. cbn [INR pred pow]. unfold cs_v. cbn [s_a s_b s_c s_d]. assert (E : P / 1000 = sqrt (P / 1000) * sqrt (P / 1000)) by (symmetry; apply sqrt_sqrt; lra). replace (Rgas * T / P) with (RR * T / (P / 1000)) by (rewrite <- RR_Rg; field; lra).
    assert (E2 : T = sqrt T * sqrt T) by (symmetry; apply sqrt_sqrt; lra).
    generalize dependent (sqrt (P / 1000)). intros q Hq Eq. rewrite Eq in *. generalize dependent (sqrt T). intros s Hs Es. rewrite Es in *. generalize (a (s * s)) (c (s * s)) (d (s * s)). intros x y z. generalize dependent RR. intros r Hr. field. repeat split; try lra; nra.
Qed.
Lemma csg_T : forall T p, 0 < T -> 0 < p -> is_derive (fun t => 1000 * csg (k t) t p) T (- ((cs_h (k T) T p - 1000 * csg (k T) T p) / T)).
Proof.
  intros T p HT Hp. assert (Q := RT_kpos T HT). assert (S := s_pos T HT). assert (Sp := sqrt_lt_R0 _ Hp). assert (B : 0 < b * p) by (apply Rmult_lt_0_compat; assumption). assert (G := RR_pos).
  assert (Ds : is_derive (fun t : R => sqrt t) T (1 / (2 * sqrt T))) by (apply (d_sqrt (fun t => t)); [apply d_id|exact HT]).
  unfold csg at 1, k. cbn [s_a s_b s_c s_d]. eapply d_eq.
  - apply d_scal, d_plus; [apply d_plus; [apply d_plus; [apply d_const|apply d_mult; [|apply d_minus]]|]|].
    + apply (d_div a (fun t => b * sqrt t)); [apply Da|apply d_scal; exact Ds|apply Rgt_not_eq, Rmult_lt_0_compat; lra].
    + apply (d_ln (fun t => RR * t + b * p)); [apply d_plus; [apply d_scal, d_id|apply d_const]|lra].
    + apply (d_ln (fun t => RR * t + 2 * b * p)); [apply d_plus; [apply d_scal, d_id|apply d_const]|lra].
    + apply d_scal_r, d_scal_r, d_scal. apply Dc.
    + unfold Rdiv. apply d_scal_r, d_scal_r. apply Dd.
  - cbv beta. unfold csg, cs_h, k. cbn [s_a s_b s_c s_d s_da s_dc s_dd]. generalize (ln (RR * T + b * p)) (ln (RR * T + 2 * b * p)) (a T) (c T) (d T). intros x y u v w.
    assert (E2 : T = sqrt T * sqrt T) by (symmetry; apply sqrt_sqrt; lra). generalize dependent (sqrt T). intros s Hs Ds E2. clear Ds. assert (NA : RR * T + b * p <> 0) by lra. assert (NB : RR * T + 2 * b * p <> 0) by lra. generalize dependent (RR * T + b * p). intros A NA. generalize dependent (RR * T + 2 * b * p). intros B' NB. rewrite E2. field. repeat split; lra.
Qed.
Lemma csh_T : forall T p, 0 < T -> 0 < p -> is_derive (fun t => cs_h (k t) t p) T (cs_cp (k T) T p).
Proof.
  intros T p HT Hp. assert (Q := RT_kpos T HT). assert (S := s_pos T HT). assert (Sp := sqrt_lt_R0 _ Hp). assert (B : 0 < b * p) by (apply Rmult_lt_0_compat; assumption). assert (G := RR_pos).
  assert (Ds : is_derive (fun t : R => sqrt t) T (1 / (2 * sqrt T))) by (apply (d_sqrt (fun t => t)); [apply d_id|exact HT]).
  assert (DA : is_derive (fun t => RR * t + b * p) T RR) by (eapply d_eq; [apply d_plus; [apply d_scal, d_id|apply d_const]|ring]).
  assert (DB : is_derive (fun t => RR * t + 2 * b * p) T RR) by (eapply d_eq; [apply d_plus; [apply d_scal, d_id|apply d_const]|ring]).
  assert (LA : is_derive (fun t => ln (RR * t + b * p)) T (RR / (RR * T + b * p))) by (apply (d_ln (fun t => RR * t + b * p)); [exact DA|lra]).
  assert (LB : is_derive (fun t => ln (RR * t + 2 * b * p)) T (RR / (RR * T + 2 * b * p))) by (apply (d_ln (fun t => RR * t + 2 * b * p)); [exact DB|lra]).
  assert (N2 : 2 * sqrt T * b <> 0) by (apply Rgt_not_eq; repeat apply Rmult_lt_0_compat; lra).
  assert (DS2 : is_derive (fun t => 2 * sqrt t * b) T (2 * (1 / (2 * sqrt T)) * b)) by (apply d_scal_r, d_scal; exact Ds).
  unfold cs_h, k. cbn [s_a s_b s_c s_d s_da s_dc s_dd]. eapply d_eq.
  - apply d_scal_r. apply d_plus; [apply d_plus; [apply d_plus; [apply d_minus; [apply d_minus; [apply d_plus; [apply d_minus; [apply d_plus; [apply d_minus; [apply d_minus|]|]|]|]|]|]|]|]|].
    + unfold Rdiv. apply d_scal_r, d_mult; [apply d_scal_r; exact Ds|exact LB].
    + unfold Rdiv. apply d_scal_r, d_mult; [apply d_scal_r; exact Ds|exact LA].
    + apply (d_div (fun t => 3 * a t * ln (RR * t + 2 * b * p)) (fun t => 2 * sqrt t * b)); [apply d_mult; [apply d_scal, Da|exact LB]|exact DS2|exact N2].
    + apply (d_div (fun t => 3 * a t * ln (RR * t + b * p)) (fun t => 2 * sqrt t * b)); [apply d_mult; [apply d_scal, Da|exact LA]|exact DS2|exact N2].
    + apply (d_div (fun t => sqrt t * a t * RR) (fun t => b * (RR * t + b * p))); [apply d_scal_r, d_mult; [exact Ds|apply Da]|apply d_scal; exact DA|apply Rgt_not_eq, Rmult_lt_0_compat; lra].
    + apply (d_div (fun t => sqrt t * a t * RR) (fun t => b * (RR * t + 2 * b * p))); [apply d_scal_r, d_mult; [exact Ds|apply Da]|apply d_scal; exact DB|apply Rgt_not_eq, Rmult_lt_0_compat; lra].
    + unfold Rdiv. apply d_scal_r, d_scal_r, d_scal_r, d_scal, d_id.
    + unfold Rdiv. apply d_scal_r, d_scal_r, d_scal_r, d_id.
    + apply d_const.
    + unfold Rdiv. apply d_scal_r, d_scal_r, d_scal, Dc.
    + unfold Rdiv. apply d_scal_r, d_scal_r, Dd.
  - cbv beta. unfold cs_cp. cbn [s_a s_b s_c s_d s_da s_dc s_dd]. generalize (ln (RR * T + b * p)) (ln (RR * T + 2 * b * p)) (a T) (c T) (d T). intros x y u v w.
    assert (E2 : T = sqrt T * sqrt T) by (symmetry; apply sqrt_sqrt; lra). clear Ds DA DB LA LB DS2. generalize dependent (sqrt T). intros s Hs N2 E2. assert (NA : RR * T + b * p <> 0) by lra. assert (NB : RR * T + 2 * b * p <> 0) by lra. generalize dependent (RR * T + b * p). intros A NA. generalize dependent (RR * T + 2 * b * p). intros B' NB. rewrite E2. field. repeat split; lra.
Qed.
End Cs.
(** the coefficients of the code *)
Lemma cs_par_eq : forall Tc pc T, 0 < pc -> let k := cs_par Tc pc T in s_a k = cs_a Tc pc T /\ s_b k = cs_b Tc pc /\ s_c k = cs_c Tc pc T /\ s_d k = cs_d Tc pc T.
Proof.
  intros Tc pc T Hp. assert (S := s_pos pc Hp). unfold cs_par, cs_a, cs_b, cs_c, cs_d. cbn [s_a s_b s_c s_d].
  replace 5.45963e-5 with (545963 / 10000000000) by lra. replace 8.6392e-6 with (86392 / 10000000000) by lra. replace 9.18301e-4 with (918301 / 1000000000) by lra. replace (-3.30558e-5) with (-330558 / 10000000000) by lra. replace 2.30524e-6 with (230524 / 100000000000) by lra. replace 6.93054e-7 with (693054 / 1000000000000) by lra. replace 8.38293e-8 with (838293 / 10000000000000) by lra.
  generalize (sqrt Tc). intros w. repeat split; field; try split; lra.
Qed.
Lemma cs_volume_eq : forall Tc pc T p, 0 < pc -> cs_v (cs_par Tc pc T) T p = cs_volume Tc pc T p.
Proof.
  intros Tc pc T p Hp. destruct (cs_par_eq Tc pc T Hp) as (Ea & Eb & Ec & Ed). unfold cs_v, cs_volume. rewrite Ea, Eb, Ec, Ed. replace (Rgas / 1000) with RR by (unfold RR, Rgas; lra). reflexivity.
Qed.
Lemma cs_slopes : forall formula Tc Pc T P, formula <> "CO2"%string -> formula <> "H2O"%string -> 0 < Tc -> 0 < Pc -> 0 < T -> 0 < P ->
  exists F : R -> R -> fug, (forall t q, cork_pure PI formula Tc Pc t q = Some (F t q)) /\
    f_v (F T P) = cs_volume Tc (Pc / 1000) T (P / 1000) /\ f_g (F T P) = Rgas * T * ln (f_phi (F T P)) /\ f_g (F T P) = f_h (F T P) - T * f_s (F T P) /\
    is_derive (fun q => f_g (F T q)) P (f_v (F T P) - Rgas * T / P) /\ is_derive (fun t => f_g (F t P)) T (- f_s (F T P)) /\ is_derive (fun t => f_h (F t P)) T (f_c (F T P)).
Proof.
  intros formula Tc Pc T P N1 N2 HTc HPc HT HP. exists (cs_fug Tc Pc). split; [intros t q; now apply other_pure|]. unfold cs_fug, cork_cs. cbv zeta. cbn [fst f_v f_g f_phi f_h f_s f_c].
  assert (Hpc : 0 < Pc / 1000) by lra. assert (Hp : 0 < P / 1000) by lra. set (pc := Pc / 1000) in *. assert (Sp := s_pos pc Hpc). assert (Hp2 : 0 < pc ^ 2) by (apply pow_lt; exact Hpc). assert (Hps : 0 < pc * sqrt pc) by (now apply Rmult_lt_0_compat).
  set (k1 := cs_par Tc pc 0). assert (Hb : 0 < s_b k1) by (unfold k1, cs_par; cbn [s_b]; apply Rdiv_lt_0_compat; lra).
  assert (Da : forall t : R, is_derive (fun t => s_a (cs_par Tc pc t)) t (s_da k1)). { intros t. unfold cs_par, k1. cbn [s_a s_da]. eapply d_eq; [apply d_plus; [apply d_const|apply d_scal, d_id]|]. unfold cs_par. cbn [s_da]. field. lra. }
  assert (Dc : forall t : R, is_derive (fun t => s_c (cs_par Tc pc t)) t (s_dc k1)). { intros t. unfold cs_par, k1. cbn [s_c s_dc]. eapply d_eq; [apply d_plus; [apply d_const|apply d_scal, d_id]|]. unfold cs_par. cbn [s_dc]. field. lra. }
  assert (Dd : forall t : R, is_derive (fun t => s_d (cs_par Tc pc t)) t (s_dd k1)). { intros t. unfold cs_par, k1. cbn [s_d s_dd]. eapply d_eq; [apply d_plus; [apply d_const|apply d_scal, d_id]|]. unfold cs_par. cbn [s_dd]. field. lra. }
  split; [apply cs_volume_eq; exact Hpc|]. split; [rewrite Rgas_Rg; reflexivity|]. split; [match goal with |- ?g = ?h - _ => generalize g h end; intros; field; lra|].
  assert (X1 := csg_P (fun t => s_a (cs_par Tc pc t)) (fun t => s_c (cs_par Tc pc t)) (fun t => s_d (cs_par Tc pc t)) (s_b k1) (s_da k1) (s_dc k1) (s_dd k1) Hb T P HT HP).
  assert (X2 := csg_T (fun t => s_a (cs_par Tc pc t)) (fun t => s_c (cs_par Tc pc t)) (fun t => s_d (cs_par Tc pc t)) (s_b k1) (s_da k1) (s_dc k1) (s_dd k1) Hb Da Dc Dd T (P / 1000) HT Hp).
  assert (X3 := csh_T (fun t => s_a (cs_par Tc pc t)) (fun t => s_c (cs_par Tc pc t)) (fun t => s_d (cs_par Tc pc t)) (s_b k1) (s_da k1) (s_dc k1) (s_dd k1) Hb Da Dc Dd T (P / 1000) HT Hp).
  cbv zeta in X1, X2, X3. split; [|split].
  - apply is_derive_ext_loc with (fun q => 1000 * csg (cs_par Tc pc T) T (q / 1000)); [|exact X1]. generalize (near_gt 0 P HP). apply filter_imp. intros q Hq. symmetry. apply csg_g; [exact HT|lra].
  - rewrite (csg_g _ T (P / 1000) HT Hp). apply is_derive_ext_loc with (fun t => 1000 * csg (cs_par Tc pc t) t (P / 1000)); [|exact X2]. generalize (near_gt 0 T HT). apply filter_imp. intros t Ht. symmetry. apply csg_g; [exact Ht|exact Hp].
  - exact X3.
Qed.
(** the volume of a light gas at high pressure is negative *)
Lemma cs_negative : cs_volume 36 (22.5 / 1000) 900 (49000 / 1000) < 0.
Proof.
  unfold cs_volume, cs_a, cs_b, cs_c, cs_d. rewrite (sqrt_is 36 6), (sqrt_is (22.5 / 1000) 0.15), (sqrt_is 900 30), (sqrt_is (49000 / 1000) 7) by lra. unfold Rgas. lra.
Qed.
Lemma cs_negative_volume : forall formula, formula <> "CO2"%string -> formula <> "H2O"%string -> exists f, cork_calc PI formula 273 36 22.5 900 49000 = Some f /\ f_v f < 0.
Proof.
  intros formula N1 N2. unfold cork_calc, calc_pure. rewrite other_pure by assumption. cbv zeta.
  destruct (Rle_dec 273 900); [|lra]. destruct (Rlt_dec 900 10000); [|lra]. destruct (Rle_dec _ 49000); [|lra]. destruct (Rlt_dec 49000 100000); [|lra]. cbn [andb]. eexists. split; [reflexivity|]. unfold cs_fug, cork_cs. cbv zeta. cbn [fst f_v]. rewrite cs_volume_eq by lra. exact cs_negative.
Qed.
