(** The gap of the gems code, and concrete cases. *)
From Coq Require Import String Bool Reals Lra Lia.
From Coquelicot Require Import Coquelicot.
From Verif Require Import RDeriv ThermoScalarModel ThermoScalarSpec ThermoScalarProofs MineralModel MineralSpec CarryModel CarrySpec CarryPf GasMore GasPhase SoluteModel SoluteSpec SoluteProofs SoluteG SoluteG2 SoluteO SoluteHKF SoluteDens SoluteEx CarryReacPf CarrySolute CarrySoluteSpec CarrySolPf CarrySolG CarrySolUse CarrySolAD.
Open Scope R_scope.
Lemma g1_T_val : forall (T P : R) (w : wetT), let pw := Rabs (1 - val (xd w) / 1000) in let bb := bg (T - C_K) in
  val (y_T (s_oneTS T w)) - agT (T - C_K) * Rpower pw bb = ag (T - C_K) * (bb * Rpower pw (bb - 1) * (val (xd w) / 1000 * val (xal w)) + ln pw * Rpower pw bb * bgT (T - C_K)).
Proof.
  intros T P w pw bb. assert (B := b_val T P). fold bb in B. assert (A := proj1 (c_aS T P)). cbv beta in A.
  assert (CB := c_bgT T P). assert (CA := c_agT T P). assert (BT := proj1 CB). assert (AT := proj1 CA). cbv beta in BT, AT.
  unfold s_oneTS. cbv zeta. cbn [y_T]. rewrite (pwv w), B. fold pw. set (D := ts_div_d (xd w) 1000). assert (DV : val D = val (xd w) / 1000) by apply Dv.
  assert (MV : forall a c, val (ts_mul a c) = val a * val c) by reflexivity. assert (AV : forall a c, val (ts_add a c) = val a + val c) by reflexivity.
  assert (MD : forall a c, val (ts_mul_d a c) = c * val a). { intros. unfold ts_mul_d, d_mul_ts, ctor5. destruct (is0 _); reflexivity. }
  assert (DM : forall a c, val (d_mul_ts c a) = c * val a). { intros. unfold d_mul_ts, ctor5. destruct (is0 _); reflexivity. }
  assert (NV : forall a, val (ts_neg a) = - val a) by reflexivity. assert (SV : forall v, val (ts_assign v) = v) by reflexivity.
  rewrite !AV, !MV, !AV, !MV, ?MD, ?DM, !NV, ?SV, A, AT, BT, B, DV. ring.
Qed.
Section G.
Variables (T P : R) (rG rHh rS : TS) (h : hkf) (w : wetT) (b : bornT) (z wref : R) (g : gts).
Hypothesis RG : read_value rG (hG h).
Hypothesis RH : read_value rHh (hH h).
Hypothesis RS : read_value rS (hS h).
Hypothesis HT : theta < T.
Hypothesis HP : 0 < psi + P / 100000.
Hypothesis BY : ddt (vZ b) = val (vY b).
Hypothesis BQ : ddp (vZ b) = val (vQ b).
Hypothesis SG : gShok2TS T P w = Some g.
Hypothesis Hz : z <> 0.
Hypothesis N1 : re_ref z wref + Rabs z * val (y_ g) <> 0.
Hypothesis N2 : rH + val (y_ g) <> 0.
Theorem gems_exact : let r := hkf_gemsTS T P rG rHh rS h (omega_gemsTS z wref g) b in let c := T - C_K in let D := val (xd w) / 1000 in let pw := Rabs (1 - D) in
  let s := - eta * (Rabs (z ^ 3) / (re_ref z wref + Rabs z * val (y_ g)) ^ 2 - z / (rH + val (y_ g)) ^ 2) in
  ddt (tG r) = - val (tS r) + cal * (1 + val (vZ b)) * s * (ag c * (bg c * Rpower pw (bg c - 1) * (D * val (xal w)) + ln pw * Rpower pw (bg c) * bgT c)) /\
  ddp (tG r) = val (tV r) / (4184004 / 4184000) / 100000 - cal * (1 + val (vZ b)) * s * (ag c * bg c * Rpower pw (bg c - 1) * (D * val (xbe w))).
Proof.
  intros r c D pw s. assert (HC : hkf_TS hkf_gems hkf_gemsTS) by (right; now split).
  destruct (om_slope T P z wref g Hz N1 N2) as [O1 [O2 [O3 O4]]]. fold s in O1, O2, O3, O4. destruct (shok_gap T P w g SG) as [K1 K2].
  assert (Q1 := exact_T hkf_gems hkf_gemsTS HC T P rG rHh rS h RG RH RS HT HP (omega_gemsTS z wref g) b BY BQ). assert (Q2 := exact_P hkf_gems hkf_gemsTS HC T P rG rHh rS h RG RH RS HT HP (omega_gemsTS z wref g) b BY BQ).
  fold r in Q1, Q2. rewrite Q1, Q2, O1, O2, O3, O4. assert (W1 := g1_T_val T P w). cbv zeta in W1. assert (W2 := g1_P_val T P w).
  rewrite W1 in K1. rewrite W2 in K2. split.
  - replace (s * val (y_T g) - s * ddt (y_ g)) with (s * (val (y_T g) - ddt (y_ g))) by ring. rewrite K1. unfold c, pw, D. ring.
  - replace (s * val (y_P g) - s * ddp (y_ g)) with (s * (val (y_P g) - ddp (y_ g))) by ring. rewrite K2. unfold vfac, c, pw, D. ring.
Qed.
Lemma slope_neg : z < 0 -> - eta * (Rabs (z ^ 3) / (re_ref z wref + Rabs z * val (y_ g)) ^ 2 - z / (rH + val (y_ g)) ^ 2) < 0.
Proof.
  intro Zn. assert (A1 : 0 < (re_ref z wref + Rabs z * val (y_ g)) ^ 2) by (apply pow2_gt_0; exact N1). assert (A2 : 0 < (rH + val (y_ g)) ^ 2) by (apply pow2_gt_0; exact N2).
  assert (A3 : 0 < Rabs (z ^ 3)) by (apply Rabs_pos_lt, pow_nonzero; exact Hz). assert (B1 := Rdiv_lt_0_compat _ _ A3 A1).
  assert (B2 : 0 < - z / (rH + val (y_ g)) ^ 2) by (apply Rdiv_lt_0_compat; lra). replace (- z / (rH + val (y_ g)) ^ 2) with (- (z / (rH + val (y_ g)) ^ 2)) in B2 by (field; exact N2).
  set (u := Rabs (z ^ 3) / _) in *. set (v := z / _) in *. unfold eta. lra.
Qed.
Theorem gems_wrong : z < 0 -> 1 + val (vZ b) <> 0 -> val (xd w) <> 0 -> val (xbe w) <> 0 ->
  let r := hkf_gemsTS T P rG rHh rS h (omega_gemsTS z wref g) b in ddp (tG r) <> val (tV r) / (4184004 / 4184000) / 100000.
Proof.
  intros Zn Bn Dn En r. destruct gems_exact as [_ Q]. fold r in Q. assert (SN := slope_neg Zn). set (s := - eta * _) in *. clearbody s. rewrite Q. intro E.
  set (pw := Rabs (1 - val (xd w) / 1000)) in *. assert (E1 : 0 < Rpower pw (bg (T - C_K) - 1)) by apply exp_pos. assert (E2 := ag_neg (T - C_K)). assert (E3 := bg_big (T - C_K)). assert (E4 := cal_pos).
  set (x := Rpower pw (bg (T - C_K) - 1)) in *. clearbody x. set (y := val (tV r) / _ / _) in *. clearbody y.
  assert (E5 : cal * (1 + val (vZ b)) * s * (ag (T - C_K) * bg (T - C_K) * x * (val (xd w) / 1000 * val (xbe w))) = 0) by lra.
  revert E5. repeat apply Rmult_integral_contrapositive_currified; try lra; try assumption.
Qed.
End G.

(** *** concrete cases *)
Definition W_ex (t p : R) : wet := w_ex t (p / 100000).
Definition B_ex (t p : R) : born := b_ex t (p / 100000).
Definition dS_ex (k : R) : TS := let d := 900 * exp (- 400 / 1000 + 300 / 100000) in mkTS (k * d) (- k * d / 1000) (k * d / 10000000000) 0 (calculated, String.EmptyString).
Definition wS_ex : wetT := mkWetT (dS_ex 1) (dS_ex (- (1 / 1000))) (dS_ex (1 / 10000000000)) (dS_ex (1 / 1000000)) (dS_ex (- (1 / 10000000000000))) (dS_ex (1 / 100000000000000000000)) (ts_assign (1 / 1000)) (ts_assign (1 / 10000000000)) (ts_assign 0).
Definition bS_ex : bornT := mkBornT (mkTS (- (1 / 80) - 6 / 100000 * (400 - 300) - 300 / 1000000) (- (6 / 100000)) (- (1 / 100000000000)) 0 (calculated, String.EmptyString)) (ts_assign (- (6 / 100000))) (ts_assign (- (1 / 100000000000))) (ts_assign 0).
Definition rd (v : R) : TS := mkTS v 0 0 0 (read, String.EmptyString).
Lemma rd_ok : forall v, read_value (rd v) v. Proof. intro v. split; [reflexivity|]. split; reflexivity. Qed.
Lemma dS_c : forall k (f : R -> R -> R), (forall t p, f t p = k * (900 * exp (- t / 1000 + p / 100000 / 100000))) -> carries (dS_ex k) f 400 30000000.
Proof.
  intros k f E. assert (E0 : 30000000 / 100000 / 100000 = 300 / 100000) by lra. apply (c_ext _ (fun t p => k * (900 * exp (- t / 1000 + p / 100000 / 100000)))); [intros; symmetry; apply E|].
  unfold carries, dS_ex. cbn [val ddt ddp]. split; [now rewrite E0|]. split; (eapply d_eq; [dr; lra|]; cbv beta; rewrite E0; set (x := exp _); clearbody x; field).
Qed.
Lemma W_c : carriesWet wS_ex W_ex 400 30000000.
Proof. unfold carriesWet, wS_ex, W_ex, w_ex. cbn [xd xdT xdP xdTT xdTP xdPP d_ d_T d_P d_TT d_TP d_PP]. split; [|split; [|split; [|split; [|split]]]]; apply dS_c; intros t p; set (x := exp _); clearbody x; field. Qed.
Lemma B_c : carriesBorn bS_ex B_ex 400 30000000.
Proof.
  unfold carriesBorn, bS_ex, B_ex, b_ex. cbn [vZ vY vQ vX bZ bY bQ bX]. split; [|split; [|split]]; try apply c_const.
  unfold carries. cbn [val ddt ddp]. split; [lra|]. split; (eapply d_eq; [dr; lra|]; cbv beta; lra).
Qed.
Lemma W_same : forall t q, W_ex t (q * 100000) = w_ex t q. Proof. intros t q. unfold W_ex. f_equal. field. Qed.
Lemma B_same : forall t q, B_ex t (q * 100000) = b_ex t q. Proof. intros t q. unfold B_ex. f_equal. field. Qed.
Lemma W_ok : water_ok (fun t q => W_ex t (q * 100000)) 400 (30000000 / 100000).
Proof.
  replace (30000000 / 100000) with 300 by lra. pose proof (w_ex_ok 400 300) as H. unfold water_ok in *. rewrite !W_same. destruct H as (A & B & C & D & E & F).
  split; [|split; [|split; [|split; [|split]]]]; (eapply d_ext; [|eassumption]; intro; now rewrite W_same).
Qed.
Lemma B_ok : born_ok (fun t q => B_ex t (q * 100000)) 400 (30000000 / 100000).
Proof.
  replace (30000000 / 100000) with 300 by lra. pose proof (b_ex_ok 400 300) as H. unfold born_ok in *. rewrite !B_same. destruct H as (A & B & C).
  split; [|split]; (eapply d_ext; [|eassumption]; intro; now rewrite B_same).
Qed.
Lemma solute_ex : exists g, functionGTS 400 30000000 wS_ex = Some g /\ let r := hkf_reakTS 400 30000000 (rd (-261881)) (rd (-240300)) (rd 58) h_ex (omega_reakTS 1 false 33060 g) bS_ex in
  ddt (tG r) = - val (tS r) /\ ddp (tG r) = val (tV r) / (4184004 / 4184000) / 100000 /\ ddt (tH r) = val (tC r) /\ 400 * ddt (tS r) = val (tC r).
Proof.
  destruct w_ex_range as ((A & B) & C & D). assert (G := g_ex_bound).
  assert (WE : W_ex 400 30000000 = w_ex 400 300) by (unfold W_ex; f_equal; lra).
  assert (GE : g_of (functionG 400 (30000000 / 100000) (W_ex 400 30000000)) = gval w_ex 400 300). { unfold gval, g_of. rewrite WE. replace (30000000 / 100000) with 300 by lra. reflexivity. }
  assert (L : 0 < d_ (W_ex 400 30000000) < 1000 /\ d_T (W_ex 400 30000000) <> 0 /\ d_P (W_ex 400 30000000) <> 0). { rewrite WE. split; [lra|]. split; assumption. }
  assert (N2 : rH + g_ (g_of (functionG 400 (30000000 / 100000) (W_ex 400 30000000))) <> 0) by (rewrite GE; unfold rH; lra).
  assert (N1 : re_ref 1 (wr h_ex) + Rabs 1 * g_ (g_of (functionG 400 (30000000 / 100000) (W_ex 400 30000000))) <> 0).
  { rewrite GE, Rabs_R1. unfold re_ref, h_ex, wr, eta, rH. assert (E : 1 * 1 / (33060 / 166027 + 1 / (3082 / 1000)) > 1) by lra. lra. }
  apply (chain_right 400 30000000 (rd (-261881)) (rd (-240300)) (rd 58) h_ex wS_ex W_ex bS_ex B_ex 1 false (rd_ok _) (rd_ok _) (rd_ok _)); first [exact W_c|exact B_c|exact N1|exact N2|exact (or_introl L)|exact L|exact W_ok|exact B_ok|unfold theta, psi; lra].
Qed.
(** chloride at 400 K and 300 bar, density 900 *)
Definition w9 : wetT := mkWetT (ts_assign 900) (ts_assign (-1)) (ts_assign (1 / 10000000)) (ts_assign 0) (ts_assign 0) (ts_assign 0) (ts_assign (1 / 1000)) (ts_assign (1 / 10000000000)) (ts_assign 0).
Lemma anion_ex : exists g, gShok2TS 400 30000000 w9 = Some g /\ let r := hkf_gemsTS 400 30000000 (rd (-131290)) (rd (-167111)) (rd 57) h_ex (omega_gemsTS (-1) 145600 g) bS_ex in
  ddp (tG r) <> val (tV r) / (4184004 / 4184000) / 100000.
Proof.
  set (hc := mkHKF (h1 h_ex) (h2 h_ex) (h3 h_ex) (h4 h_ex) (k1 h_ex) (k2 h_ex) (wr h_ex) (-131290) (-167111) 57).
  assert (R2 : region2 (val (TdegC 400)) (val (Pbar 30000000)) = false).
  { rewrite (proj1 (c_TC 400 30000000)), (proj1 (c_bar 400 30000000)). cbv beta. destruct (region2 (400 - C_K) (30000000 / 100000)) eqn:E; [|reflexivity]. apply region2_in in E. unfold C_K in E. lra. }
  assert (SG : gShok2TS 400 30000000 w9 = Some (s_oneTS 400 w9)).
  { unfold gShok2TS. rewrite R2. unfold w9 at 1. cbn [xd val ts_assign]. rewrite isz_f by lra. reflexivity. }
  exists (s_oneTS 400 w9). split; [exact SG|]. cbv zeta.
  assert (GV := g1_val 400 30000000 w9). cbn [w9 xd] in GV. replace (Rabs (1 - val (ts_assign 900) / 1000)) with (1 / 10) in GV by (cbn [val ts_assign]; rewrite Rabs_right; lra).
  assert (E1 := bg_big (400 - C_K)). assert (E2 := ag_neg (400 - C_K)). assert (E4 : - (21 / 10) < ag (400 - C_K)) by (unfold ag, C_K; lra).
  assert (E3 : 0 < Rpower (1 / 10) (bg (400 - C_K)) <= 1 / 10).
  { split; [apply exp_pos|]. rewrite <- (Rpower_1 (1 / 10)) at 2 by lra. unfold Rpower. left. apply exp_increasing. assert (ln (1 / 10) < 0) by (rewrite <- ln_1; apply ln_increasing; lra). nra. }
  assert (GB : - (21 / 100) <= val (y_ (s_oneTS 400 w9)) <= 0) by (rewrite GV; nra).
  assert (Q : forall rG rH' rS', rG = rd (-131290) -> rH' = rd (-167111) -> rS' = rd 57 -> let r := hkf_gemsTS 400 30000000 rG rH' rS' hc (omega_gemsTS (-1) 145600 (s_oneTS 400 w9)) bS_ex in ddp (tG r) <> val (tV r) / (4184004 / 4184000) / 100000).
  { intros rG rH' rS' -> -> ->. apply (gems_wrong 400 30000000 (rd (-131290)) (rd (-167111)) (rd 57) hc w9 bS_ex (-1) 145600 (s_oneTS 400 w9)); try apply rd_ok; try reflexivity; try exact SG; try (unfold theta, psi; lra).
    - replace (Rabs (-1)) with 1 by (rewrite Rabs_left; lra). unfold re_ref, eta, rH. assert (E : -1 * -1 / (145600 / 166027 + -1 / (3082 / 1000)) > 1) by lra. lra.
    - unfold rH. lra.
    - unfold bS_ex. cbn [vZ val]. lra.
    - unfold w9. cbn [xd val ts_assign]. lra.
    - unfold w9. cbn [xbe val ts_assign]. lra. }
  specialize (Q _ _ _ eq_refl eq_refl eq_refl). exact Q.
Qed.
