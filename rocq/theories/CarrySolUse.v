(** What the carried derivatives of HKF species are. *)
From Coq Require Import Bool Reals Lra Lia.
From Coquelicot Require Import Coquelicot.
From Verif Require Import RDeriv ThermoScalarModel ThermoScalarSpec ThermoScalarProofs MineralModel MineralSpec CarryModel CarrySpec CarryPf GasMore GasPhase SoluteModel SoluteSpec SoluteProofs SoluteG SoluteG2 SoluteO SoluteHKF CarryReacPf CarrySolute CarrySoluteSpec CarrySolPf CarrySolG.
Open Scope R_scope.
(** every ThermoScalar carries an affine function *)
Definition aff (x : TS) (T P t p : R) : R := val x + ddt x * (t - T) + ddp x * (p - P).
Lemma aff_c : forall x T P, carries x (aff x T P) T P.
Proof. intros x T P. unfold carries, aff. split; [ring|]. split; (eapply d_eq; [dr|]; cbv beta; ring). Qed.
Definition hkf_TS (code : hkf -> R -> R -> elec -> born -> mprop) (codeTS : R -> R -> TS -> TS -> TS -> hkf -> elT -> bornT -> tprop) : Prop :=
  (code = hkf_reak /\ codeTS = hkf_reakTS) \/ (code = hkf_gems /\ codeTS = hkf_gemsTS).
Section Any.
Variables (code : hkf -> R -> R -> elec -> born -> mprop) (codeTS : R -> R -> TS -> TS -> TS -> hkf -> elT -> bornT -> tprop).
Hypothesis HC : hkf_TS code codeTS.
Lemma codeHC : hkf_prop code. Proof. destruct HC as [[A _]|[A _]]; [now left|now right]. Qed.
Variables (T P : R) (rG rHh rS : TS) (h : hkf).
Hypothesis RG : read_value rG (hG h).
Hypothesis RH : read_value rHh (hH h).
Hypothesis RS : read_value rS (hS h).
Hypothesis HT : theta < T.
Hypothesis HP : 0 < psi + P / 100000.
Theorem any_carries : forall e E b B, carriesEl e E T P -> carriesBorn b B T P -> carries7 (codeTS T P rG rHh rS h e b) (fun t p => code h t (p / 100000) (E t p) (B t p)) T P.
Proof.
  intros e E b B CE CB. destruct HC as [[-> ->]|[-> ->]].
  - exact (reak_carries T P rG rHh rS h e E b B RG RH RS CE CB HT HP).
  - exact (gems_carries T P rG rHh rS h e E b B RG RH RS CE CB HT HP).
Qed.
Section Exact.
Variables (e : elT) (b : bornT).
Hypothesis BY : ddt (vZ b) = val (vY b).
Hypothesis BQ : ddp (vZ b) = val (vQ b).
Let r := codeTS T P rG rHh rS h e b.
Let E (t p : R) : elec := mkEl (aff (u_w e) T P t p) (aff (u_T e) T P t p) (aff (u_P e) T P t p) (aff (u_TT e) T P t p).
Let B (t p : R) : born := mkBorn (aff (vZ b) T P t p) (aff (vY b) T P t p) (aff (vQ b) T P t p) (aff (vX b) T P t p).
Lemma r_carries : carries7 r (fun t p => code h t (p / 100000) (E t p) (B t p)) T P.
Proof. apply any_carries; [split; [|split; [|split]]|split; [|split; [|split]]]; apply aff_c. Qed.
(** the same Gibbs energy with the derivatives of the coefficient in the places of the stored ones; pressure in bar *)
Let E' (t q : R) : elec := mkEl (aff (u_w e) T P t (q * 100000)) (ddt (u_w e)) (ddp (u_w e)) 0.
Let B' (t q : R) : born := mkBorn (aff (vZ b) T P t (q * 100000)) (val (vY b)) (val (vQ b)) 0.
Let f' (t q : R) : mprop := code h t q (E' t q) (B' t q).
Lemma f'_d : cons_S f' T (P / 100000) /\ is_derive (fun q : R => mG (f' T q)) (P / 100000) (mV (f' T (P / 100000)) / vfac).
Proof.
  assert (OE : omega_ok E' T (P / 100000)). { unfold omega_ok, E', aff. cbn [o_w o_T o_P o_TT]. split; [|split]; (eapply d_eq; [dr|]; cbv beta; ring). }
  assert (OB : born_ok B' T (P / 100000)). { unfold born_ok, B', aff. cbn [bZ bY bQ bX]. split; [|split]; (eapply d_eq; [dr|]; cbv beta; rewrite ?BY, ?BQ; ring). }
  destruct (any_cons code codeHC h E' B' T (P / 100000) HT HP OE OB) as [A [_ [_ C]]]. exact (conj A C).
Qed.
Lemma same_G : forall t p, mG (code h t (p / 100000) (E t p) (B t p)) = mG (f' t (p / 100000)).
Proof.
  intros t p. unfold f', E', B'. replace (p / 100000 * 100000) with p by field. unfold E, B. destruct HC as [[-> _]|[-> _]]; reflexivity.
Qed.
Lemma at_E : forall x, aff x T P T P = val x. Proof. intro x. unfold aff. ring. Qed.
Lemma at_PE : P / 100000 * 100000 = P. Proof. field. Qed.
Lemma S_gap : mS (code h T (P / 100000) (E T P) (B T P)) = mS (f' T (P / 100000)) + cal * (1 + val (vZ b)) * (val (u_T e) - ddt (u_w e)).
Proof.
  unfold f', E', B', E, B. rewrite at_PE, !at_E. destruct HC as [[-> _]|[-> _]]; unfold hkf_reak, hkf_gems; cbv zeta; cbn [mS o_w o_T bZ bY]; ring.
Qed.
Lemma V_gap : mV (code h T (P / 100000) (E T P) (B T P)) / vfac / 100000 = mV (f' T (P / 100000)) / vfac / 100000 - cal * (1 + val (vZ b)) * (val (u_P e) - ddp (u_w e)).
Proof.
  unfold f', E', B', E, B. rewrite at_PE, !at_E. destruct HC as [[-> _]|[-> _]]; unfold hkf_reak, hkf_gems; cbv zeta; cbn [mV o_w o_P bZ bQ]; unfold vfac, vconst, cal; field; unfold theta, psi in *; split; lra.
Qed.
Theorem exact_T : ddt (tG r) = - val (tS r) + cal * (1 + val (vZ b)) * (val (u_T e) - ddt (u_w e)).
Proof.
  destruct r_carries as [[C1 [_ [C3 _]]] _]. rewrite (proj1 C3). cbv beta. rewrite S_gap.
  assert (D : is_derive (fun t : R => mG (code h t (P / 100000) (E t P) (B t P))) T (- mS (f' T (P / 100000)))).
  { eapply is_derive_ext; [|exact (proj1 f'_d)]. intro t. cbv beta. symmetry. apply same_G. }
  rewrite (d_unique _ _ _ _ (proj1 (proj2 C1)) D). ring.
Qed.
Theorem exact_P : ddp (tG r) = val (tV r) / vfac / 100000 + cal * (1 + val (vZ b)) * (val (u_P e) - ddp (u_w e)).
Proof.
  destruct r_carries as [[C1 [_ [_ [C4 _]]]] _]. rewrite (proj1 C4). cbv beta. rewrite V_gap.
  assert (D : is_derive (fun p : R => mG (code h T (p / 100000) (E T p) (B T p))) P (mV (f' T (P / 100000)) / vfac / 100000)).
  { eapply is_derive_ext; [|exact (in_bar (fun q : R => mG (f' T q)) P _ (proj2 f'_d))]. intro p. cbv beta. symmetry. apply same_G. }
  rewrite (d_unique _ _ _ _ (proj2 (proj2 C1)) D). ring.
Qed.
End Exact.
(** with a coefficient that carries its own stored derivatives *)
Theorem right : forall e b, ddt (vZ b) = val (vY b) -> ddp (vZ b) = val (vQ b) -> ddt (u_w e) = val (u_T e) -> ddp (u_w e) = val (u_P e) ->
  let r := codeTS T P rG rHh rS h e b in ddt (tG r) = - val (tS r) /\ ddp (tG r) = val (tV r) / (4184004 / 4184000) / 100000.
Proof. intros e b B1 B2 E1 E2 r. unfold r. rewrite (exact_T e b B1 B2), (exact_P e b B1 B2), E1, E2. unfold vfac. split; ring. Qed.
Theorem right_iff : forall e b, ddt (vZ b) = val (vY b) -> ddp (vZ b) = val (vQ b) -> 1 + val (vZ b) <> 0 ->
  let r := codeTS T P rG rHh rS h e b in (ddt (tG r) = - val (tS r) <-> ddt (u_w e) = val (u_T e)) /\ (ddp (tG r) = val (tV r) / (4184004 / 4184000) / 100000 <-> ddp (u_w e) = val (u_P e)).
Proof.
  intros e b B1 B2 N r. unfold r. rewrite (exact_T e b B1 B2), (exact_P e b B1 B2). fold vfac. pose proof cal_pos.
  assert (K : forall x, cal * (1 + val (vZ b)) * x = 0 -> x = 0). { intros x Hx. apply Rmult_integral in Hx. destruct Hx as [Hx|Hx]; [|exact Hx]. apply Rmult_integral in Hx. destruct Hx; [lra|contradiction]. }
  split; split; intro Q; first [rewrite Q; ring | symmetry; apply Rminus_diag_uniq, K; lra].
Qed.
End Any.

(** *** the Reaktoro code from the solvent on *)
Section Chain.
Variables (T P : R) (rG rHh rS : TS) (h : hkf) (w : wetT) (W : R -> R -> wet) (b : bornT) (B : R -> R -> born) (z : R) (hp : bool).
Hypothesis RG : read_value rG (hG h).
Hypothesis RH : read_value rHh (hH h).
Hypothesis RS : read_value rS (hS h).
Hypothesis HT : theta < T.
Hypothesis HP : 0 < psi + P / 100000.
Hypothesis CW : carriesWet w W T P.
Hypothesis CB : carriesBorn b B T P.
Let G (t p : R) : gfun := g_of (functionG t (p / 100000) (W t p)).
Hypothesis N1 : re_ref z (wr h) + Rabs z * g_ (G T P) <> 0.
Hypothesis N2 : rH + g_ (G T P) <> 0.
Let F (t p : R) : mprop := hkf_reak h t (p / 100000) (omega_reak z hp (wr h) (G t p)) (B t p).
Hypothesis DD : (0 < d_ (W T P) < 1000 /\ d_T (W T P) <> 0 /\ d_P (W T P) <> 0) \/ 1000 < d_ (W T P).
Theorem chain_carries : exists g, functionGTS T P w = Some g /\ carries7 (hkf_reakTS T P rG rHh rS h (omega_reakTS z hp (wr h) g) b) F T P.
Proof.
  assert (X : exists g, functionGTS T P w = Some g /\ carriesG g G T P).
  { destruct DD as [[D1 [D2 D3]]|D1]; [now apply low_carries|now apply dense_carries]. }
  destruct X as [g [E C]]. exists g. split; [exact E|].
  apply (reak_carries T P rG rHh rS h _ (fun t p => omega_reak z hp (wr h) (G t p)) b B RG RH RS); [|exact CB|exact HT|exact HP].
  exact (omega_reak_carries T P z (wr h) g G C N1 N2 hp).
Qed.
(** and they are the other properties *)
Hypothesis OW : water_ok (fun t q => W t (q * 100000)) T (P / 100000).
Hypothesis OB : born_ok (fun t q => B t (q * 100000)) T (P / 100000).
Hypothesis LO : 0 < d_ (W T P) < 1000 /\ d_T (W T P) <> 0 /\ d_P (W T P) <> 0.
Theorem chain_right : exists g, functionGTS T P w = Some g /\ let r := hkf_reakTS T P rG rHh rS h (omega_reakTS z hp (wr h) g) b in
  ddt (tG r) = - val (tS r) /\ ddp (tG r) = val (tV r) / (4184004 / 4184000) / 100000 /\ ddt (tH r) = val (tC r) /\ T * ddt (tS r) = val (tC r).
Proof.
  destruct chain_carries as [g [E [[C1 [C2 [C3 [C4 C5]]]] _]]]. exists g. split; [exact E|]. cbv zeta.
  set (r := hkf_reakTS T P rG rHh rS h (omega_reakTS z hp (wr h) g) b) in *.
  assert (PE : P / 100000 * 100000 = P) by field. destruct LO as [L1 [L2 L3]].
  assert (GE : forall t p, gval (fun t q => W t (q * 100000)) t (p / 100000) = G t p). { intros t p. unfold gval, G, g_of. replace (p / 100000 * 100000) with p by field. reflexivity. }
  destruct (chain h z hp (fun t q => W t (q * 100000)) (fun t q => B t (q * 100000)) T (P / 100000) HT HP OW OB) as [K1 [K2 [K3 K4]]]; try (rewrite PE; assumption); try (rewrite GE; assumption).
  assert (FE : forall t p, hkf_reak h t (p / 100000) (omega_reak z hp (wr h) (gval (fun t q => W t (q * 100000)) t (p / 100000))) (B t (p / 100000 * 100000)) = F t p).
  { intros t p. rewrite GE. replace (p / 100000 * 100000) with p by field. reflexivity. }
  unfold cons_S in K1. unfold cons_C in K2. rewrite !FE in K1, K2. rewrite FE in K3. rewrite FE in K4.
  assert (J1 : is_derive (fun t : R => mG (F t P)) T (- mS (F T P))). { eapply is_derive_ext; [|exact K1]. intro t. cbv beta. now rewrite FE. }
  assert (J2 : is_derive (fun t : R => mS (F t P)) T (mCp (F T P) / T)). { eapply is_derive_ext; [|exact K2]. intro t. cbv beta. now rewrite FE. }
  assert (J3 : is_derive (fun t : R => mH (F t P)) T (mCp (F T P))). { eapply is_derive_ext; [|exact K3]. intro t. cbv beta. now rewrite FE. }
  assert (J4 : is_derive (fun p : R => mG (F T p)) P (mV (F T P) / vfac / 100000)). { eapply is_derive_ext; [|exact (in_bar _ P _ K4)]. intro p. cbv beta. now rewrite FE. }
  rewrite (d_unique _ _ _ _ (proj1 (proj2 C1)) J1), (d_unique _ _ _ _ (proj1 (proj2 C2)) J3), (d_unique _ _ _ _ (proj1 (proj2 C3)) J2), (d_unique _ _ _ _ (proj2 (proj2 C1)) J4), (proj1 C3), (proj1 C4), (proj1 C5).
  split; [reflexivity|]. split; [reflexivity|]. split; [reflexivity|]. pose proof th_pos. field. lra.
Qed.
End Chain.

(** *** the other code: the coefficient does not carry the derivatives of g *)
Section Gems.
Variables (T P : R) (w : wetT).
Let g1 := s_oneTS T w.
(** outside region II; [bb] is the exponent *)
Let bb := bg (T - C_K).
Let pw := Rabs (1 - val (xd w) / 1000).
Lemma b_val : val (bS T) = bb. Proof. unfold bS, bb, bg. pose proof (c_TC T P) as A. assert (C : carries (bS T) (fun t p => bg (t - C_K)) T P). { unfold bS, bg. apply (c_ext _ (fun t p => 6107361 / 1000000 + - (1074377 / 100000000) * (t - C_K) + 1268348 / 100000000000 * (t - C_K) ^ 2)); [intros; ring|]. cs3. } exact (proj1 C). Qed.
Lemma c_aS : carries (aS T) (fun t p => ag (t - C_K)) T P.
Proof. pose proof (c_TC T P). unfold aS, ag. apply (c_ext _ (fun t p => -2037662 / 1000000 + 5747 / 1000000 * (t - C_K) + - (6557892 / 1000000000000) * (t - C_K) ^ 2)); [intros; ring|]. cs3. Qed.
Lemma Dv : val (ts_div_d (xd w) 1000) = val (xd w) / 1000.
Proof. unfold ts_div_d, d_mul_ts, ctor5. destruct (is0 (val (xd w))); cbn; field. Qed.
Lemma pwv : Rabs (1 - val (ts_div_d (xd w) 1000)) = pw. Proof. unfold pw. now rewrite Dv. Qed.
Lemma g1_val : val (y_ g1) = ag (T - C_K) * Rpower pw bb.
Proof.
  unfold g1, s_oneTS. cbv zeta. cbn [y_]. rewrite pwv, b_val. exact (proj1 (c_muld (Rpower pw bb) (aS T) _ T P c_aS)).
Qed.
Lemma g1_T : ddt (y_ g1) = agT (T - C_K) * Rpower pw bb.
Proof.
  unfold g1, s_oneTS. cbv zeta. cbn [y_]. rewrite pwv, b_val. pose proof (c_muld (Rpower pw bb) (aS T) _ T P c_aS) as [_ [A _]]. apply (d_unique _ _ _ _ A).
  eapply d_eq; [apply (d_mult (fun t : R => ag (t - C_K)) (fun _ : R => Rpower pw bb)); [unfold ag; dr|apply d_const]|]. cbv beta. unfold agT. generalize (Rpower pw bb). intro. ring.
Qed.
Lemma g1_P : ddp (y_ g1) = 0.
Proof.
  unfold g1, s_oneTS. cbv zeta. cbn [y_]. rewrite pwv, b_val. pose proof (c_muld (Rpower pw bb) (aS T) _ T P c_aS) as [_ [_ A]]. apply (d_unique _ _ _ _ A). apply d_const.
Qed.
(** the correction of region II is subtracted with its derivatives *)
Lemma two_same : 155 < T - C_K -> P / 100000 < 1000 -> forall x, let y := s_twoTS T P x in
  val (y_T y) - ddt (y_ y) = val (y_T x) - ddt (y_ x) /\ val (y_P y) - ddp (y_ y) = val (y_P x) - ddp (y_ x).
Proof.
  intros H1 H2 x y. unfold y, s_twoTS. cbv zeta. cbn [y_ y_T y_P]. pose proof (c_TC T P) as A.
  set (t := ts_div_d (ts_sub_d (TdegC T) 155) 300). set (p := d_sub_ts 1000 (Pbar P)).
  assert (Ct : carries t (fun s q => (s - C_K - 155) / 300) T P) by (unfold t; cs3; lra).
  assert (Cp : carries p (fun s q => 1000 - q / 100000) T P) by (unfold p; cs3).
  set (ft := ts_add (ts_pow_d t (48 / 10)) (d_mul_ts cC0 (ts_pow_d t 16))). set (fp := ts_add (d_mul_ts cC1 (ts_pow_d p 3)) (d_mul_ts cC2 (ts_pow_d p 4))).
  set (ftT := ts_add (d_mul_ts (48 / 10 / 300) (ts_pow_d t (38 / 10))) (d_mul_ts (16 / 300 * cC0) (ts_pow_d t 15))).
  set (fpP := ts_sub (d_mul_ts (-3 * cC1) (ts_pow_d p 2)) (d_mul_ts (4 * cC2) (ts_pow_d p 3))).
  assert (C1 : carries ft (fun s q => Rpower ((s - C_K - 155) / 300) (48 / 10) + cC0 * ((s - C_K - 155) / 300) ^ 16) T P) by (unfold ft; cs3; lra).
  assert (C2 : carries fp (fun s q => cC1 * (1000 - q / 100000) ^ 3 + cC2 * (1000 - q / 100000) ^ 4) T P) by (unfold fp; cs3).
  assert (C3 : carries ftT (fun s q => 48 / 10 / 300 * Rpower ((s - C_K - 155) / 300) (38 / 10) + 16 / 300 * cC0 * ((s - C_K - 155) / 300) ^ 15) T P) by (unfold ftT; cs3; lra).
  assert (C4 : carries fpP (fun s q => -3 * cC1 * (1000 - q / 100000) ^ 2 - 4 * cC2 * (1000 - q / 100000) ^ 3) T P) by (unfold fpP; cs3).
  assert (DT : ddt ft = val ftT /\ ddt fp = 0).
  { split.
    - apply (d_unique _ _ _ _ (proj1 (proj2 C1))). rewrite (proj1 C3). eapply d_eq; [apply d_plus; [apply (aux_y (48 / 10)); lra|apply d_mult; [apply d_const|apply (aux_n 16)]]|].
      replace (48 / 10 - 1) with (38 / 10) by lra. cbn [pred INR]. generalize cC0 (Rpower ((T - C_K - 155) / 300) (38 / 10)). intros. field.
    - apply (d_unique _ _ _ _ (proj1 (proj2 C2))). apply d_const. }
  assert (DP : ddp ft = 0 /\ ddp fp = val fpP / 100000).
  { split.
    - apply (d_unique _ _ _ _ (proj2 (proj2 C1))). apply d_const.
    - apply (d_unique _ _ _ _ (proj2 (proj2 C2))). rewrite (proj1 C4). eapply d_eq; [dr; lra|]. cbv beta. cbn [Init.Nat.pred INR]. generalize cC1 cC2 (1000 - P / 100000). intros. field. }
  assert (MV : forall a c, val (ts_mul a c) = val a * val c) by reflexivity.
  assert (QV : val (ts_div_d (ts_mul ft fpP) 100000) = val ft * val fpP / 100000). { unfold ts_div_d, d_mul_ts, ctor5. destruct (is0 _); cbn; field. }
  assert (MT : ddt (ts_mul ft fp) = val ft * ddt fp + ddt ft * val fp) by reflexivity. assert (MP : ddp (ts_mul ft fp) = val ft * ddp fp + ddp ft * val fp) by reflexivity.
  assert (IV : forall a c, val (ip_sub a c) = val a - val c) by reflexivity. assert (IT : forall a c, ddt (ip_sub a c) = ddt a - ddt c) by reflexivity. assert (IP : forall a c, ddp (ip_sub a c) = ddp a - ddp c) by reflexivity.
  rewrite !IV, IT, IP, QV, MT, MP, MV, (proj1 DT), (proj2 DT), (proj1 DP), (proj2 DP). split; field.
Qed.
(** what is missing in the derivatives that g carries *)
Theorem shok_gap : forall g, gShok2TS T P w = Some g ->
  val (y_T g) - ddt (y_ g) = val (y_T g1) - agT (T - C_K) * Rpower pw bb /\ val (y_P g) - ddp (y_ g) = val (y_P g1).
Proof.
  intros g E. unfold gShok2TS in E. destruct (is_zero _); [discriminate|]. rewrite (proj1 (c_TC T P)), (proj1 (c_bar T P)) in E. injection E as <-. fold g1.
  rewrite <- g1_T. replace (val (y_P g1)) with (val (y_P g1) - ddp (y_ g1)) by (rewrite g1_P; ring).
  destruct (region2 (T - C_K) (P / 100000)) eqn:ER; [|split; reflexivity]. apply region2_in in ER. destruct ER as [R1 R2]. exact (two_same R1 R2 g1).
Qed.
(** the stored pressure derivative *)
Lemma g1_P_val : val (y_P g1) = - ag (T - C_K) * bb * Rpower pw (bb - 1) * (val (xd w) / 1000 * val (xbe w)).
Proof.
  unfold g1, s_oneTS. cbv zeta. cbn [y_P]. rewrite pwv, b_val. set (D := ts_div_d (xd w) 1000).
  assert (MV : forall a c, val (ts_mul a c) = val a * val c) by reflexivity. rewrite !MV. unfold D. rewrite Dv. f_equal.
  unfold ts_mul_d, d_mul_ts, ctor5. destruct (is0 _); cbn [val]; rewrite MV, b_val; cbn [val ts_neg ctor5]; rewrite (proj1 c_aS); ring.
Qed.
(** the coefficient *)
Lemma om_slope : forall z wref g, z <> 0 -> re_ref z wref + Rabs z * val (y_ g) <> 0 -> rH + val (y_ g) <> 0 -> let e := omega_gemsTS z wref g in
  let s := - eta * (Rabs (z ^ 3) / (re_ref z wref + Rabs z * val (y_ g)) ^ 2 - z / (rH + val (y_ g)) ^ 2) in
  ddt (u_w e) = s * ddt (y_ g) /\ ddp (u_w e) = s * ddp (y_ g) /\ val (u_T e) = s * val (y_T g) /\ val (u_P e) = s * val (y_P g).
Proof.
  intros z wref g Hz N1 N2 e s.
  set (Gf := fun t p : R => mkG (aff (y_ g) T P t p) (aff (y_T g) T P t p) (aff (y_P g) T P t p) (aff (y_TT g) T P t p) 0 0).
  assert (A0 : forall x, aff x T P T P = val x) by (intro x; unfold aff; ring).
  assert (CG : carriesG g Gf T P). { unfold carriesG, Gf. cbn [g_ g_T g_P g_TT]. split; [|split; [|split]]; apply aff_c. }
  assert (M1 : re_ref z wref + Rabs z * g_ (Gf T P) <> 0) by (unfold Gf; cbn [g_]; rewrite A0; exact N1). assert (M2 : rH + g_ (Gf T P) <> 0) by (unfold Gf; cbn [g_]; rewrite A0; exact N2).
  destruct (omega_gems_carries T P z wref g Gf CG M1 M2) as [C1 [C2 [C3 _]]]. fold e in C1, C2, C3.
  assert (OK : forall a c : R, is_derive (fun x : R => o_w (omega_gems z wref (mkG x a c 0 0 0))) (val (y_ g)) s).
  { intros a c. assert (RE : z ^ 2 / (wref / eta + z / (rH + 0)) = re_ref z wref). { unfold re_ref. rewrite Rplus_0_r. f_equal. ring. }
    unfold omega_gems. rewrite isz_f by exact Hz. cbn [o_w g_]. rewrite RE. unfold s. set (k := re_ref z wref) in *. clearbody k.
    assert (ZA : Rabs (z ^ 3) = Rabs z * z ^ 2). { replace (z ^ 3) with (z * z ^ 2) by ring. rewrite Rabs_mult, (Rabs_right (z ^ 2)); [reflexivity|]. apply Rle_ge, pow2_ge_0. }
    rewrite ZA. set (az := Rabs z) in *. clearbody az. generalize eta. intro et. eapply d_eq; [dr; assumption|]. cbv beta. field. split; assumption. }
  assert (V1 : val (u_T e) = s * val (y_T g)). { rewrite (proj1 C2). unfold Gf, omega_gems. rewrite isz_f by exact Hz. cbv zeta. cbn [o_T g_ g_T]. rewrite !A0. unfold s. replace (z ^ 2 / (wref / eta + z / (rH + 0))) with (re_ref z wref) by (unfold re_ref; rewrite Rplus_0_r; f_equal; ring). ring. }
  assert (V2 : val (u_P e) = s * val (y_P g)). { rewrite (proj1 C3). unfold Gf, omega_gems. rewrite isz_f by exact Hz. cbv zeta. cbn [o_P g_ g_P]. rewrite !A0. unfold s. replace (z ^ 2 / (wref / eta + z / (rH + 0))) with (re_ref z wref) by (unfold re_ref; rewrite Rplus_0_r; f_equal; ring). ring. }
  assert (WW : forall x a c d1 d2, o_w (omega_gems z wref (mkG x a c d1 d2 0)) = o_w (omega_gems z wref (mkG x 0 0 0 0 0))) by (intros; unfold omega_gems; rewrite isz_f by exact Hz; reflexivity).
  split; [|split; [|split; assumption]].
  - apply (d_unique _ _ _ _ (proj1 (proj2 C1))). pose proof (is_derive_comp (fun x : R => o_w (omega_gems z wref (mkG x 0 0 0 0 0))) (fun t : R => aff (y_ g) T P t P) T s (ddt (y_ g))) as X. cbv beta in X. rewrite A0 in X.
    specialize (X (OK 0 0) (proj1 (proj2 (aff_c (y_ g) T P)))). replace (s * ddt (y_ g)) with (scal (ddt (y_ g)) s) by (unfold scal; cbn; unfold mult; cbn; ring).
    eapply is_derive_ext; [|exact X]. intro t. cbv beta. unfold Gf. symmetry. apply WW.
  - apply (d_unique _ _ _ _ (proj2 (proj2 C1))). pose proof (is_derive_comp (fun x : R => o_w (omega_gems z wref (mkG x 0 0 0 0 0))) (fun p : R => aff (y_ g) T P T p) P s (ddp (y_ g))) as X. cbv beta in X. rewrite A0 in X.
    specialize (X (OK 0 0) (proj2 (proj2 (aff_c (y_ g) T P)))). replace (s * ddp (y_ g)) with (scal (ddp (y_ g)) s) by (unfold scal; cbn; unfold mult; cbn; ring).
    eapply is_derive_ext; [|exact X]. intro p. cbv beta. unfold Gf. symmetry. apply WW.
Qed.
End Gems.
