(** Concrete cases of the Akinfiev-Diamond and density models. *)
From Coq Require Import String Bool Reals Lra Lia.
From Coquelicot Require Import Coquelicot.
From Verif Require Import RDeriv ThermoScalarModel ThermoScalarSpec ThermoScalarProofs MineralModel MineralSpec CarryModel CarrySpec CarryPf GasMore GasPhase SoluteModel SoluteSpec SoluteProofs SoluteG SoluteG2 SoluteO SoluteHKF SoluteDens SoluteEx CarryReacPf CarrySolute CarrySoluteSpec CarrySolPf CarrySolG CarrySolUse CarrySolAD CarrySolEx.
Open Scope R_scope.
(** the ThermoScalar that carries the derivatives of f *)
Definition tsD (f : R -> R -> R) (T P : R) : TS := mkTS (f T P) (Derive (fun t : R => f t P) T) (Derive (fun p : R => f T p) P) 0 (calculated, EmptyString).
Lemma tsD_c : forall f T P, ex_derive (fun t : R => f t P) T -> ex_derive (fun p : R => f T p) P -> carries (tsD f T P) f T P.
Proof. intros f T P A B. unfold carries, tsD. cbn [val ddt ddp]. split; [reflexivity|]. split; apply Derive_correct; assumption. Qed.
Definition AW (t p : R) : adwater := aw_ex MW t (p / 100000).
Definition awS (T P : R) : adwT := let d f := tsD (fun t p => f (AW t p)) T P in
  mkAdwT (d aw_G) (d aw_S) (d aw_C) (d ai_G) (d ai_S) (d ai_C) (d aw_rho) (d aw_al) (d aw_be) (d aw_daT).
Lemma aw_c : forall T P, carriesAdw (awS T P) AW T P.
Proof.
  intros T P. unfold carriesAdw, awS. cbn [q_G q_S q_C n_G n_S n_C q_rho q_al q_be q_daT].
  repeat match goal with |- _ /\ _ => split end; apply tsD_c; unfold AW, aw_ex; cbn [aw_G aw_S aw_C ai_G ai_S ai_C aw_rho aw_al aw_be aw_daT]; auto_derive; exact I.
Qed.
Lemma AW_same : forall t q, AW t (q * 100000) = aw_ex MW t q. Proof. intros t q. unfold AW. f_equal. field. Qed.
Lemma AW_ok : forall T P, 0 < T -> ad_water_ok (fun x q => AW x (q * 100000)) T P.
Proof.
  intros T P HT. pose proof (aw_ex_ok MW T P HT) as H. unfold ad_water_ok in *. rewrite !AW_same. destruct H as (A & B & C & D & E & F & G & K).
  split; [|split; [|split; [|split; [|split; [|split; [|split]]]]]]; (eapply d_ext; [|eassumption]; intro; now rewrite AW_same).
Qed.
Definition gasS (T P : R) : tprop := let d f := tsD (fun t _ => f (gas_at t)) T P in mkTP (d mG) (d mH) (d mS) (d mV) (d mCp) (d mU) (d mA).
Lemma ad_carry_ex : let i0 := ad_incTS (mkAD 1 0 0) Tr (awS Tr 100000) in let r := ad_soluteTS i0 (ad_incTS (mkAD 1 0 0) 400 (awS 400 100000000)) 400 100000000 (gasS 400 100000000) in
  ddt (tG r) = - val (tS r) /\ ddp (tG r) = val (tV r) / 100000 /\ 400 * ddt (tS r) <> val (tC r) /\ ddt (tH r) <> val (tC r).
Proof.
  intros i0 r. assert (GC : forall f, ex_derive (fun t : R => f (gas_at t)) 400 -> carries (tsD (fun t _ => f (gas_at t)) 400 100000000) (fun t _ => f (gas_at t)) 400 100000000).
  { intros f E. apply tsD_c; [exact E|]. apply ex_derive_const. }
  destruct (ad_reports (mkAD 1 0 0) (awS 400 100000000) AW (awS Tr 100000) AW (gasS 400 100000000) gas_at 400 100000000 100000) as [A [B [C D]]];
    [lra|apply aw_c|apply exp_pos|apply AW_ok; lra|apply aw_c|apply exp_pos|apply AW_ok; unfold Tr; lra| | | | | | | |].
  1-4: apply GC; unfold gas_at; cbn [mG mH mS mCp]; auto_derive; exact I.
  1: unfold gas_at; cbn [mG mS]; eapply d_eq; [dr|]; cbv beta; ring.
  1: unfold gas_at; cbn [mS mCp]; eapply d_eq; [apply d_const|]; field.
  1: unfold gas_at; cbn [mH mCp]; apply d_const.
  fold i0 in A, B, C, D. fold r in A, B, C, D.
  assert (CV : val (j_C i0) <> 0).
  { destruct (ad_inc_carries (mkAD 1 0 0) Tr 100000 (awS Tr 100000) AW) as (_ & _ & _ & E & _); [unfold Tr; lra|apply aw_c|apply exp_pos|]. fold i0 in E. rewrite (proj1 E). cbv beta.
    unfold ad_increments. cbn [i_C a_xi a_a a_b]. assert (RP : 0 < aw_rho (AW Tr 100000)) by apply exp_pos. change (aw_al (AW Tr 100000)) with (Tr / 1000000). change (aw_daT (AW Tr 100000)) with (1 / 1000000). set (rho := aw_rho (AW Tr 100000)) in *. clearbody rho.
    intro Q. assert (Q2 : Rj * (1 - 3 * Tr ^ 2 / 1000000) = 0). { apply Ropp_eq_0_compat in Q. rewrite <- Q. field. lra. } unfold Rj, Tr in Q2. lra. }
  split; [exact A|]. split; [|split].
  - apply D. replace (100000000 / 100000) with 1000 by lra. pose proof (aw_ex_V MW 400 1000) as V. eapply d_eq; [eapply d_ext; [|exact V]; intro q; now rewrite AW_same|]. unfold AW. replace (100000000 / 100000) with 1000 by lra. reflexivity.
  - rewrite B. intro Q. apply CV. unfold Tr in Q. lra.
  - rewrite C. intro Q. apply CV. lra.
Qed.
Definition DW (t p : R) : dwater := dw_ex t (p / 100000).
Definition dwS (T P : R) : dwT := let d f := tsD (fun t p => f (DW t p)) T P in mkDwT (d w_rho) (d w_al) (d w_be) (d w_daT).
Lemma dw_c : forall T P, carriesDw (dwS T P) DW T P.
Proof.
  intros T P. unfold carriesDw, dwS. cbn [m_rho m_al m_be m_daT].
  repeat match goal with |- _ /\ _ => split end; apply tsD_c; unfold DW, dw_ex; cbn [w_rho w_al w_be w_daT]; auto_derive; exact I.
Qed.
Lemma DW_same : forall t q, DW t (q * 100000) = dw_ex t q. Proof. intros t q. unfold DW. f_equal. field. Qed.
Lemma DW_ok : forall T P, dens_ok (fun x q => DW x (q * 100000)) T P.
Proof.
  intros T P. pose proof (dw_ex_ok T P) as H. unfold dens_ok in *. rewrite !DW_same. destruct H as (A & B & C). split; [|split]; (eapply d_ext; [|eassumption]; intro; now rewrite DW_same).
Qed.
Lemma hp_carry_ex : let x := hp98TS r_ex 0 (dw_ex 300 1) (dwS 400 100000000) 400 100000000 in let f := fun t p => mG (hp98 r_ex 0 (dw_ex 300 1) (DW t p) t (p / 100000)) in
  val (tG x) = f 400 100000000 /\ is_derive (fun p : R => f 400 p) 100000000 (ddp (tG x)) /\ ~ is_derive (fun t : R => f t 100000000) 400 (ddt (tG x)) /\ ddt (tG x) <> - val (tS x) /\ 400 * ddt (tS x) = val (tC x).
Proof.
  intros x f. assert (N1 : r_T r_ex <> 0) by (cbn; lra). assert (N2 : w_daT (dw_ex 300 1) <> 0) by (cbn; lra). assert (R0 : 0 < w_rho (dw_ex 300 1)) by apply exp_pos. assert (R1 : 0 < w_rho (DW 400 100000000)) by apply exp_pos.
  assert (H4 : 0 < 400) by lra. assert (H5 : 400 < 500) by lra.
  assert (LN : ln (w_rho (DW 400 100000000) / w_rho (dw_ex 300 1)) <> 0). { unfold DW. replace (100000000 / 100000) with 1000 by lra. exact L_ex. }
  destruct (hp_below r_ex 0 (dw_ex 300 1) (dwS 400 100000000) DW 400 100000000 (dw_c _ _) H4 R0 R1 N1 N2 (DW_ok _ _) H5) as [A [B C]].
  destruct (hp_reports r_ex 0 (dw_ex 300 1) (dwS 400 100000000) DW 400 100000000 (dw_c _ _) H4 R0 R1 N1 N2 (DW_ok _ _)) as [D [E _]].
  fold x in A, B, C, D, E. set (L := ln _) in *. clearbody L. cbn [r_ex r_C r_T dw_ex w_daT] in B, D.
  split; [exact A|]. split; [exact C|]. split; [|split; [|exact E]].
  - intro Q. pose proof (d_unique _ _ _ _ Q B) as U. apply LN. lra.
  - rewrite D. destruct (Rle_dec 400 500); [|lra]. intro U. apply LN. lra.
Qed.
Lemma an_carry_ex : let x := an91TS r_ex (dw_ex 300 1) (dwS 400 100000000) 400 100000000 in carries7 x (fun t p => an91 r_ex (dw_ex 300 1) (DW t p) t (p / 100000)) 400 100000000.
Proof.
  intros x. apply an_carries; [apply dw_c|apply exp_pos|apply exp_pos|cbn; lra|cbn; lra].
Qed.
