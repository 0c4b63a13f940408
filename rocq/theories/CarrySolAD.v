(** What the carried derivatives of the Akinfiev-Diamond and density models are. *)
From Coq Require Import Bool Reals Lra Lia.
From Coquelicot Require Import Coquelicot.
From Verif Require Import RDeriv ThermoScalarModel ThermoScalarSpec ThermoScalarProofs MineralModel MineralSpec CarryModel CarrySpec CarryPf GasMore GasPhase SoluteModel SoluteSpec SoluteProofs SoluteDens SoluteG SoluteO CarryReacPf CarrySolute CarrySoluteSpec CarrySolPf CarrySolG.
Open Scope R_scope.
Lemma c_const : forall v T P, carries (ts_assign v) (fun _ _ => v) T P.
Proof. intros. apply c_assign. Qed.
Section Inc.
Variables (p : adpar) (T P : R) (w : adwT) (W : R -> R -> adwater).
Hypothesis HT : 0 < T.
Hypothesis CW : carriesAdw w W T P.
Hypothesis HR : 0 < aw_rho (W T P).
Theorem ad_inc_carries : carriesInc (ad_incTS p T w) (fun t q => ad_increments p t (W t q)) T P.
Proof.
  destruct CW as (A1 & A2 & A3 & A4 & A5 & A6 & A7 & A8 & A9 & A10).
  assert (K1 := c_const Rj T P). assert (K2 := c_const RR T P). assert (K3 := c_const MW T P). assert (K4 := c_const (a_xi p) T P). assert (K5 := c_const (a_a p) T P). assert (K6 := c_const (a_b p) T P).
  assert (N1 : T * Rj <> 0) by (unfold Rj; lra). assert (N2 : MW <> 0) by (unfold MW; lra). assert (N3 : 0 < 1000 / MW) by (unfold MW; lra).
  assert (N4 : 0 < RR * T / MW) by (unfold RR, MW; apply Rdiv_lt_0_compat; lra). assert (N5 : 0 < 1000 / T) by (apply Rdiv_lt_0_compat; lra).
  assert (N6 : 0 < RR * T / MW * aw_rho (W T P)) by now apply Rmult_lt_0_compat.
  assert (N7 : aw_rho (W T P) <> 0) by lra. assert (N8 : T <> 0) by lra. assert (N9 : aw_rho (W T P) ^ 2 <> 0) by (apply pow_nonzero; exact N7).
  assert (N0 : forall x, 0 < exp x) by apply exp_pos.
  assert (QG : carries (j_G (ad_incTS p T w)) (fun t q => i_G (ad_increments p t (W t q))) T P).
  { unfold ad_incTS, ad_increments. cbn [j_G i_G]. cs3; auto. }
  assert (QS : carries (j_S (ad_incTS p T w)) (fun t q => i_S (ad_increments p t (W t q))) T P).
  { unfold ad_incTS, ad_increments. cbn [j_S i_S]. 
    apply (c_ext _ (fun t q => (1 - a_xi p) * (aw_S (W t q) - ai_S (W t q)) + Rj * ln (1000 / MW) - Rj * (a_xi p + a_xi p * ln (RR * t / MW) + a_xi p * ln (aw_rho (W t q)) + a_xi p * t * (1 / aw_rho (W t q)) * (- aw_al (W t q) * aw_rho (W t q)))
      - Rj * (a_a p * (aw_rho (W t q) + t * (- aw_al (W t q) * aw_rho (W t q))) + a_b p * (1 / 2 * p15 * Rpower t (- (1 / 2)) * aw_rho (W t q) + p15 * Rpower t (1 / 2) * (- aw_al (W t q) * aw_rho (W t q)))))); [intros; reflexivity|].
    cs3; auto. }
  split; [exact QG|]. split; [|split; [exact QS|split]].
  - unfold ad_incTS, ad_increments. cbn [j_V i_V].
    apply (c_ext _ (fun t q => (MW / aw_rho (W t q) * (1 - a_xi p) + a_xi p * RR * t * (1 / aw_rho (W t q)) * (aw_be (W t q) * aw_rho (W t q)) + RR * (a_a p * t * (aw_be (W t q) * aw_rho (W t q)) + a_b p * p15 * Rpower t (1 / 2) * (aw_be (W t q) * aw_rho (W t q)))) / 10)); [intros; reflexivity|].
    cs3; auto; lra.
  - unfold ad_incTS, ad_increments. cbn [j_C i_C]. cs3; auto.
  - unfold ad_incTS, ad_increments in *. cbn [j_G i_G j_S i_S j_H i_H] in *. eapply c_add; [exact QG|]. eapply c_mul; [apply c_T|exact QS].
Qed.
End Inc.

Section Sol.
Variables (T P : R) (t : tprop) (M : R -> mprop) (i0 i : incT) (I : R -> R -> adinc).
(** the gas: its properties do not depend on the pressure *)
Hypothesis G1 : carries (tG t) (fun x _ => mG (M x)) T P.
Hypothesis G2 : carries (tH t) (fun x _ => mH (M x)) T P.
Hypothesis G3 : carries (tS t) (fun x _ => mS (M x)) T P.
Hypothesis G4 : carries (tC t) (fun x _ => mCp (M x)) T P.
Hypothesis CI : carriesInc i I T P.
Let c0 : adinc := mkInc (val (j_G i0)) (val (j_V i0)) (val (j_S i0)) (val (j_C i0)) (val (j_H i0)).
Let F (x q : R) : mprop := ad_solute c0 (I x q) x (q / 100000) (M x).
Let r : tprop := ad_soluteTS i0 i T P t.
Lemma c_noddp : forall x f, carries x (fun s _ => f s) T P -> forall y, carries (no_ddp (ip_sub x y)) (fun s _ => f s - val y - ddt y * (s - T)) T P.
Proof.
  intros x f [A [B C]] y. unfold carries, no_ddp. cbn [val ddt ddp]. cbv beta. split; [|split].
  - cbn. rewrite A. ring.
  - eapply d_eq; [dr|]. cbn. ring.
  - apply d_const.
Qed.
Lemma c_ipsub0 : forall x f, carries x (fun s _ => f s) T P -> forall y, carries (ip_sub x y) (fun s q => f s - val y - ddt y * (s - T) - ddp y * (q - P)) T P.
Proof.
  intros x f [A [B C]] y. unfold carries. cbv beta. split; [|split].
  - cbn. rewrite A. ring.
  - eapply d_eq; [dr|]. cbn. ring.
  - assert (E : ddp x = 0) by (apply (d_unique _ _ _ _ C); apply d_const). eapply d_eq; [dr|]. cbn. rewrite E. ring.
Qed.
(** what the results carry: the derivatives of these functions *)
Theorem sol_carries :
  carries (tG r) (fun x q => mG (F x q) - (ddt (j_G i0) + val (j_S i0)) * (x - T)) T P /\
  carries (tS r) (fun x q => mS (F x q) - ddt (j_S i0) * (x - T)) T P /\
  carries (tH r) (fun x q => mH (F x q) - ddt (j_H i0) * (x - T) - ddp (j_H i0) * (q - P)) T P /\
  carries (tC r) (fun x q => mCp (F x q)) T P /\ carries (tV r) (fun x q => mV (F x q)) T P.
Proof.
  destruct CI as (I1 & I2 & I3 & I4 & I5). unfold r, ad_soluteTS, withUA. cbn [tG tS tH tC tV]. unfold F, ad_solute, with_UA. cbn [mG mS mH mCp mV c0 i_G i_S i_H].
  split; [|split; [|split; [|split]]].
  - apply (c_ext _ (fun x q => mG (M x) - val (j_G i0) - ddt (j_G i0) * (x - T) + i_G (I x q) + val (j_S i0) * (T - Tr))); [intros; ring|].
    eapply c_addd. eapply c_add; [|exact I1]. exact (c_noddp _ _ G1 (j_G i0)).
  - apply (c_ext _ (fun x q => mS (M x) - val (j_S i0) - ddt (j_S i0) * (x - T) + i_S (I x q))); [intros; ring|]. eapply c_add; [|exact I3]. exact (c_noddp _ _ G3 (j_S i0)).
  - apply (c_ext _ (fun x q => mH (M x) - val (j_H i0) - ddt (j_H i0) * (x - T) - ddp (j_H i0) * (q - P) + i_H (I x q))); [intros; ring|]. eapply c_add; [|exact I5]. exact (c_ipsub0 _ _ G2 (j_H i0)).
  - eapply c_add; [|exact I4]. destruct G4 as [A [B C]]. unfold carries, no_ddp. cbn [val ddt ddp]. split; [exact A|]. split; [exact B|apply d_const].
  - exact I2.
Qed.
End Sol.
(** with the reference increments as the code computes them *)
Lemma Pb : forall P, P / 100000 * 100000 = P. Proof. intro. field. Qed.
Theorem ad_reports : forall p w W w0 W0 t (M : R -> mprop) T P P0, 0 < T -> carriesAdw w W T P -> 0 < aw_rho (W T P) -> ad_water_ok (fun x q => W x (q * 100000)) T (P / 100000) ->
  carriesAdw w0 W0 Tr P0 -> 0 < aw_rho (W0 Tr P0) -> ad_water_ok (fun x q => W0 x (q * 100000)) Tr (P0 / 100000) ->
  carries (tG t) (fun x _ => mG (M x)) T P -> carries (tH t) (fun x _ => mH (M x)) T P -> carries (tS t) (fun x _ => mS (M x)) T P -> carries (tC t) (fun x _ => mCp (M x)) T P ->
  is_derive (fun x : R => mG (M x)) T (- mS (M T)) -> is_derive (fun x : R => mS (M x)) T (mCp (M T) / T) -> is_derive (fun x : R => mH (M x)) T (mCp (M T)) ->
  let i0 := ad_incTS p Tr w0 in let r := ad_soluteTS i0 (ad_incTS p T w) T P t in
  ddt (tG r) = - val (tS r) /\ ddt (tS r) = val (tC r) / T - val (j_C i0) / Tr /\ ddt (tH r) = val (tC r) - val (j_C i0) /\
  (is_derive (fun q : R => aw_G (W T (q * 100000))) (P / 100000) (MW / aw_rho (W T P) / 10) -> ddp (tG r) = val (tV r) / 100000).
Proof.
  intros p w W w0 W0 t M T P P0 HT CW HR OW CW0 HR0 OW0 G1 G2 G3 G4 D1 D2 D3 i0 r.
  assert (HT0 : 0 < Tr) by (unfold Tr; lra).
  pose proof (ad_inc_carries p T P w W HT CW HR) as CI. pose proof (ad_inc_carries p Tr P0 w0 W0 HT0 CW0 HR0) as CI0. fold i0 in CI0.
  assert (HR' : 0 < aw_rho (W T (P / 100000 * 100000))) by (rewrite Pb; exact HR). assert (HR0' : 0 < aw_rho (W0 Tr (P0 / 100000 * 100000))) by (rewrite Pb; exact HR0).
  assert (S0 := ad_S p _ Tr _ HT0 OW0 HR0'). assert (C0 := ad_C p _ Tr _ HT0 OW0 HR0'). assert (H0 := ad_H p _ Tr _ HT0 OW0 HR0'). cbv beta in S0, C0, H0. rewrite Pb in S0, C0, H0.
  destruct CI0 as (J1 & J2 & J3 & J4 & J5).
  assert (E1 : ddt (j_G i0) = - val (j_S i0)). { rewrite (proj1 J3). exact (d_unique _ _ _ _ (proj1 (proj2 J1)) S0). }
  assert (E2 : ddt (j_S i0) = val (j_C i0) / Tr). { rewrite (proj1 J4). exact (d_unique _ _ _ _ (proj1 (proj2 J3)) C0). }
  assert (E3 : ddt (j_H i0) = val (j_C i0)). { rewrite (proj1 J4). exact (d_unique _ _ _ _ (proj1 (proj2 J5)) H0). }
  destruct (sol_carries T P t M i0 (ad_incTS p T w) (fun x q => ad_increments p x (W x q)) G1 G2 G3 G4 CI) as (K1 & K2 & K3 & K4 & K5). fold r in K1, K2, K3, K4, K5.
  rewrite E1 in K1. rewrite E2 in K2. rewrite E3 in K3.
  set (c0 := mkInc (val (j_G i0)) (val (j_V i0)) (val (j_S i0)) (val (j_C i0)) (val (j_H i0))) in *.
  set (c := val (j_C i0)) in *. clearbody c. clearbody c0.
  assert (A1 := ad_S p _ T _ HT OW HR'). assert (A2 := ad_C p _ T _ HT OW HR'). assert (A3 := ad_H p _ T _ HT OW HR'). cbv beta in A1, A2, A3. rewrite Pb in A1, A2, A3.
  unfold ad_solute, with_UA in K1, K2, K3, K4, K5. cbn [mG mS mH mCp mV] in K1, K2, K3, K4, K5.
  assert (B1 : is_derive (fun x : R => mG (M x) - i_G c0 + i_G (ad_increments p x (W x P)) + i_S c0 * (x - Tr) - (- val (j_S i0) + val (j_S i0)) * (x - T)) T (- (mS (M T) - i_S c0 + i_S (ad_increments p T (W T P))))) by (eapply d_eq; [dr|]; cbv beta; ring).
  assert (B2 : is_derive (fun x : R => mS (M x) - i_S c0 + i_S (ad_increments p x (W x P)) - c / Tr * (x - T)) T ((mCp (M T) + i_C (ad_increments p T (W T P))) / T - c / Tr)) by (eapply d_eq; [dr|]; cbv beta; field; lra).
  assert (B3 : is_derive (fun x : R => mH (M x) - i_H c0 + i_H (ad_increments p x (W x P)) - c * (x - T) - ddp (j_H i0) * (P - P)) T (mCp (M T) + i_C (ad_increments p T (W T P)) - c)) by (eapply d_eq; [dr|]; cbv beta; ring).
  rewrite (d_unique _ _ _ _ (proj1 (proj2 K1)) B1), (d_unique _ _ _ _ (proj1 (proj2 K2)) B2), (d_unique _ _ _ _ (proj1 (proj2 K3)) B3), (proj1 K2), (proj1 K4), (proj1 K5). cbv beta.
  split; [ring|]. split; [reflexivity|]. split; [reflexivity|]. intro V.
  assert (V' : is_derive (fun q : R => aw_G (W T (q * 100000))) (P / 100000) (MW / aw_rho (W T (P / 100000 * 100000)) / 10)) by (rewrite Pb; exact V).
  assert (A4 := ad_V0 p _ T _ HT OW HR' _ V'). cbv beta in A4. rewrite Pb in A4. pose proof (in_bar (fun q : R => i_G (ad_increments p T (W T (q * 100000)))) P _ A4) as A5.
  assert (A6 : is_derive (fun q : R => i_G (ad_increments p T (W T q))) P (i_V (ad_increments p T (W T P)) / 100000)).
  { eapply d_eq; [eapply is_derive_ext; [|exact A5]; intro q; cbv beta; now rewrite Pb|]. field. lra. }
  apply (d_unique _ _ _ _ (proj2 (proj2 K1))). eapply d_eq; [dr|]. cbv beta. ring.
Qed.

(** *** density models *)
Section Dens.
Variables (r : dref) (b : R) (w0 : dwater) (w : dwT) (W : R -> R -> dwater) (T P : R).
Hypothesis CW : carriesDw w W T P.
Hypothesis HT : 0 < T.
Hypothesis R0 : 0 < w_rho w0.
Hypothesis RW : 0 < w_rho (W T P).
Hypothesis N1 : r_T r <> 0.
Hypothesis N2 : w_daT w0 <> 0.
(** Holland and Powell with a fixed T' *)
Definition hpF (T' : R) (w : dwater) (T P : R) : mprop :=
  let K := (r_C r - r_T r * b) / (r_T r * w_daT w0) in
  let inc := P * r_V r + b * (r_T r * T - r_T r ^ 2 / 2 - T ^ 2 / 2) + K * (w_al w0 * (T - r_T r) - w_be w0 * P + T / T' * ln (w_rho w / w_rho w0)) in
  let Gbb := r_H r - T * r_S r + inc in
  let G := r_G r - (T - r_T r) * r_S r + inc in
  let S := r_S r - b * (r_T r - T) - K * (w_al w0 - ln (w_rho w / w_rho w0) / T' - T / T' * w_al w) in
  let V := r_V r + K * (- w_be w0 + T / T' * w_be w) in
  let C := T * (b - (r_T r * b - r_C r) * (T * w_daT w) / (r_T r * w_daT w0 * T')) in
  with_UA G (Gbb + T * r_S r) S V C T P.
Definition Tp : R := if Rle_dec T 500 then T else 500.
Lemma Tp_pos : 0 < Tp. Proof. unfold Tp. destruct (Rle_dec T 500); lra. Qed.
Lemma rr_pos : 0 < w_rho (W T P) / w_rho w0. Proof. now apply Rdiv_lt_0_compat. Qed.
Theorem hp_frozen : carries7 (hp98TS r b w0 w T P) (fun t p => hpF Tp (W t p) t (p / 100000)) T P.
Proof.
  destruct CW as (A1 & A2 & A3 & A4). assert (TP := Tp_pos). assert (RP := rr_pos). assert (M1 : w_rho w0 <> 0) by lra. assert (M2 : Tp <> 0) by lra. assert (M3 : r_T r * w_daT w0 * Tp <> 0) by (repeat apply Rmult_integral_contrapositive_currified; assumption).
  set (K := (r_C r - r_T r * b) / (r_T r * w_daT w0)).
  assert (QG : carries (tG (hp98TS r b w0 w T P)) (fun t p => mG (hpF Tp (W t p) t (p / 100000))) T P).
  { unfold hp98TS, hpF, withUA, with_UA. fold Tp K. cbn [tG mG].
    apply (c_ext _ (fun t p => r_G r - (t - r_T r) * r_S r + p / 100000 * r_V r + b * (r_T r * t - r_T r ^ 2 / 2 - t ^ 2 / 2) + K * (w_al w0 * (t - r_T r) - w_be w0 * (p / 100000) + t / Tp * ln (w_rho (W t p) / w_rho w0)))); [intros; ring|]. cs3; auto; try lra. }
  assert (QH : carries (tH (hp98TS r b w0 w T P)) (fun t p => mH (hpF Tp (W t p) t (p / 100000))) T P).
  { unfold hp98TS, hpF, withUA, with_UA. fold Tp K. cbn [tH mH].
    apply (c_ext _ (fun t p => r_H r - t * r_S r + p / 100000 * r_V r + b * (r_T r * t - r_T r ^ 2 / 2 - t ^ 2 / 2) + K * (w_al w0 * (t - r_T r) - w_be w0 * (p / 100000) + t / Tp * ln (w_rho (W t p) / w_rho w0)) + t * r_S r)); [intros; ring|]. cs3; auto; try lra. }
  assert (QS : carries (tS (hp98TS r b w0 w T P)) (fun t p => mS (hpF Tp (W t p) t (p / 100000))) T P) by (unfold hp98TS, hpF, withUA, with_UA; fold Tp K; cbn [tS mS]; cs3; auto; try lra).
  assert (QV : carries (tV (hp98TS r b w0 w T P)) (fun t p => mV (hpF Tp (W t p) t (p / 100000))) T P) by (unfold hp98TS, hpF, withUA, with_UA; fold Tp K; cbn [tV mV]; cs3; auto; try lra).
  assert (QC : carries (tC (hp98TS r b w0 w T P)) (fun t p => mCp (hpF Tp (W t p) t (p / 100000))) T P) by (unfold hp98TS, hpF, withUA, with_UA; fold Tp K; cbn [tC mCp]; cs3; auto; try lra).
  unfold hp98TS, hpF, withUA, with_UA in *. cbn [tG mG tH mH tS mS tV mV tC mCp] in *. split; [unfold carries5; repeat (split; [assumption|]); assumption|].
  assert (QU := c_sub _ _ _ _ _ _ QH (c_mul _ _ _ _ _ _ (c_bar T P) QV)). split; [exact QU|]. cbn [tA mA]. exact (c_sub _ _ _ _ _ _ QU (c_mul _ _ _ _ _ _ (c_T T P) QS)).
Qed.
(** what is reported belongs together *)
Hypothesis OW : dens_ok (fun t q => W t (q * 100000)) T (P / 100000).
Lemma PEq : P / 100000 * 100000 = P. Proof. field. Qed.
Lemma ow_T : is_derive (fun t : R => w_rho (W t P)) T (- w_al (W T P) * w_rho (W T P)) /\ is_derive (fun t : R => w_al (W t P)) T (w_daT (W T P)).
Proof. destruct OW as (A & _ & C). cbv beta in A, C. rewrite PEq in A, C. now split. Qed.
Lemma ow_P : is_derive (fun p : R => w_rho (W T p)) P (w_be (W T P) * w_rho (W T P) / 100000).
Proof.
  destruct OW as (_ & B & _). cbv beta in B. rewrite PEq in B. pose proof (in_bar (fun q : R => w_rho (W T (q * 100000))) P _ B) as D.
  eapply is_derive_ext; [|exact D]. intro p. cbv beta. f_equal. f_equal. field.
Qed.
Lemma ln_T : is_derive (fun t : R => ln (w_rho (W t P) / w_rho w0)) T (- w_al (W T P)).
Proof. destruct ow_T as [A _]. eapply d_eq; [apply (d_ln (fun t : R => w_rho (W t P) / w_rho w0)); [dr; lra|exact rr_pos]|]. cbv beta. field. lra. Qed.
Lemma ln_P : is_derive (fun p : R => ln (w_rho (W T p) / w_rho w0)) P (w_be (W T P) / 100000).
Proof. assert (A := ow_P). eapply d_eq; [apply (d_ln (fun p : R => w_rho (W T p) / w_rho w0)); [dr; lra|exact rr_pos]|]. cbv beta. field. lra. Qed.
Theorem hp_reports : let x := hp98TS r b w0 w T P in let K := (r_C r - r_T r * b) / (r_T r * w_daT w0) in let T' := if Rle_dec T 500 then T else 500 in
  ddt (tG x) = - val (tS x) + 2 * K * ln (w_rho (W T P) / w_rho w0) / T' /\ T * ddt (tS x) = val (tC x) /\ ddp (tG x) = val (tV x) / 100000.
Proof.
  intros x K T'. change T' with Tp. clear T'. destruct hp_frozen as [[C1 [_ [C3 [C4 C5]]]] _]. fold x in C1, C3, C4, C5. assert (TP := Tp_pos). assert (D1 := ln_T). assert (D2 := ln_P). assert (D3 := proj2 ow_T).
  unfold hpF, with_UA in C1, C3, C4, C5. cbn [mG mS mV mCp] in C1, C3, C4, C5.
  fold K in C1, C3, C4, C5.
  assert (KE : (r_T r * b - r_C r) = - K * (r_T r * w_daT w0)) by (unfold K; field; split; assumption). 
  set (Tq := Tp) in *. clearbody Tq.
  rewrite (proj1 C3), (proj1 C4), (proj1 C5). cbv beta. split; [|split].
  - apply (d_unique _ _ _ _ (proj1 (proj2 C1))). eapply d_eq; [dr; lra|]. cbv beta. cbn [INR Init.Nat.pred]. clearbody K. field. lra.
  - assert (E : ddt (tS x) = b + K * (T / Tq * w_daT (W T P))). { apply (d_unique _ _ _ _ (proj1 (proj2 C3))). eapply d_eq; [dr; lra|]. cbv beta. cbn [INR Init.Nat.pred]. clearbody K. field. lra. }
    rewrite E, KE. clearbody K. field. repeat split; try assumption; lra.
  - apply (d_unique _ _ _ _ (proj2 (proj2 C1))). eapply d_eq; [dr; lra|]. cbv beta. cbn [INR Init.Nat.pred]. clearbody K. field. lra.
Qed.
(** above 500 K the derivatives are those of the function *)
Theorem hp_above : 500 < T -> carries7 (hp98TS r b w0 w T P) (fun t p => hp98 r b w0 (W t p) t (p / 100000)) T P.
Proof.
  intro H5. assert (NL : locally T (fun t => 500 < t)) by now apply near_gt.
  assert (E : forall t p, 500 < t -> hpF Tp (W t p) t (p / 100000) = hp98 r b w0 (W t p) t (p / 100000)).
  { intros t p Ht. unfold hpF, hp98, Tp. destruct (Rle_dec T 500); [lra|]. destruct (Rle_dec t 500); [lra|]. reflexivity. }
  assert (X : forall (y : TS) (f : mprop -> R), carries y (fun t p => f (hpF Tp (W t p) t (p / 100000))) T P -> carries y (fun t p => f (hp98 r b w0 (W t p) t (p / 100000))) T P).
  { intros y f [Y1 [Y2 Y3]]. split; [|split].
    - rewrite Y1. cbv beta. now rewrite E.
    - eapply is_derive_ext_loc; [|exact Y2]. eapply filter_imp; [|exact NL]. intros t Ht. cbv beta. now rewrite E.
    - eapply is_derive_ext; [|exact Y3]. intro p. cbv beta. now rewrite E. }
  destruct hp_frozen as [[C1 [C2 [C3 [C4 C5]]]] [C6 C7]]. split; [split; [|split; [|split; [|split]]]|split]; now apply X.
Qed.
(** below it they are not; the pressure derivative is *)
Theorem hp_below : T < 500 -> let x := hp98TS r b w0 w T P in let K := (r_C r - r_T r * b) / (r_T r * w_daT w0) in
  val (tG x) = mG (hp98 r b w0 (W T P) T (P / 100000)) /\
  is_derive (fun t : R => mG (hp98 r b w0 (W t P) t (P / 100000))) T (ddt (tG x) - K * ln (w_rho (W T P) / w_rho w0) / T) /\
  is_derive (fun p : R => mG (hp98 r b w0 (W T p) T (p / 100000))) P (ddp (tG x)).
Proof.
  intros H5 x K. assert (TE : Tp = T) by (unfold Tp; destruct (Rle_dec T 500); lra).
  destruct hp_frozen as [[C1 _] _]. fold x in C1. rewrite TE in C1.
  assert (PP : forall p, hpF T (W T p) T (p / 100000) = hp98 r b w0 (W T p) T (p / 100000)). { intro p. unfold hpF, hp98. destruct (Rle_dec T 500); [reflexivity|lra]. }
  split; [rewrite (proj1 C1); cbv beta; now rewrite PP|]. split.
  - assert (NL : locally T (fun t => 0 < t < 500)) by (apply near_both; [now apply near_gt|now apply near_lt]).
    assert (DG : is_derive (fun t : R => mG (hpF T (W t P) t (P / 100000)) - K * ((t / T - 1) * ln (w_rho (W t P) / w_rho w0))) T (ddt (tG x) - K * ln (w_rho (W T P) / w_rho w0) / T)).
    { assert (D1 := ln_T). assert (D2 := proj1 (proj2 C1)). cbv beta in D2. eapply d_eq; [apply d_minus; [exact D2|apply d_mult; [apply d_const|apply d_mult; [dr; lra|exact D1]]]|]. cbv beta. cbn [INR Init.Nat.pred]. clearbody K. field. lra. }
    eapply is_derive_ext_loc; [|exact DG]. eapply filter_imp; [|exact NL]. intros t [Ht1 Ht2]. cbv beta. unfold hpF, hp98, with_UA. cbn [mG]. fold K. destruct (Rle_dec t 500); [|lra]. clearbody K. match goal with |- ?a = ?b => change (@eq R a b) end. field. lra.
  - eapply is_derive_ext; [|exact (proj2 (proj2 C1))]. intro p. cbv beta. now rewrite PP.
Qed.
(** Anderson *)
Theorem an_carries : carries7 (an91TS r w0 w T P) (fun t p => an91 r w0 (W t p) t (p / 100000)) T P.
Proof.
  destruct CW as (A1 & A2 & A3 & A4). assert (RP := rr_pos). assert (M1 : w_rho w0 <> 0) by lra. assert (M3 : r_T r * w_daT w0 <> 0) by now apply Rmult_integral_contrapositive_currified.
  set (K := r_C r / (r_T r * w_daT w0)).
  assert (QG : carries (tG (an91TS r w0 w T P)) (fun t p => mG (an91 r w0 (W t p) t (p / 100000))) T P).
  { unfold an91TS, an91, withUA, with_UA. fold K. cbn [tG mG]. cs3; auto; try lra. }
  assert (QH : carries (tH (an91TS r w0 w T P)) (fun t p => mH (an91 r w0 (W t p) t (p / 100000))) T P).
  { unfold an91TS, an91, withUA, with_UA. fold K. cbn [tH mH]. cs3; auto; try lra. }
  assert (QS : carries (tS (an91TS r w0 w T P)) (fun t p => mS (an91 r w0 (W t p) t (p / 100000))) T P) by (unfold an91TS, an91, withUA, with_UA; cbn [tS mS]; cs3; auto; try lra).
  assert (QV : carries (tV (an91TS r w0 w T P)) (fun t p => mV (an91 r w0 (W t p) t (p / 100000))) T P). { unfold an91TS, an91, withUA, with_UA. cbn [tV mV]. split; [reflexivity|]. split; apply d_const. }
  assert (QC : carries (tC (an91TS r w0 w T P)) (fun t p => mCp (an91 r w0 (W t p) t (p / 100000))) T P) by (unfold an91TS, an91, withUA, with_UA; cbn [tC mCp]; cs3; auto; try lra).
  unfold an91TS, an91, withUA, with_UA in *. cbn [tG mG tH mH tS mS tV mV tC mCp] in *. split; [unfold carries5; repeat (split; [assumption|]); assumption|].
  assert (QU := c_sub _ _ _ _ _ _ QH (c_mul _ _ _ _ _ _ (c_bar T P) QV)). split; [exact QU|]. cbn [tA mA]. exact (c_sub _ _ _ _ _ _ QU (c_mul _ _ _ _ _ _ (c_T T P) QS)).
Qed.
End Dens.
