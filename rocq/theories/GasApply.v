(** Pressure corrections of gases and of condensed substances with a constant volume. *)
From Coq Require Import List Bool Reals Lra Lia String.
From Coquelicot Require Import Coquelicot.
From Verif Require Import RDeriv ThermoScalarModel EngineModel GasModel GasSpec GasProofs.
Open Scope R_scope.

(** G - (H - T S) *)
Definition gap (T : R) (t : TPS) : R := val (G t) - (val (H t) - T * val (S t)).
Lemma bar_val : forall P, val (ip_div_d (Pressure P) bar_to_Pa) = P / 100000.
Proof. intros. unfold ip_div_d, ip_mul_d, Pressure, ctor5. cbn [val]. unfold bar_to_Pa. lra. Qed.
Lemma con_volume : forall s T P t, fst (sta (V (s_ref s))) <> notdefined -> let r := conMolVol s T P t in let v := val (V (s_ref s)) in
  gap T r = gap T t /\ val (V r) = v /\ val (G r) = val (G t) + v * (P / 100000 - s_refP s / 100000) /\
  val (U r) = val (H r) - P / 100000 * val (V r) /\ val (A r) = val (U r) - T * val (S r) /\ val (S r) = val (S t).
Proof.
  intros s T P t Hs r v. unfold r, conMolVol. destruct (status_eqb _ _) eqn:E; [destruct (fst (sta (V (s_ref s)))); try discriminate; contradiction|].
  unfold gap. cbn [G H S U A V]. unfold ip_add, ts_sub, ts_mul, ts_sub_d, ctor5. cbn [val]. rewrite bar_val. cbn [val Temperature ctor5]. unfold v, bar_to_Pa. repeat split; ring.
Qed.
Lemma con_volume_slope : forall s T P t, fst (sta (V (s_ref s))) <> notdefined -> is_derive (fun p => val (G (conMolVol s T (p * 100000) t))) P (val (V (conMolVol s T (P * 100000) t))).
Proof.
  intros s T P t Hs. destruct (con_volume s T (P * 100000) t Hs) as (_ & Ev & _). rewrite Ev.
  eapply d_ext; [intros p; symmetry; exact (proj1 (proj2 (proj2 (con_volume s T (p * 100000) t Hs))))|]. eapply d_eq; [apply d_plus; [apply d_const|apply d_scal, d_minus; [unfold Rdiv; apply d_scal_r, d_scal_r, d_id|apply d_const]]|]. field.
Qed.
Lemma ideal_gas : forall s T P t, is_gasfluid (s_class s) = true -> 0 < P -> let r := idealGasVol s T P t true in
  gap T r = gap T t /\ val (V r) = Rgas * T / (P / 100000) /\ val (G r) = val (G t) + val (V r) * (P / 100000 - s_refP s / 100000) /\
  val (U r) = val (H r) - P / 100000 * val (V r) /\ val (A r) = val (U r) - T * val (S r) /\ val (S r) = val (S t).
Proof.
  intros s T P t Hg HP r. unfold r, idealGasVol. rewrite Hg. destruct (Rlt_dec 0 P) as [_|]; [|contradiction]. cbn [andb]. unfold applyPressure, gap. cbn [G H S U A V].
  assert (EV : val (ts_mul_d (ts_div (Temperature T) (ip_div_d (Pressure P) bar_to_Pa)) R_CONSTANT) = Rgas * T / (P / 100000)). { assert (Em : forall l r, val (ts_mul_d l r) = r * val l) by (intros; unfold ts_mul_d, d_mul_ts; destruct (is0 _); reflexivity). rewrite Em. change (val (ts_div (Temperature T) (ip_div_d (Pressure P) bar_to_Pa))) with (1 / val (ip_div_d (Pressure P) bar_to_Pa) * T). rewrite bar_val, Rgas_Rg. change R_CONSTANT with Rg. field. lra. }
  set (vv := ts_mul_d _ R_CONSTANT) in *. clearbody vv. unfold ip_add, ts_sub, ts_mul, ts_sub_d, ctor5. cbn [val]. rewrite bar_val, EV. cbn [val Temperature ctor5]. unfold bar_to_Pa. repeat split; ring.
Qed.
Lemma ln_gt : forall x, 0 < x -> x <> 1 -> 1 - / x < ln x.
Proof.
  intros x Hx Hne. assert (Hl : ln x <> 0). { intros Z. apply Hne. rewrite <- (exp_ln x Hx), Z. apply exp_0. }
  assert (E := exp_ineq1 (- ln x)). rewrite exp_Ropp, exp_ln in E by exact Hx. assert (1 + - ln x < / x) by (apply E; lra). lra.
Qed.
Lemma ideal_gas_low : forall s T P t, is_gasfluid (s_class s) = true -> 0 < P -> 0 < T -> 0 < s_refP s -> P <> s_refP s ->
  val (G (idealGasVol s T P t true)) < val (G t) + Rgas * T * ln (P / s_refP s).
Proof.
  intros s T P t Hg HP HT Hr Hne. destruct (ideal_gas s T P t Hg HP) as (_ & Ev & Eg & _). rewrite Eg, Ev. apply Rplus_lt_compat_l.
  assert (Hx : 0 < P / s_refP s) by (now apply Rdiv_lt_0_compat). assert (Hx1 : P / s_refP s <> 1). { intros Z. apply Hne. rewrite <- (Rmult_1_l (s_refP s)), <- Z. field. lra. }
  assert (L := ln_gt _ Hx Hx1). assert (RT : 0 < Rgas * T) by (apply Rmult_lt_0_compat; [unfold Rgas; lra|exact HT]).
  replace (Rgas * T / (P / 100000) * (P / 100000 - s_refP s / 100000)) with (Rgas * T * (1 - / (P / s_refP s))) by (field; repeat split; lra). now apply Rmult_lt_compat_l.
Qed.
Lemma ideal_gas_off : forall s T P t, let r := idealGasVol s T P t false in G r = G t /\ H r = H t /\ S r = S t /\ U r = U t /\ A r = A t.
Proof. intros s T P t r. unfold r, idealGasVol. destruct (_ && _); repeat split; reflexivity. Qed.
(** *** what the fugacity models write *)
Lemma apply_vals : forall f tk p t, 0 < f_phi f -> 0 < val p -> let r := gas_apply f tk p t in
  val (G r) = val (G t) /\ val (H r) = val (H t) + f_h f /\ val (S r) = val (S t) + f_s f /\ val (V r) = f_v f /\ Cp r = Cp t /\ U r = U t /\ A r = A t.
Proof.
  intros f tk p t Hf Hp r. unfold r, gas_apply, gas_pressure. destruct (Req_EM_T (val p) 0) as [Z|_]; [lra|]. cbn [G H S V Cp U A].
  assert (Em : forall l r, val (ts_mul_d l r) = r * val l) by (intros; unfold ts_mul_d, d_mul_ts; destruct (is0 _); reflexivity).
  assert (Ed : forall r l, val (d_mul_ts l r) = l * val r) by (intros; unfold d_mul_ts; destruct (is0 _); reflexivity).
  split; [|repeat split; reflexivity].
  assert (Ea : forall x y, val (ip_add x y) = val x + val y) by reflexivity. assert (Es : forall x y, val (ip_sub x y) = val x - val y) by reflexivity.
  assert (Et : forall x y, val (ts_mul x y) = val x * val y) by reflexivity. assert (El : forall x, val (ts_log x) = ln (val x)) by (intros; unfold ts_log; cbv zeta; repeat match goal with |- context [if ?b then _ else _] => destruct b end; reflexivity). assert (Ev : forall x y, val (ts_div x y) = 1 / val y * val x) by reflexivity.
  rewrite Es, Ea, Em, Et, El, Ev, !Ed. replace (1 / val p * (f_phi f * val p)) with (f_phi f) by (field; lra). ring.
Qed.
Lemma apply_gap : forall f T p t, 0 < f_phi f -> 0 < val p -> f_g f = f_h f - T * f_s f -> gap T (gas_apply f (Temperature T) p t) = gap T t - f_g f.
Proof. intros f T p t Hf Hp Hg. destruct (apply_vals f (Temperature T) p t Hf Hp) as (E1 & E2 & E3 & _). unfold gap. rewrite E1, E2, E3, Hg. ring. Qed.

(** *** the critical parameters *)
Import ListNotations.
Open Scope list_scope.
Open Scope R_scope.
Lemma gas_loop_spec : forall n l r, gas_loop l n = Some r <-> (n <= List.length l)%nat /\ r = firstn n l.
Proof.
  induction n as [|n IH]; intros l r; cbn [gas_loop].
  - split; [intros [= <-]; split; [apply le_0_n|reflexivity]|intros [_ ->]; reflexivity].
  - assert (F : forall x, nth_error l n = Some x -> firstn (Datatypes.S n) l = firstn n l ++ [x]).
    { clear IH. revert l. induction n as [|n IH]; intros [|y l] x E; try discriminate; cbn in *; [injection E as ->; reflexivity|]. f_equal. now apply IH. }
    destruct (nth_error l n) as [x|] eqn:E.
    + assert (L := proj1 (nth_error_Some l n) ltac:(now rewrite E)). destruct (gas_loop l n) as [q|] eqn:Eq.
      * destruct (proj1 (IH l q) Eq) as [_ ->]. rewrite (F x eq_refl). split; [intros [= <-]; split; [exact L|reflexivity]|intros [_ ->]; reflexivity].
      * split; [discriminate|]. intros _. exfalso. assert (X : gas_loop l n = Some (firstn n l)) by (apply IH; split; [apply PeanoNat.Nat.lt_le_incl; exact L|reflexivity]). rewrite Eq in X. discriminate.
    + apply nth_error_None in E. split; [destruct (gas_loop l n); discriminate|]. intros [L _]. exfalso. apply (PeanoNat.Nat.lt_irrefl n). now apply PeanoNat.Nat.lt_le_trans with (List.length l).
Qed.
Lemma gas_read_spec : forall l r, gas_read l = Some r <-> (7 <= List.length l)%nat /\ r = firstn 7 l.
Proof. intros l r. apply gas_loop_spec. Qed.
