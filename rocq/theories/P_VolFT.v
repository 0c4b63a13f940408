(** C110: the volume of a reaction as a function of temperature and pressure.  Theorems only.  *)
From Coq Require Import List Reals Lra ZArith.
From Verif Require Import ThermoScalarModel EngineModel VolFT VolFTPf.
Open Scope R_scope.

(** The engine drops the answer of the temperature correction for a reaction with one of the two volume methods: whatever its data, the constant is 1 and
    every property 0 *)
Theorem C110_engine_refuted : forall mm rs T r e, (forall r T P, m_rvol mm r T P = Reaction_Vol_fT r T P) -> isFromReactants r = false -> r_eos r <> CTPM_CON -> r_mP r = CPM_VKE \/ r_mP r = CPM_VBE ->
  (val (lnK tpr_default) = 0 /\ val (logK tpr_default) = 0 /\ val (rG tpr_default) = 0 /\ val (rV tpr_default) = 0) /\
  let mT := if Z.eqb (r_eos r) CTPM_REA then CTM_LGK else r_mT r in
  (is_logK mT = true -> m_logK mm r T (pv e) mT <> None -> reacBody mm rs T r e = (e, Ret tpr_default)) /\
  (forall e' x, mT <> CTM_MRB -> reacBody mm rs T r e = (e', Ret x) -> x = tpr_default).
Proof. exact engine_blank. Qed.
Print Assumptions C110_engine_refuted.
Example C110_engine_case : let z := ts_of_double 0 in let r := mkReac String.EmptyString 0 CTM_LGK CPM_VKE nil 100000 (mkTPR z z z z z z z z z z) in
  isFromReactants r = false /\ r_eos r <> CTPM_CON /\ r_eos r <> CTPM_REA /\ is_logK (r_mT r) = true.
Proof. exact engine_case. Qed.

(** The function itself: the volume is the one given plus the polynomial of up to five coefficients, further ones having no effect, plus an energy V0 (P - Pref)
    with P in bar and Pref in Pa *)
Theorem C110_volume : forall r Tr a T P t, let p := P / 100000 in let V0 := val (rV (r_ref r)) in
  let x := T - Tr in let y := p - r_refP r in
  val (rV (vol_at r Tr a T P t)) = val (rV t) + V0 * (nth 0 a 0 * x + nth 1 a 0 * x ^ 2 + nth 2 a 0 * x ^ 3 + nth 3 a 0 * y + nth 4 a 0 * y ^ 2) + V0 * y.
Proof. exact volume_is. Qed.
Print Assumptions C110_volume.

(** So at the reference state the volume is not the reference volume *)
Theorem C110_reference_refuted : forall r Tr a t, nth 3 a 0 = 0 -> nth 4 a 0 = 0 -> val (rV t) = val (rV (r_ref r)) -> val (rV (r_ref r)) <> 0 -> 0 < r_refP r ->
  val (rV (vol_at r Tr a Tr (r_refP r) t)) <> val (rV (r_ref r)).
Proof. exact (proj1 reference_bad). Qed.
Print Assumptions C110_reference_refuted.

(** The constant and the Gibbs energy part: the constant gets a pressure correction, the Gibbs energy none *)
Theorem C110_gibbs_refuted : forall r Tr a T P t, T <> 0 -> val (rG t) = - (R_CONSTANT * T * val (lnK t)) -> let x := vol_at r Tr a T P t in
  val (rG x) + R_CONSTANT * T * val (lnK x) = - (val (rV x) * (P / 100000 - r_refP r)).
Proof. exact gibbs_bad. Qed.
Print Assumptions C110_gibbs_refuted.
Example C110_case : exists r a t, nth 3 a 0 = 0 /\ nth 4 a 0 = 0 /\ val (rV t) = val (rV (r_ref r)) /\ val (rV (r_ref r)) <> 0 /\ 0 < r_refP r /\
  val (rG t) = - (R_CONSTANT * 300 * val (lnK t)) /\ val (rV (vol_at r 300 a 300 100000 t)) < -99990.
Proof. exact vol_case. Qed.

(** The relations among the other properties hold *)
Theorem C110_relations : forall r Tr a T P t, T <> 0 -> let x := vol_at r Tr a T P t in let p := P / 100000 in
  val (rG x) = val (rG t) /\ val (rH x) = val (rH t) + val (rV (r_ref r)) * (p - r_refP r) /\ val (rG x) = val (rH x) - T * val (rS x) /\
  val (rU x) = val (rH x) - p * val (rV x) /\ val (rA x) = val (rU x) - T * val (rS x) /\ val (logK x) = val (lnK x) / lg_to_ln.
Proof. exact identities. Qed.
Print Assumptions C110_relations.
