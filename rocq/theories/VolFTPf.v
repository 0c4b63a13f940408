(** Proofs about the volume function of a reaction.  *)
From Coq Require Import List Reals Lra Lia ZArith Bool String.
From Verif Require Import ThermoScalarModel EngineModel VolFT.
Import ListNotations.
Open Scope R_scope.

(** the volume the coefficients describe, relative to that of the reference state *)
Definition vol_poly (a : list R) (x y : R) : R := nth 0 a 0 * x + nth 1 a 0 * x ^ 2 + nth 2 a 0 * x ^ 3 + nth 3 a 0 * y + nth 4 a 0 * y ^ 2.

Lemma dm_val : forall l r, val (d_mul_ts l r) = l * val r. Proof. intros l r. unfold d_mul_ts. destruct (is0 (val r)); reflexivity. Qed.
Lemma rest_none : forall TK Pbar Tst Pst Vst a i V, (5 <= i)%nat -> vol_loop TK Pbar Tst Pst Vst i a V = V.
Proof.
  intros TK Pbar Tst Pst Vst a. induction a as [|x l IH]; intros i V L; [reflexivity|]. cbn [vol_loop].
  do 5 (destruct i as [|i]; [lia|]). cbn [vol_add]. apply IH. lia.
Qed.
Lemma loop_val : forall TK Pbar Tst Pst Vst a V,
  val (vol_loop TK Pbar Tst Pst Vst 0 a V) = val V + val Vst * vol_poly a (val TK - Tst) (val Pbar - Pst).
Proof.
  intros TK Pbar Tst Pst Vst a V. unfold vol_poly.
  destruct a as [|a0 [|a1 [|a2 [|a3 [|a4 l]]]]]; cbn [vol_loop nth]; [..|rewrite rest_none by lia]; cbn [vol_add]; unfold volT, volP; cbn -[d_mul_ts]; rewrite ?dm_val; cbn -[d_mul_ts]; ring.
Qed.
Lemma volume_is : forall r Tr a T P t, let p := P / 100000 in let V0 := val (rV (r_ref r)) in
  val (rV (vol_at r Tr a T P t)) = val (rV t) + V0 * vol_poly a (T - Tr) (p - r_refP r) + V0 * (p - r_refP r).
Proof. intros r Tr a T P t p V0. unfold vol_at, vol_fT. cbv zeta. cbn [rV]. rewrite loop_val. cbn -[d_mul_ts]. unfold p, V0. replace (P * (1 / 100000)) with (P / 100000) by field. ring. Qed.
Lemma reference_bad :
  (forall r Tr a t, nth 3 a 0 = 0 -> nth 4 a 0 = 0 -> val (rV t) = val (rV (r_ref r)) -> val (rV (r_ref r)) <> 0 -> 0 < r_refP r ->
     val (rV (vol_at r Tr a Tr (r_refP r) t)) <> val (rV (r_ref r))) /\
  (forall r Tr a T P t, P = r_refP r -> val (rV (vol_at r Tr a T P t)) = val (rV t) + val (rV (r_ref r)) * vol_poly a (T - Tr) 0 -> r_refP r = 0 \/ val (rV (r_ref r)) = 0 \/
     nth 3 a 0 - nth 4 a 0 * (99999 / 100000 * r_refP r) + 1 = 0).
Proof.
  split.
  - intros r Tr a t A3 A4 E N L Q. rewrite volume_is in Q. unfold vol_poly in Q. rewrite A3, A4, E in Q.
    set (x := val (rV (r_ref r))) in *. set (p := r_refP r) in *. clearbody x p. assert (Z : x * (p * (1 / 100000 - 1)) = 0) by nra. apply Rmult_integral in Z. destruct Z; [contradiction|nra].
  - intros r Tr a T P t -> Q. rewrite volume_is in Q. unfold vol_poly in Q. set (x := val (rV (r_ref r))) in *. set (p := r_refP r) in *. clearbody x p.
    assert (Z : x * (p * (nth 3 a 0 - nth 4 a 0 * (99999 / 100000 * p) + 1)) = 0) by nra. apply Rmult_integral in Z. destruct Z as [Z|Z]; [tauto|]. apply Rmult_integral in Z. tauto.
Qed.
Lemma identities : forall r Tr a T P t, T <> 0 -> let x := vol_at r Tr a T P t in let p := P / 100000 in
  val (rG x) = val (rG t) /\ val (rH x) = val (rH t) + val (rV (r_ref r)) * (p - r_refP r) /\ val (rG x) = val (rH x) - T * val (rS x) /\
  val (rU x) = val (rH x) - p * val (rV x) /\ val (rA x) = val (rU x) - T * val (rS x) /\ val (logK x) = val (lnK x) / lg_to_ln.
Proof.
  intros r Tr a T P t HT x p. unfold x, vol_at, vol_fT. cbv zeta. set (W := vol_loop _ _ _ _ _ _ _ _). clearbody W.
  set (L := ip_sub _ _). clearbody L. unfold ts_div_d. cbn [rG rH rS rU rA logK lnK rV]. rewrite dm_val. cbn -[lg_to_ln]. unfold p.
  split; [reflexivity|]. split; [field|]. split; [field; exact HT|]. split; [field|]. split; [field; exact HT|]. unfold lg_to_ln. field.
Qed.
Lemma gibbs_bad : forall r Tr a T P t, T <> 0 -> val (rG t) = - (R_CONSTANT * T * val (lnK t)) -> let x := vol_at r Tr a T P t in
  val (rG x) + R_CONSTANT * T * val (lnK x) = - (val (rV x) * (P / 100000 - r_refP r)).
Proof.
  intros r Tr a T P t HT E x. unfold x, vol_at, vol_fT. cbv zeta. set (W := vol_loop _ _ _ _ _ _ _ _). clearbody W. cbn -[R_CONSTANT d_mul_ts]. rewrite dm_val, E. cbn -[R_CONSTANT]. unfold R_CONSTANT. field. exact HT.
Qed.
Lemma engine_blank : forall mm rs T r e, (forall r T P, m_rvol mm r T P = Reaction_Vol_fT r T P) -> isFromReactants r = false -> r_eos r <> CTPM_CON -> r_mP r = CPM_VKE \/ r_mP r = CPM_VBE ->
  (val (lnK tpr_default) = 0 /\ val (logK tpr_default) = 0 /\ val (rG tpr_default) = 0 /\ val (rV tpr_default) = 0) /\
  let mT := if Z.eqb (r_eos r) CTPM_REA then CTM_LGK else r_mT r in
  (is_logK mT = true -> m_logK mm r T (pv e) mT <> None -> reacBody mm rs T r e = (e, Ret tpr_default)) /\
  (forall e' x, mT <> CTM_MRB -> reacBody mm rs T r e = (e', Ret x) -> x = tpr_default).
Proof.
  intros mm rs T r e HV F C1 P. split; [cbn; repeat split; reflexivity|]. cbv zeta.
  assert (Q : forall t e0, reacP mm T r t e0 = (e0, Ret tpr_default)).
  { intros t e0. unfold reacP, bind, get. replace (Z.eqb (r_mP r) CPM_VKE || Z.eqb (r_mP r) CPM_VBE)%bool with true; [rewrite HV; reflexivity|]. destruct P as [-> | ->]; reflexivity. }
  unfold reacBody. rewrite F. apply Z.eqb_neq in C1. rewrite C1. cbv zeta. set (mT := if Z.eqb (r_eos r) CTPM_REA then CTM_LGK else r_mT r). clearbody mT. split.
  - intros L K. rewrite L. unfold bind, get. destruct (m_logK mm r T (pv e) mT) as [t|]; [|contradiction]. cbn [lift]. unfold ret. apply Q.
  - intros e' x C. apply Z.eqb_neq in C. rewrite C. unfold bind, get. destruct (is_logK mT).
    + destruct (m_logK mm r T (pv e) mT) as [t|]; cbn [lift]; unfold ret, throw; [rewrite Q|]; congruence.
    + destruct (Z.eqb mT CTM_DMD || Z.eqb mT CTM_DKR)%bool; [|rewrite Q; congruence].
      destruct (ps_fn mm T (e_solv e) (-1)%Z e) as [e1 [ps| |]]; try congruence. destruct (m_rdens mm mT r T (pv e1) ps) as [t|]; cbn [lift]; unfold ret, throw; [rewrite Q|]; congruence.
Qed.
Lemma vol_case : exists r a t, nth 3 a 0 = 0 /\ nth 4 a 0 = 0 /\ val (rV t) = val (rV (r_ref r)) /\ val (rV (r_ref r)) <> 0 /\ 0 < r_refP r /\
  val (rG t) = - (R_CONSTANT * 300 * val (lnK t)) /\ val (rV (vol_at r 300 a 300 100000 t)) < -99990.
Proof.
  set (z := ts_of_double 0). set (o := mkTPR z z z z z z z (ts_of_double 1) z z).
  exists (mkReac String.EmptyString CTPM_CPT CTM_LGK CPM_VKE [] 100000 o), [1 / 1000], o. repeat split; try (cbn; lra). rewrite volume_is. unfold vol_poly. cbn. lra.
Qed.
Lemma engine_case : let z := ts_of_double 0 in let r := mkReac String.EmptyString 0 CTM_LGK CPM_VKE [] 100000 (mkTPR z z z z z z z z z z) in
  isFromReactants r = false /\ r_eos r <> CTPM_CON /\ r_eos r <> CTPM_REA /\ is_logK (r_mT r) = true.
Proof. cbv zeta. repeat split; try reflexivity; discriminate. Qed.
