(** Stale answers, order dependence and other witnesses (C09-C12, C51-C55). *)
From Coq Require Import Reals String List Bool ZArith Lra Lia.
From Coquelicot Require Import Coquelicot.
From Verif Require Import ThermoScalarModel EngineModel EngineSpec EngineProofs EngineInv EngineMore.
Import ListNotations.
Open Scope R_scope.

Definition is_query (o : op) : bool := match o with QSubst _ _ _ | QReac _ _ _ => true | _ => false end.

Lemma req_refl : forall x, req x x = true.
Proof. intros x. unfold req. destruct (Req_EM_T x x); congruence. Qed.
Lemma skey_refl : forall k, skey_eqb k k = true.
Proof. intros [[t p] s]. cbn. now rewrite !req_refl, String.eqb_refl. Qed.

(** ** once answered, an answer never changes *)
Lemma substFn_hit : forall mm n T x e v, e_wrapped e = true ->
  lookup skey_eqb (T, pv e, x) (c_s e) = Some v -> substFn mm (Datatypes.S n) T x e = (e, Ret v).
Proof.
  intros mm n T x e v Hw Hl. rewrite substFn_S. unfold memoS, bind, get. rewrite Hw, Hl. reflexivity.
Qed.
Lemma reacFn_hit : forall mm n T x e v, e_wrapped e = true ->
  lookup skey_eqb (T, pv e, x) (c_r e) = Some v -> reacFn mm (Datatypes.S n) T x e = (e, Ret v).
Proof.
  intros mm n T x e v Hw Hl. rewrite reacFn_S. unfold memoR, bind, get. rewrite Hw, Hl. reflexivity.
Qed.
Lemma substFn_stores : forall mm n T x e e1 v, e_wrapped e = true ->
  substFn mm n T x e = (e1, Ret v) ->
  e_wrapped e1 = true /\ lookup skey_eqb (T, pv e, x) (c_s e1) = Some v.
Proof.
  intros mm n T x e e1 v Hw He. split.
  { pose proof (settings_kept mm n T x e) as (K & _). rewrite He in K. destruct K as (_&_&_&_&_&_&_&K). cbn in K. congruence. }
  destruct n as [|n]; [discriminate|].
  rewrite substFn_S in He. unfold memoS in He. unfold bind at 1, get at 1 in He. rewrite Hw in He.
  destruct (lookup skey_eqb (T, pv e, x) (c_s e)) eqn:El.
  - inversion He; subst. exact El.
  - apply bind_ret_inv in He. destruct He as (e2 & y & _ & He). unfold bind, upd, ret in He. inversion He; subst.
    cbn [c_s with_caches lookup]. now rewrite skey_refl.
Qed.
Lemma reacFn_stores : forall mm n T x e e1 v, e_wrapped e = true ->
  reacFn mm n T x e = (e1, Ret v) ->
  e_wrapped e1 = true /\ lookup skey_eqb (T, pv e, x) (c_r e1) = Some v.
Proof.
  intros mm n T x e e1 v Hw He. split.
  { pose proof (settings_kept mm n T x e) as (_ & K & _). rewrite He in K. destruct K as (_&_&_&_&_&_&_&K). cbn in K. congruence. }
  destruct n as [|n]; [discriminate|].
  rewrite reacFn_S in He. unfold memoR in He. unfold bind at 1, get at 1 in He. rewrite Hw in He.
  destruct (lookup skey_eqb (T, pv e, x) (c_r e)) eqn:El.
  - inversion He; subst. exact El.
  - apply bind_ret_inv in He. destruct He as (e2 & y & _ & He). unfold bind, upd, ret in He. inversion He; subst.
    cbn [c_r with_caches lookup]. now rewrite skey_refl.
Qed.
Lemma run_settings : forall mm n l e, (forall o, In o l -> is_query o = false) ->
  e_wrapped (fst (run_ops mm n e l)) = e_wrapped e /\ c_s (fst (run_ops mm n e l)) = c_s e /\
  c_r (fst (run_ops mm n e l)) = c_r e.
Proof.
  intros mm n l. induction l as [|o l IH]; intros e Hl; [repeat split|].
  cbn [run_ops]. assert (Ho := Hl o (or_introl eq_refl)).
  destruct o; try discriminate; cbn [step];
  match goal with |- context [run_ops mm n ?e1 l] => specialize (IH e1 (fun o Hi => Hl o (or_intror Hi)));
    destruct (run_ops mm n e1 l) end; exact IH.
Qed.
Lemma stale_subst : forall mm n T P x e e1 v l, e_wrapped e = true ->
  call (substFn mm (Datatypes.S n) T x) P e = (e1, Ret v) -> (forall o, In o l -> is_query o = false) ->
  snd (call (substFn mm (Datatypes.S n) T x) P (fst (run_ops mm (Datatypes.S n) e1 l))) = Ret v.
Proof.
  intros mm n T P x e e1 v l Hw He Hl. unfold call in *.
  apply substFn_stores in He; [|exact Hw]. destruct He as [W1 L1].
  destruct (run_settings mm (Datatypes.S n) l e1 Hl) as (R1 & R2 & _).
  rewrite (substFn_hit mm n T x _ v); [reflexivity| |].
  - cbn. congruence.
  - cbn [with_pv pv c_s]. rewrite R2. exact L1.
Qed.
Lemma stale_reac : forall mm n T P x e e1 v l, e_wrapped e = true ->
  call (reacFn mm (Datatypes.S n) T x) P e = (e1, Ret v) -> (forall o, In o l -> is_query o = false) ->
  snd (call (reacFn mm (Datatypes.S n) T x) P (fst (run_ops mm (Datatypes.S n) e1 l))) = Ret v.
Proof.
  intros mm n T P x e e1 v l Hw He Hl. unfold call in *.
  apply reacFn_stores in He; [|exact Hw]. destruct He as [W1 L1].
  destruct (run_settings mm (Datatypes.S n) l e1 Hl) as (R1 & _ & R2).
  rewrite (reacFn_hit mm n T x _ v); [reflexivity| |].
  - cbn. congruence.
  - cbn [with_pv pv c_r]. rewrite R2. exact L1.
Qed.

(** ** small concrete engines *)
Definition const (g cv : R) : TPS :=
  mkTPS (ts_assign g) (ts_assign g) (ts_assign g) (ts_assign g) (ts_assign g) (ts_assign g) (ts_assign g) (ts_assign cv).
(** a substance with constant properties *)
Definition exC (x : string) (g cv : R) : Subst :=
  mkSubst x CTPM_CON 0 0 OTHERCLASS false false "" 298 100000 (const g cv).
(** a substance whose method no branch handles *)
Definition exN (x : string) (g : R) : Subst :=
  mkSubst x 107 0 0 OTHERCLASS false false "" 298 100000 (const g 0).
(** an ideal gas *)
Definition exGas : Subst := mkSubst "O2" CTPM_CPT 0 CPM_OFF GASFLUID true false "" 298 100000 tps_default.
(** two solvents, told apart by the number their model returns *)
Definition exW (x : string) (d : R) : Subst :=
  mkSubst x CTPM_WJNR CTM_WAT 0 AQSOLVENT false false "" d 100000 tps_default.
Definition exIon : Subst := mkSubst "Na+" CTPM_HKF 0 0 AQSOLUTE false false "" 298 100000 tps_default.
Definition one_of (l : list TS) : TPS := const (match l with x :: _ => val x | [] => 0 end) 0.
(** models that return something simple *)
Definition mm0 : Models := mkModels
  (fun _ _ _ => Some (const 0 0)) (fun _ _ _ => Some (const 0 0)) (fun _ _ _ _ ps _ => Some (one_of ps))
  (fun _ _ _ _ _ _ => None) (fun _ _ _ t => Some t) (fun _ _ _ t _ _ _ _ _ _ => Some t)
  (fun _ _ _ => None) (fun _ _ _ _ t => Some t) (fun _ _ _ _ t _ => Some t)
  (fun _ s _ P _ => Some (const (s_refT s) 0, P)) (fun _ s _ P _ => Some ([ts_assign (s_refT s)], P))
  (fun _ _ _ P _ _ => Some ([], P)) (fun _ => Some 1)
  (fun _ _ _ _ => Some tpr_default) (fun _ _ _ _ _ => None) (fun _ _ _ => None) (fun _ => None).

Definition answerG (o : out) (g : R) : Prop := exists t, o = OutS (Ret t) /\ val (G t) = g.
Ltac run := cbv -[IZR Rplus Rmult Rminus Rdiv Ropp Rinv Rabs sqrt Rlt_dec Rle_dec Req_EM_T R_CONSTANT ln_to_lg lg_to_ln bar_to_Pa].
Ltac ans := run; eexists; split; [reflexivity|try reflexivity; try lra].

(** the same query before and after a change of data or settings, and on an engine that had
    the change from the start *)
Definition stale_case (ss : list (string * Subst)) (change : op) (x : string) (T P g g' : R) : Prop :=
  (exists o1 o2 o3, snd (run_ops mm0 5 (new_engine ss [] (mkTriple 1 2 3 4 5)) [QSubst T P x; change; QSubst T P x]) = [o1; o2; o3] /\
     answerG o1 g /\ answerG o3 g) /\
  (exists o2 o3, snd (run_ops mm0 5 (new_engine ss [] (mkTriple 1 2 3 4 5)) [change; QSubst T P x]) = [o2; o3] /\ answerG o3 g').
Lemma stale_intro : forall ss change x T P g g',
  is_query change = false ->
  (exists t, snd (call (substFn mm0 5 T x) P (new_engine ss [] (mkTriple 1 2 3 4 5))) = Ret t /\ val (G t) = g) ->
  (exists t, snd (call (substFn mm0 5 T x) P (fst (step mm0 5 (new_engine ss [] (mkTriple 1 2 3 4 5)) change))) = Ret t /\ val (G t) = g') ->
  stale_case ss change x T P g g'.
Proof.
  intros ss change x T P g g' Hq (t & H1 & H2) (t' & H3 & H4). split.
  - destruct (call (substFn mm0 5 T x) P (new_engine ss [] (mkTriple 1 2 3 4 5))) as [e1 r1] eqn:E1. cbn in H1. subst r1.
    pose proof (stale_subst mm0 4 T P x (new_engine ss [] (mkTriple 1 2 3 4 5)) e1 t [change] eq_refl E1) as Q.
    cbn [run_ops] in Q |- *. cbn [step]. rewrite E1.
    destruct (step mm0 5 e1 change) as [e2 o2]. cbn [fst] in Q.
    specialize (Q ltac:(intros o [<-|[]]; exact Hq)).
    destruct (call (substFn mm0 5 T x) P e2) as [e3 r3]. cbn in Q. subst r3.
    exists (OutS (Ret t)), o2, (OutS (Ret t)). split; [reflexivity|]. split; exists t; split; auto.
  - cbn [run_ops step]. destruct (step mm0 5 (new_engine ss [] (mkTriple 1 2 3 4 5)) change) as [e2 o2]. cbn [fst] in H3.
    destruct (call (substFn mm0 5 T x) P e2) as [e3 r3]. cbn in H3. subst r3.
    exists o2, (OutS (Ret t')). split; [reflexivity|]. exists t'. split; auto.
Qed.
Lemma stale_append : forall T P, stale_case [("A"%string, exC "A" 1 0)] (AppendSubst (exC "A" 2 0)) "A" T P 1 2.
Proof. intros. apply stale_intro; [reflexivity|ans|ans]. Qed.
Lemma stale_fallback : forall T P, stale_case [("A"%string, exN "A" 7)] (SetFallback true) "A" T P 0 7.
Proof. intros. apply stale_intro; [reflexivity|ans|ans]. Qed.
Lemma stale_water : forall T P, stale_case [("W"%string, exW "W" 10)] (SetConv "STEAM_TABLES" "BENSON_HELGESON") "W" T P 10 (10 - 2).
Proof. intros. apply stale_intro; [reflexivity|ans|ans]. Qed.
Lemma stale_solvent : forall T P,
  stale_case [("H2O@"%string, exW "H2O@" 10); ("Na+"%string, exIon); ("W"%string, exW "W" 20)] (SetSolvent "W") "Na+" T P 10 20.
Proof. intros. apply stale_intro; [reflexivity|ans|ans]. Qed.

(** ** asking for a reaction changes what is answered for a gas *)
Definition exRx : Reac := mkReac "Rx" 0 0 0 [("O2"%string, 1)] 100000 tpr_default.
Definition exBad : Reac := mkReac "Bad" 0 0 0 [("O2x"%string, 1)] 100000 tpr_default.
Definition gas_engine : est := new_engine [("O2"%string, exGas)] [("Rx"%string, exRx); ("Bad"%string, exBad)] (mkTriple 0 0 0 0 0).
Definition gasG : R := R_CONSTANT * (300 / (200000 / 100000)) * (200000 / 100000 - 100000 / 100000).
Lemma gasG_pos : 0 < gasG.
Proof. unfold gasG, R_CONSTANT. lra. Qed.

Lemma gas_value : forall b, val (G (idealGasVol exGas 300 200000 (const 0 0) b)) = if b then gasG else 0.
Proof.
  intros b. unfold idealGasVol, exGas. cbn [s_class is_gasfluid andb s_refP].
  destruct (Rlt_dec 0 200000) as [_|N]; [|exfalso; apply N; lra].
  destruct b; [|reflexivity]. cbn. rewrite val_mul_d. cbn. unfold gasG, bar_to_Pa. field.
Qed.
Definition gasAns (b : bool) : TPS := idealGasVol exGas 300 200000 (const 0 0) b.
Ltac runo := cbv -[IZR Rplus Rmult Rminus Rdiv Ropp Rinv Rabs sqrt Rlt_dec Rle_dec Req_EM_T R_CONSTANT ln_to_lg lg_to_ln bar_to_Pa
   idealGasVol const exGas ip_add ts_mul_d ts_div_d set_msg ts_assign].
(** the gas on an engine with an empty cache *)
Lemma gas_first : forall e, e_subs e = [("O2"%string, exGas)] -> e_wrapped e = true -> c_s e = [] -> e_apparent e = "BENSON_HELGESON"%string ->
  e_fallback e = false -> pv e = 200000 ->
  exists e', substFn mm0 4 300 "O2" e = (e', Ret (gasAns (e_applyP e))) /\ c_s e' = [((300, 200000, "O2"%string), gasAns (e_applyP e))] /\
    e_wrapped e' = true.
Proof.
  intros [] E1 E2 E3 E4 E5 E6. cbn in E1, E2, E3, E4, E5, E6. subst.
  eexists. split; [runo; reflexivity|]. split; reflexivity.
Qed.
Lemma lookup_head : forall X (k : skey) (v : X) l, lookup skey_eqb k ((k, v) :: l) = Some v.
Proof. intros. cbn [lookup]. now rewrite skey_refl. Qed.
(** asked alone: no pressure correction *)
Lemma gas_alone : exists o, snd (run_ops mm0 5 gas_engine [QSubst 300 200000 "O2"]) = [o] /\ answerG o 0.
Proof.
  cbn [run_ops step]. unfold call. 
  assert (exists e', substFn mm0 5 300 "O2" (with_pv gas_engine 200000) = (e', Ret (gasAns false))) as [e' ->].
  { eexists. runo. reflexivity. }
  cbn [snd]. eexists. split; [reflexivity|]. eexists. split; [reflexivity|]. apply (gas_value false).
Qed.
(** asked after a reaction it takes part in: corrected *)
Lemma gas_after_reaction : exists o1 o2, snd (run_ops mm0 5 gas_engine [QReac 300 200000 "Rx"; QSubst 300 200000 "O2"]) = [o1; o2] /\ answerG o2 gasG.
Proof.
  cbn [run_ops step]. unfold call at 1.
  destruct (reacFn mm0 5 300 "Rx" (with_pv gas_engine 200000)) as [e1 r1] eqn:E1.
  assert (Q : e_wrapped e1 = true /\ c_s e1 = [((300, 200000, "O2"%string), gasAns true)]).
  { assert (Q : fst (reacFn mm0 5 300 "Rx" (with_pv gas_engine 200000)) = e1) by (rewrite E1; reflexivity).
    rewrite <- Q. split; runo; reflexivity. }
  destruct Q as [W L]. unfold call.
  rewrite (substFn_hit mm0 4 300 "O2" (with_pv e1 200000) (gasAns true)).
  - cbn [snd]. eexists _, _. split; [reflexivity|]. eexists. split; [reflexivity|]. apply (gas_value true).
  - exact W.
  - cbn [with_pv pv c_s]. rewrite L. apply lookup_head.
Qed.
(** asked after a reaction that could not be calculated: corrected as well *)
Lemma gas_after_failure : exists o2, snd (run_ops mm0 5 gas_engine [QReac 300 200000 "Bad"; QSubst 300 200000 "O2"]) = [OutR Throw; o2] /\ answerG o2 gasG.
Proof.
  cbn [run_ops step]. unfold call at 1.
  destruct (reacFn mm0 5 300 "Bad" (with_pv gas_engine 200000)) as [e1 r1] eqn:E1.
  assert (Q : r1 = Throw /\ e1 = with_applyP (with_pv gas_engine 200000) true).
  { assert (Q : (e1, r1) = (with_applyP (with_pv gas_engine 200000) true, Throw)) by (rewrite <- E1; runo; reflexivity).
    inversion Q; auto. }
  destruct Q as [-> ->]. unfold call.
  assert (exists e', substFn mm0 5 300 "O2" (with_pv (with_applyP (with_pv gas_engine 200000) true) 200000) = (e', Ret (gasAns true))) as [e' ->].
  { eexists. runo. reflexivity. }
  cbn [snd]. eexists. split; [reflexivity|]. eexists. split; [reflexivity|]. apply (gas_value true).
Qed.

(** ** reactions from reactants: Cv, U and A are those of the last species (C10) *)
Definition exAB : Reac := mkReac "AB" 0 0 0 [("A"%string, 1); ("B"%string, 1)] 100000 tpr_default.
Definition ab_engine : est := new_engine [("A"%string, exC "A" 3 5); ("B"%string, exC "B" 4 7)] [("AB"%string, exAB)] (mkTriple 0 0 0 0 0).
Lemma not_a_sum : forall mm T P, exists e' t ts e1,
  reacFromReactants mm 3 T exAB (with_pv ab_engine P) = (e', Ret t) /\
  answers (substFn mm 3 T) (species (r_reactants exAB)) (with_applyP (with_pv ab_engine P) true) ts e1 /\
  let sum f := weighted (r_reactants exAB) (map f ts) in
  val (rG t) = sum (fun x => val (G x)) /\
  val (rCv t) <> sum (fun x => val (Cv x)) /\ val (rU t) <> sum (fun x => val (U x)) /\ val (rA t) <> sum (fun x => val (A x)).
Proof.
  intros mm T P.
  set (e0 := with_applyP (with_pv ab_engine P) true).
  set (eA := with_caches (with_state e0 0) [((T, P, "A"%string), const 3 5)] [] [] []).
  set (eB := with_caches (with_state e0 0) [((T, P, "B"%string), const 4 7); ((T, P, "A"%string), const 3 5)] [] [] []).
  assert (QA : substFn mm 3 T "A" e0 = (eA, Ret (const 3 5))) by (runo; reflexivity).
  assert (QB : substFn mm 3 T "B" eA = (eB, Ret (const 4 7))).
  { rewrite substFn_S. unfold memoS. unfold bind at 1, get at 1.
    assert (El : lookup skey_eqb (T, pv eA, "B"%string) (c_s eA) = None).
    { cbn. now rewrite andb_false_r. }
    rewrite El. runo. reflexivity. }
  assert (An : answers (substFn mm 3 T) (species (r_reactants exAB)) e0 [const 3 5; const 4 7] eB).
  { econstructor; [exact QA|]. econstructor; [exact QB|]. constructor. }
  assert (exists e' t, reacFromReactants mm 3 T exAB (with_pv ab_engine P) = (e', Ret t)) as (e' & t & Et).
  { unfold reacFromReactants, fromReactants. unfold bind at 1, upd at 1. fold e0.
    unfold bind at 1. cbn [r_reactants exAB add_reactants].
    unfold bind at 1. change (getSubstance "A" e0) with (e0, Ret (exC "A" 3 5)). cbn [noMethods exC s_eos s_mP s_mT Z.eqb CTPM_CON andb].
    unfold bind at 1. rewrite QA.
    unfold bind at 1. change (getSubstance "B" eA) with (eA, Ret (exC "B" 4 7)). cbn [noMethods exC s_eos s_mP s_mT Z.eqb CTPM_CON andb].
    unfold bind at 1. rewrite QB. unfold ret at 1. unfold bind, upd, ret. eexists _, _. reflexivity. }
  exists e', t, [const 3 5; const 4 7], eB. split; [exact Et|]. split; [exact An|].
  destruct (reaction_last mm 3 T exAB _ _ _ [("A"%string, 1)] "B" 1 eq_refl Et) as (ts & u & e2 & An2 & V1 & V2 & V3).
  destruct (reaction_sum _ _ _ _ _ _ _ Et) as (ts3 & e3 & An3 & (V4 & _) & _).
  assert (Du : forall l e a ea, answers (substFn mm 3 T) l e a ea -> forall b eb, answers (substFn mm 3 T) l e b eb -> a = b).
  { induction 1 as [e|x l e t0 e4 ts0 e5 H1 H2 IH]; intros b eb Hb; inversion Hb; subst; [reflexivity|].
    rewrite H1 in *. match goal with H0 : (_, Ret _) = (_, Ret _) |- _ => inversion H0; subst end. f_equal. eauto. }
  pose proof (Du _ _ _ _ An _ _ An3) as D3. subst ts3.
  pose proof (Du _ _ _ _ An _ _ An2) as D2.
  assert (u = const 4 7). { destruct ts as [|x [|y ts]]; cbn in D2; try discriminate; [|destruct ts; discriminate]. congruence. }
  subst u. cbv zeta. split; [exact V4|]. rewrite V1, V2, V3. cbn. repeat split; lra.
Qed.

(** ** the constant-volume pressure correction of a reaction (C11) *)
Lemma reacConVol_values : forall r T P t,
  let dP := P / 100000 - r_refP r / 100000 in
  val (rG (reacConVol r T P t)) = val (rG t) + val (rV t) * dP /\
  val (lnK (reacConVol r T P t)) = val (lnK t) /\
  val (logK (reacConVol r T P t)) = val (logK t) - 1 / lg_to_ln * (1 / (R_CONSTANT * T) * (dP * val (rV (r_ref r)))).
Proof.
  intros r T P t dP. unfold reacConVol. cbn [rG lnK logK]. rewrite val_ip_add, val_ip_sub, val_mul_d, !val_div_d, val_mul_d.
  repeat split; try reflexivity. fold dP. ring.
Qed.
Lemma R_CONSTANT_pos : 0 < R_CONSTANT. Proof. unfold R_CONSTANT. lra. Qed.
(** logK stays consistent with G when the reaction volume is the reference one; lnK does not *)
Lemma reacConVol_logK : forall r T P t, 0 < T ->
  val (rV t) = val (rV (r_ref r)) ->
  val (logK t) = - val (rG t) / (R_CONSTANT * T * lg_to_ln) ->
  let t' := reacConVol r T P t in val (logK t') = - val (rG t') / (R_CONSTANT * T * lg_to_ln).
Proof.
  intros r T P t HT Hv Hk t'. subst t'. destruct (reacConVol_values r T P t) as (E1 & _ & E3).
  rewrite E1, E3, Hk, Hv. pose proof R_CONSTANT_pos. unfold lg_to_ln. field. repeat split; lra.
Qed.
Lemma reacConVol_lnK : forall r T P t, 0 < T ->
  val (lnK t) = - val (rG t) / (R_CONSTANT * T) ->
  let t' := reacConVol r T P t in
  (val (lnK t') = - val (rG t') / (R_CONSTANT * T) <-> val (rV t) * (P - r_refP r) = 0).
Proof.
  intros r T P t HT Hk t'. subst t'. destruct (reacConVol_values r T P t) as (E1 & E2 & _).
  rewrite E1, E2, Hk. pose proof R_CONSTANT_pos.
  assert (Hn : R_CONSTANT * T <> 0) by (apply Rmult_integral_contrapositive_currified; lra).
  split; intro Q.
  - assert (Q2 : - val (rG t) = - (val (rG t) + val (rV t) * (P / 100000 - r_refP r / 100000))).
    { apply (f_equal (fun x => x * (R_CONSTANT * T))) in Q. unfold Rdiv in Q. rewrite !Rmult_assoc, Rinv_l, !Rmult_1_r in Q by exact Hn. exact Q. }
    assert (Hz : val (rV t) * (P / 100000 - r_refP r / 100000) = 0) by lra.
    replace (val (rV t) * (P - r_refP r)) with (100000 * (val (rV t) * (P / 100000 - r_refP r / 100000))) by field. rewrite Hz. ring.
  - replace (val (rV t) * (P / 100000 - r_refP r / 100000)) with (val (rV t) * (P - r_refP r) / 100000) by field.
    rewrite Q. f_equal. field.
Qed.
(** the derivative carried by lnK *)
Lemma add_reactant_ddt : forall T msg name a t c,
  ddt (lnK (add_reactant T msg name a t c)) = - ddt (rG (add_reactant T msg name a t c)) / (R_CONSTANT * T).
Proof.
  intros. unfold add_reactant. cbn [lnK rG set_msg ddt]. rewrite ddt_div_d.
  unfold Rdiv. rewrite Rinv_opp. cbn. ring.
Qed.
Lemma fold_ddt : forall T msg l ts a, length ts = length l -> l <> [] ->
  let t := fold_add T msg l ts a in ddt (lnK t) = - ddt (rG t) / (R_CONSTANT * T).
Proof.
  intros T msg l. induction l as [|[x c] l IH]; intros [|t ts] a Hl Hn; cbn in Hl; try discriminate; [congruence|].
  cbn [fold_add]. destruct l as [|y l].
  - destruct ts; [|discriminate]. cbn [fold_add]. apply add_reactant_ddt.
  - apply IH; [lia|discriminate].
Qed.
Lemma reaction_lnK_ddt : forall mm n T r e e' t, r_reactants r <> [] ->
  reacFromReactants mm n T r e = (e', Ret t) ->
  ddt (lnK t) = - ddt (rG t) / (R_CONSTANT * T).
Proof.
  intros mm n T r e e' t Hn Hr. apply fromReactants_inv in Hr. destruct Hr as (ts & e1 & _ & _ & -> & Hl).
  apply fold_ddt; assumption.
Qed.
(** ... which is the derivative of -G/(RT) only where G = 0 *)
Lemma lnK_derivative : forall mm n T r e e' t (g : R -> R), 0 < T -> r_reactants r <> [] ->
  reacFromReactants mm n T r e = (e', Ret t) ->
  val (rG t) = g T -> is_derive g T (ddt (rG t)) ->
  (is_derive (fun x => - g x / (R_CONSTANT * x)) T (ddt (lnK t)) <-> val (rG t) = 0).
Proof.
  intros mm n T r e e' t g HT Hn Hr Hg Hd.
  rewrite (reaction_lnK_ddt _ _ _ _ _ _ _ Hn Hr). rewrite Hg. pose proof R_CONSTANT_pos as Rp.
  assert (Hn0 : R_CONSTANT * T <> 0) by (apply Rmult_integral_contrapositive_currified; lra).
  assert (D : is_derive (fun x => - g x / (R_CONSTANT * x)) T (- ddt (rG t) / (R_CONSTANT * T) + g T / (R_CONSTANT * T * T))).
  { evar_last.
    - apply is_derive_div; [apply @is_derive_opp; exact Hd|apply is_derive_scal; apply @is_derive_id|exact Hn0].
    - unfold one, opp; cbn. field. split; lra. }
  split; intro Q.
  - apply is_derive_unique in Q. apply is_derive_unique in D. rewrite Q in D.
    assert (Z : g T / (R_CONSTANT * T * T) = 0) by lra.
    assert (Hn2 : R_CONSTANT * T * T <> 0) by (apply Rmult_integral_contrapositive_currified; lra).
    replace (g T) with (g T / (R_CONSTANT * T * T) * (R_CONSTANT * T * T)) by (field; lra). rewrite Z. ring.
  - rewrite Q in D. replace (- ddt (rG t) / (R_CONSTANT * T)) with (- ddt (rG t) / (R_CONSTANT * T) + 0 / (R_CONSTANT * T * T)) by (unfold Rdiv; ring).
    exact D.
Qed.

(** ** conventions *)
Lemma convention_shift : forall mm n T s e e1 t w a,
  s_symbol s <> "H+"%string -> isReacDC s = false -> s_mP s <> CPM_AKI -> e_fallback e = false ->
  iequals (e_water e) "STEAM_TABLES" = false -> iequals (e_apparent e) "BERMAN_BROWN" = false ->
  substObj mm (Datatypes.S n) T s e = (e1, Ret t) ->
  substObj mm (Datatypes.S n) T s (with_conv e w a) =
   (with_conv e1 w a,
    if is_solvent (s_class s) then Ret (if iequals w "STEAM_TABLES" then toSteamTables t (e_triple e) else t)
    else if iequals a "BERMAN_BROWN"
         then match m_elent mm s with Some ee => Ret (toBermanBrown t (s_refT s) ee) | None => Throw end
         else Ret t).
Proof.
  intros mm n T s e e1 t w a Hh Hd Hk Hf Hw Ha He.
  pose proof (settings_kept mm (Datatypes.S n) T "x"%string e) as (_ & _ & K). specialize (K s).
  rewrite substObj_S in *. unfold substBody in *.
  apply String.eqb_neq in Hh. rewrite Hh, Hd in *. unfold direct in *.
  set (mp := model_part mm (substFn mm n) T s).
  assert (C : commutes (fun x => x) (fun x => x) (fun _ => w) (fun _ => a) (bind (prefsSubstance s) (fun _ => mp))).
  { apply c_bind; [apply c_prefs|intros _]. apply c_model. intros E. contradiction. }
  specialize (C e).
  change (retune (fun x => x) (fun x => x) (fun _ => w) (fun _ => a) e) with (with_conv e w a) in C.
  assert (Assoc : forall e0, bind (prefsSubstance s) (fun _ => bind (bind mp (convention mm s)) (fun t0 => do e2 <- get; ret (fallback (e_fallback e2) t0 s))) e0
     = bind (bind (prefsSubstance s) (fun _ => mp)) (fun t0 => bind (convention mm s t0) (fun t1 => do e2 <- get; ret (fallback (e_fallback e2) t1 s))) e0).
  { intros e0. unfold bind. destruct (prefsSubstance s e0) as [e2 [u| |]]; try reflexivity.
    destruct (mp e2) as [e3 [v| |]]; reflexivity. }
  change (bind (prefsSubstance s) (fun _ => bind (bind mp (convention mm s)) (fun t0 => do e2 <- get; ret (fallback (e_fallback e2) t0 s))) e = (e1, Ret t)) in He.
  change (bind (prefsSubstance s) (fun _ => bind (bind mp (convention mm s)) (fun t0 => do e2 <- get; ret (fallback (e_fallback e2) t0 s))) (with_conv e w a) =
   (with_conv e1 w a,
    if is_solvent (s_class s) then Ret (if iequals w "STEAM_TABLES" then toSteamTables t (e_triple e) else t)
    else if iequals a "BERMAN_BROWN"
         then match m_elent mm s with Some ee => Ret (toBermanBrown t (s_refT s) ee) | None => Throw end
         else Ret t)).
  assert (S1 : same_settings e (fst (bind (prefsSubstance s) (fun _ => mp) e))).
  { assert (keeps (same_settings e) (bind (prefsSubstance s) (fun _ => mp))) as KK.
    { apply keeps_bind.
      - intros e0 H0. apply prefs_settings. exact H0.
      - intros _. assert (KD : keeps (same_settings e) mp).
        { intros e0 H0.
          (* [convention] changes nothing, so the state after [direct] is the state after the model *)
          assert (E : fst (direct mm (substFn mm n) T s e0) = fst (mp e0)).
          { change (fst (bind mp (convention mm s) e0) = fst (mp e0)). unfold bind at 1. destruct (mp e0) as [e3 [v| |]]; try reflexivity.
            unfold convention, bind, get. destruct (is_solvent (s_class s)); [reflexivity|].
            destruct (iequals (e_apparent e3) "BERMAN_BROWN"); [|reflexivity]. destruct (m_elent mm s); reflexivity. }
          rewrite <- E.
          apply (keeps_direct (same_settings e)); try (intros; assumption).
          - intros; apply prefs_settings; assumption.
          - intros T0 x e3 H3. destruct (settings_kept mm n T0 x e3) as (Q & _).
            destruct H3 as (A1&A2&A3&A4&A5&A6&A7&A8), Q as (B1&B2&B3&B4&B5&B6&B7&B8). repeat split; congruence. }
        exact KD. }
    apply KK. apply same_settings_refl. }
  rewrite Assoc in He. rewrite Assoc. clear Assoc K.
  set (m := bind (prefsSubstance s) (fun _ => mp)) in *.
  unfold bind in He. unfold bind. rewrite C.
  destruct (m e) as [e2 [t0| |]]; cbn [fst snd] in *; try discriminate.
  destruct S1 as (A1&A2&A3&A4&A5&A6&A7&A8).
  unfold convention, bind, get in *. rewrite A6, A7, Hw, Ha in He.
  cbn [retune e_water e_apparent e_triple e_fallback] in *.
  assert (F : e_fallback e2 = false) by congruence. unfold ret in *.
  destruct (is_solvent (s_class s)).
  - rewrite F in He. cbn [fallback] in He. inversion He; subst. rewrite A3.
    destruct (iequals w "STEAM_TABLES"); cbn [retune e_fallback]; rewrite F; reflexivity.
  - rewrite F in He. cbn [fallback] in He. inversion He; subst.
    destruct (iequals a "BERMAN_BROWN").
    + destruct (m_elent mm s) as [ee|]; cbn [lift ret throw fst snd retune e_fallback]; [unfold ret; cbn [retune e_fallback]; rewrite F|]; reflexivity.
    + cbn [retune e_fallback]. rewrite F. reflexivity.
Qed.

(** ** a query may change the solvent preference *)
Lemma solvent_kept : forall mm n T x e s, assoc (e_solv e) (e_subs e) = Some s ->
  e_solv (fst (substFn mm n T x e)) = e_solv e /\ e_solv (fst (reacFn mm n T x e)) = e_solv e.
Proof.
  intros mm n T x e s Hs.
  set (I := fun e0 => e_solv e0 = e_solv e /\ e_subs e0 = e_subs e).
  destruct (keeps_all I) with (mm := mm) (n := n) as (Ho & Hx & Hr); try (intros; assumption).
  - intros e0 s0 [H1 H2]. unfold prefsSubstance, bind, upd; cbn. destruct (is_solute (s_class s0)); [|split; assumption].
    rewrite H1, H2, Hs. split; assumption.
  - split; [apply Hx|apply Hr]; split; reflexivity.
Qed.
Lemma solvent_replaced : forall P,
  let e := new_engine [("Na+"%string, exIon); ("W"%string, exW "W" 20)] [] (mkTriple 0 0 0 0 0) in
  e_solv (fst (step mm0 5 (fst (step mm0 5 e (SetSolvent "D2O"))) (QSubst 300 P "Na+"))) = "W"%string.
Proof. intros P. run. reflexivity. Qed.

(** ** methods no branch handles (C31) *)
Lemma unhandled_undefined : forall mm n T s e,
  s_symbol s <> "H+"%string -> isReacDC s = false -> is_solvent (s_class s) = false ->
  ~ In (s_eos s) [CTPM_CON; CTPM_CPT; CTPM_HKF; CTPM_HKFR; CTPM_HP98; CTPM_AN91] ->
  ~ In (s_mT s) [CTM_CHP; CTM_CST] -> 
  ~ In (s_mP s) [CPM_AKI; CPM_CEH; CPM_VBE; CPM_VBM; CPM_CORK; CPM_PRSV; CPM_EMP; CPM_SRK; CPM_PR78; CPM_STP; CPM_OFF; CPM_CON] ->
  e_fallback e = false -> iequals (e_apparent e) "BERMAN_BROWN" = false ->
  exists t, snd (substObj mm (Datatypes.S n) T s e) = Ret t /\ forall p, In p props -> undefined (p t).
Proof.
  intros mm n T s e Hh D Hc He Ht Hp Hf Ha. rewrite substObj_S. unfold substBody. apply String.eqb_neq in Hh. rewrite Hh.
  assert (Eq : forall z l, ~ In z l -> forall y, In y l -> Z.eqb z y = false).
  { intros z l Hn y Hy. apply Z.eqb_neq. intros ->. contradiction. }
  rewrite D. unfold direct. rewrite Hc. unfold isH2Ovapor.
  rewrite (Eq _ _ He CTPM_HKF) by (cbn; tauto). cbn [orb andb].
  unfold genEOS, methT, methP, is_min, is_gasm.
  rewrite !(Eq _ _ He) by (cbn; tauto). rewrite !(Eq _ _ Ht) by (cbn; tauto). rewrite !(Eq _ _ Hp) by (cbn; tauto).
  cbn [orb andb]. unfold prefsSubstance, convention, bind, upd, ret, get. rewrite Hc.
  destruct (is_solute (s_class s)); [match goal with |- context [assoc ?a ?b] => destruct (assoc a b) end|];
    cbn [e_apparent e_fallback with_state with_solv]; rewrite Ha; cbn [e_apparent e_fallback with_state with_solv];
    rewrite Hf; (exists tps_default; split; [reflexivity|]);
    intros p Hpp; unfold props in Hpp; cbn in Hpp; repeat destruct Hpp as [<-|Hpp]; try contradiction; reflexivity.
Qed.

(** ** a reaction-defined substance with the constant-volume correction (C12) *)
Definition exRD : Subst := mkSubst "X" 0 0 CPM_CON OTHERCLASS false true "RX" 298 100000 (const 2 2).
Definition exRX : Reac := mkReac "RX" CTPM_CON 0 0 [("A"%string, 1); ("X"%string, 1)] 100000
  (mkTPR (ts_assign 0) (ts_assign 0) (ts_assign 10) (ts_assign 10) (ts_assign 10) (ts_assign 10) (ts_assign 10) (ts_assign 10) (ts_assign 10) (ts_assign 10)).
Definition rd_engine : est := new_engine [("A"%string, exC "A" 3 3); ("X"%string, exRD)] [("RX"%string, exRX)] (mkTriple 0 0 0 0 0).
Definition outG (o : out) (g : R) : Prop :=
  (exists t, o = OutS (Ret t) /\ val (G t) = g) \/ (exists t, o = OutR (Ret t) /\ val (rG t) = g).
Lemma conVol_not_inverse :
  outG (snd (step mm0 5 rd_engine (QSubst 300 200000 "X"))) 9 /\
  outG (snd (step mm0 5 rd_engine (QSubst 300 200000 "A"))) 3 /\
  outG (snd (step mm0 5 rd_engine (QReac 300 200000 "RX"))) 10.
Proof.
  split; [|split].
  - left. eexists. split; [runo; reflexivity|]. run. unfold bar_to_Pa. repeat match goal with |- context [Req_EM_T ?a ?b] => destruct (Req_EM_T a b) end; field.
  - left. eexists. split; [runo; reflexivity|]. run. lra.
  - right. eexists. split; [runo; reflexivity|]. run. lra.
Qed.

Lemma convention_effect : forall mm n T s e e1 t w a,
  s_symbol s <> "H+"%string -> isReacDC s = false -> s_mP s <> CPM_AKI -> e_fallback e = false ->
  iequals (e_water e) "STEAM_TABLES" = false -> iequals (e_apparent e) "BERMAN_BROWN" = false ->
  substObj mm (Datatypes.S n) T s e = (e1, Ret t) ->
  let '(e2, r) := substObj mm (Datatypes.S n) T s (with_conv e w a) in
  e2 = with_conv e1 w a /\
  (r = Throw \/ exists t', r = Ret t' /\ V t' = V t /\ Cp t' = Cp t /\ Cv t' = Cv t /\
    (forall p, In p props -> ddt (p t') = ddt (p t) /\ ddp (p t') = ddp (p t) /\ sta (p t') = sta (p t)) /\
    (is_solvent (s_class s) = true -> iequals w "STEAM_TABLES" = true ->
       let w0 := e_triple e in
       val (G t') = val (G t) - Gtr w0 /\ val (A t') = val (A t) - Atr w0 /\ val (U t') = val (U t) - Utr w0 /\
       val (H t') = val (H t) - Htr w0 /\ val (S t') = val (S t) - Str w0) /\
    (is_solvent (s_class s) = true -> iequals w "STEAM_TABLES" = false -> t' = t) /\
    (is_solvent (s_class s) = false -> iequals a "BERMAN_BROWN" = false -> t' = t) /\
    (is_solvent (s_class s) = false -> iequals a "BERMAN_BROWN" = true ->
       exists ee, m_elent mm s = Some ee /\ val (G t') = val (G t) - s_refT s * ee /\
         H t' = H t /\ S t' = S t /\ A t' = A t /\ U t' = U t)).
Proof.
  intros mm n T s e e1 t w a Hh Hd Hk Hf Hw Ha He.
  rewrite (convention_shift mm n T s e e1 t w a Hh Hd Hk Hf Hw Ha He). split; [reflexivity|].
  destruct (is_solvent (s_class s)).
  - right. destruct (iequals w "STEAM_TABLES"); eexists; (split; [reflexivity|]).
    + split; [reflexivity|]. split; [reflexivity|]. split; [reflexivity|].
      split; [intros p Hp; cbn in Hp; repeat destruct Hp as [<-|Hp]; try contradiction; repeat split|].
      split; [intros _ _; repeat split|]. split; [discriminate|]. split; discriminate.
    + split; [reflexivity|]. split; [reflexivity|]. split; [reflexivity|].
      split; [intros p Hp; repeat split|].
      split; [discriminate|]. split; [reflexivity|]. split; discriminate.
  - destruct (iequals a "BERMAN_BROWN").
    + destruct (m_elent mm s) as [ee|]; [right|left; reflexivity].
      eexists; split; [reflexivity|]. split; [reflexivity|]. split; [reflexivity|]. split; [reflexivity|].
      split; [intros p Hp; cbn in Hp; repeat destruct Hp as [<-|Hp]; try contradiction; repeat split|].
      split; [discriminate|]. split; [discriminate|]. split; [discriminate|].
      intros _ _. exists ee. repeat split.
    + right. eexists; split; [reflexivity|]. split; [reflexivity|]. split; [reflexivity|]. split; [reflexivity|].
      split; [intros p Hp; repeat split|].
      split; [discriminate|]. split; [discriminate|]. split; [reflexivity|discriminate].
Qed.

(** states of the two-substance engine in which both may be cached *)
Definition ab_answer (x : string) : TPS := if String.eqb x "A" then const 3 5 else const 4 7.
Definition ab_state (e : est) : Prop :=
  e_subs e = e_subs ab_engine /\ e_fallback e = false /\ e_apparent e = e_apparent ab_engine /\
  forall T P x v, In ((T, P, x), v) (c_s e) -> (x = "A"%string \/ x = "B"%string) -> v = ab_answer x.
Lemma ab_start : forall P, ab_state (with_applyP (with_pv ab_engine P) true).
Proof. intros P. repeat split. intros T P' x v []. Qed.
Lemma ab_closed : forall mm n T a e0, In a (species [("A"%string, 1); ("B"%string, 2)]) -> ab_state e0 ->
  snd (substFn mm (Datatypes.S (Datatypes.S n)) T a e0) = Ret (ab_answer a) /\
  ab_state (fst (substFn mm (Datatypes.S (Datatypes.S n)) T a e0)).
Proof.
  intros mm n T a e0 Ha (Hs & Hf & Hp & Hc). rewrite substFn_S.
  assert (Ha' : a = "A"%string \/ a = "B"%string) by (cbn in Ha; intuition).
  set (m := bind (getSubstance a) (substObj mm (Datatypes.S n) T)).
  assert (B : exists e1, m e0 = (e1, Ret (ab_answer a)) /\
     e_subs e1 = e_subs e0 /\ e_fallback e1 = false /\ e_apparent e1 = e_apparent e0 /\ c_s e1 = c_s e0).
  { unfold m, bind at 1, getSubstance, bind at 1, get at 1. rewrite Hs.
    destruct Ha' as [->| ->]; cbn -[substObj const];
      rewrite substObj_S; unfold substBody, direct, prefsSubstance, convention, genEOS, methT, methP, bind, upd, get, ret;
      cbn -[const iequals]; rewrite Hp;
      change (iequals (e_apparent ab_engine) "BERMAN_BROWN") with false; cbn -[const]; rewrite Hf; eexists; repeat split; assumption. }
  clearbody m. destruct B as (e1 & B & b1 & b2 & b3 & b4).
  assert (K : forall T' P' x v, In ((T', P', x), v) (c_s e1) -> (x = "A"%string \/ x = "B"%string) -> v = ab_answer x)
    by (intros *; rewrite b4; apply Hc).
  unfold memoS, bind, get. destruct (e_wrapped e0).
  - destruct (lookup skey_eqb (T, pv e0, a) (c_s e0)) eqn:El.
    + split; [cbn; f_equal; eapply Hc; [eapply lookup_in; exact El|exact Ha']|]. repeat split; assumption.
    + rewrite B. split; [reflexivity|]. split; [exact (eq_trans b1 Hs)|]. split; [exact b2|]. split; [exact (eq_trans b3 Hp)|].
      intros T' P' x v [Hi|Hi] Hx; [inversion Hi; reflexivity|eapply K; eassumption].
  - rewrite B. split; [reflexivity|]. split; [exact (eq_trans b1 Hs)|]. split; [exact b2|]. split; [exact (eq_trans b3 Hp)|exact K].
Qed.
