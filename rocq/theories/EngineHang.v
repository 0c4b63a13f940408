(** Queries that never end (C13). *)
From Coq Require Import Reals String List Bool ZArith Lra Lia.
From Verif Require Import ThermoScalarModel EngineModel EngineSpec EngineProofs EngineInv.
Import ListNotations.
Open Scope R_scope.

(** a record marked as calculated from a reaction, but without a reaction *)
Lemma hang_no_reaction : forall mm n T s e,
  s_symbol s <> "H+"%string -> s_reacdc s = true -> s_reaction s = ""%string ->
  snd (substObj mm n T s e) = Fuel.
Proof.
  intros mm n. induction n as [|k IH]; intros T s e Hh Hd Hr; [reflexivity|].
  rewrite substObj_S. unfold substBody. unfold bind at 1. cbn [fst snd].
  apply String.eqb_neq in Hh.
  unfold prefsSubstance at 1. unfold bind at 1, upd at 1 2.
  rewrite Hh. unfold isReacDC. rewrite Hd. cbn [orb].
  unfold reacDC. rewrite Hr. cbn [String.eqb].
  unfold bind at 1. unfold bind at 1. unfold upd at 1.
  match goal with |- context [substObj mm k T ?a ?b] =>
    pose proof (IH T a b) as Q; destruct (substObj mm k T a b) as [e1 r1] end.
  cbn in Q. rewrite Q; auto. apply String.eqb_neq. exact Hh.
Qed.
Lemma hang_no_reaction_sym : forall mm n T x s e,
  assoc x (e_subs e) = Some s -> lookup skey_eqb (T, pv e, x) (c_s e) = None ->
  s_symbol s <> "H+"%string -> s_reacdc s = true -> s_reaction s = ""%string ->
  snd (substFn mm n T x e) = Fuel.
Proof.
  intros mm [|k] T x s e Hx Hl Hh Hd Hr; [reflexivity|].
  rewrite substFn_S. unfold memoS. unfold bind at 1, get at 1. rewrite Hl.
  assert (Q : snd ((do s0 <- getSubstance x; substObj mm k T s0) e) = Fuel).
  { unfold bind, getSubstance, bind, get, lift. rewrite Hx. unfold ret. apply hang_no_reaction; assumption. }
  destruct (e_wrapped e); [|exact Q].
  unfold bind at 1. destruct ((do s0 <- getSubstance x; substObj mm k T s0) e) as [e1 r1]. cbn in Q. subst r1. reflexivity.
Qed.

(** a substance and the reaction that defines it refer to each other *)
Definition cyc ss rr T P x r (e : est) : Prop :=
  e_subs e = ss /\ e_reacs e = rr /\ pv e = P /\
  lookup skey_eqb (T, P, x) (c_s e) = None /\ lookup skey_eqb (T, P, r) (c_r e) = None.
Lemma hang_cycle : forall mm ss rr T P x s r rc c l,
  assoc x ss = Some s -> s_symbol s <> "H+"%string -> isReacDC s = true ->
  s_reaction s = r -> r <> ""%string -> assoc r rr = Some rc -> isFromReactants rc = true ->
  r_reactants rc = (x, c) :: l -> (noMethods s && String.eqb r (r_symbol rc) = false) ->
  forall n e, cyc ss rr T P x r e ->
  snd (substFn mm n T x e) = Fuel /\ snd (substObj mm n T s e) = Fuel /\ snd (reacFn mm n T r e) = Fuel.
Proof.
  intros mm ss rr T P x s r rc c l Hx Hh Hd Hsr Hr0 Hrc Hf Hl Hm n.
  induction n as [|k IH]; intros e He; [repeat split|].
  split; [|split].
  - rewrite substFn_S. unfold memoS. unfold bind at 1, get at 1.
    destruct He as (E1 & E2 & E3 & E4 & E5). rewrite E3, E4.
    assert (Q : snd ((do s0 <- getSubstance x; substObj mm k T s0) e) = Fuel).
    { unfold bind, getSubstance, bind, get, lift. rewrite E1, Hx. unfold ret. apply IH. repeat split; assumption. }
    destruct (e_wrapped e); [|exact Q].
    unfold bind at 1. destruct ((do s0 <- getSubstance x; substObj mm k T s0) e) as [e1 r1]. cbn in Q. subst r1. reflexivity.
  - rewrite substObj_S. unfold substBody. unfold bind at 1.
    destruct (prefsSubstance s e) as [e0 r0] eqn:Ep.
    assert (Hr0' : r0 = Ret tt /\ cyc ss rr T P x r e0).
    { unfold prefsSubstance, bind, upd in Ep. inversion Ep; subst e0 r0; clear Ep. split; [reflexivity|].
      destruct (is_solute (s_class s)); [match goal with |- context [assoc ?a ?b] => destruct (assoc a b) end|]; exact He. }
    destruct Hr0' as [-> He0].
    apply String.eqb_neq in Hh. rewrite Hh, Hd. apply String.eqb_neq in Hh.
    unfold bind at 1. unfold reacDC. unfold bind at 1. unfold upd at 1.
    rewrite Hsr. replace (String.eqb r "") with false by (symmetry; apply String.eqb_neq; exact Hr0).
    unfold bind at 1. unfold getReaction, bind at 1, get at 1, lift.
    assert (Er : e_reacs (with_applyP e0 true) = rr) by (destruct He0 as (_ & E2 & _); exact E2).
    rewrite Er, Hrc. unfold ret at 1. unfold bind at 1.
    destruct (IH (with_applyP e0 true) He0) as (_ & _ & Q).
    destruct (reacFn mm k T r (with_applyP e0 true)) as [e1 r1]. cbn in Q. subst r1. reflexivity.
  - rewrite reacFn_S. unfold memoR. unfold bind at 1, get at 1.
    pose proof He as (E1 & E2 & E3 & E4 & E5). rewrite E3, E5.
    assert (Q : snd (reacSym mm (substFn mm k) T r e) = Fuel).
    { unfold reacSym. unfold bind at 1, get at 1. rewrite E2, Hrc. unfold reacBody. rewrite Hf.
      unfold fromReactants. unfold bind at 1. unfold upd at 1. unfold bind at 1. rewrite Hl. cbn [add_reactants].
      unfold bind at 1. unfold getSubstance, bind at 1, get at 1, lift.
      change (e_subs (with_applyP e true)) with (e_subs e). rewrite E1, Hx. unfold ret at 1. rewrite Hsr, Hm.
      unfold bind at 1. destruct (IH (with_applyP e true) He) as (Q & _ & _).
      destruct (substFn mm k T x (with_applyP e true)) as [e1 r1]. cbn in Q. subst r1. reflexivity. }
    destruct (e_wrapped e); [|exact Q].
    unfold bind at 1. destruct (reacSym mm (substFn mm k) T r e) as [e1 r1]. cbn in Q. subst r1. reflexivity.
Qed.

(** ** concrete database used as a witness: a substance "X" with only a constant molar
    volume (method_P = 305), defined by reaction "R" over X and Y *)
Definition exX : Subst := mkSubst "X" 0 0 CPM_CON OTHERCLASS false false "R" 29815 100000 tps_default.
Definition exR : Reac := mkReac "R" 0 0 0 [("X"%string, -1); ("Y"%string, 1)] 100000 tpr_default.
Definition ex_tr : Triple := mkTriple 0 0 0 0 0.
Lemma hang_witness : forall mm n T P,
  snd (call (substFn mm n T "X") P (new_engine [("X"%string, exX)] [("R"%string, exR)] ex_tr)) = Fuel.
Proof.
  intros. unfold call.
  eapply (hang_cycle mm [("X"%string, exX)] [("R"%string, exR)] T P "X" exX "R" exR);
    try reflexivity; try discriminate.
  repeat split.
Qed.
