(** Property theorems C09-C15 and C51-C54: the engine. *)
From Coq Require Import Reals String List Bool ZArith Lra Lia Permutation.
From Coquelicot Require Import Coquelicot.
From Verif Require Import ThermoScalarModel EngineModel EngineSpec EngineProofs EngineInv EngineTerm
  EngineHang EngineHist EngineMore EngineWit.
Import ListNotations.
Open Scope R_scope.

(** C09: an answered query is answered the same whatever settings or data change afterwards. *)
Theorem C09_settings_ignored_refuted : forall mm n T P x e e1 v l, e_wrapped e = true ->
  call (substFn mm (Datatypes.S n) T x) P e = (e1, Ret v) -> (forall o, In o l -> is_query o = false) ->
  snd (call (substFn mm (Datatypes.S n) T x) P (fst (run_ops mm (Datatypes.S n) e1 l))) = Ret v.
Proof. exact stale_subst. Qed.
Print Assumptions C09_settings_ignored_refuted.
Theorem C09_settings_ignored_reaction_refuted : forall mm n T P x e e1 v l, e_wrapped e = true ->
  call (reacFn mm (Datatypes.S n) T x) P e = (e1, Ret v) -> (forall o, In o l -> is_query o = false) ->
  snd (call (reacFn mm (Datatypes.S n) T x) P (fst (run_ops mm (Datatypes.S n) e1 l))) = Ret v.
Proof. exact stale_reac. Qed.
Print Assumptions C09_settings_ignored_reaction_refuted.
(** ... although an engine with the change from the start answers otherwise: appended data,
    fallback, water convention, solvent *)
Theorem C09_stale_witnesses_refuted : forall T P,
  stale_case [("A"%string, exC "A" 1 0)] (AppendSubst (exC "A" 2 0)) "A" T P 1 2 /\
  stale_case [("A"%string, exN "A" 7)] (SetFallback true) "A" T P 0 7 /\
  stale_case [("W"%string, exW "W" 10)] (SetConv "STEAM_TABLES" "BENSON_HELGESON") "W" T P 10 (10 - 2) /\
  stale_case [("H2O@"%string, exW "H2O@" 10); ("Na+"%string, exIon); ("W"%string, exW "W" 20)] (SetSolvent "W") "Na+" T P 10 20.
Proof. exact (fun T P => conj (stale_append T P) (conj (stale_fallback T P) (conj (stale_water T P) (stale_solvent T P)))). Qed.
Print Assumptions C09_stale_witnesses_refuted.
(** without changes: every history of queries is answered as if each were calculated anew *)
Theorem C09_history_partial : forall mm c,
  (exists s, assoc (g_solv c) (g_subs c) = Some s) -> no_gas_models c -> keeps_pressure mm -> refP_given c ->
  forall k qs, (forall q, In q qs -> qP q <> 0) ->
  (exists o, In o (snd (run_ops mm k (fresh c) (map op_of qs))) /\ crashed o) \/
  exists N, forall n, (N <= n)%nat ->
    snd (run_ops mm k (fresh c) (map op_of qs)) = map (fun q => snd (step mm n (uncached c) (op_of q))) qs.
Proof. exact history_independent. Qed.
Print Assumptions C09_history_partial.

Definition exCfg : config :=
  mkCfg [("A"%string, exC "A" 3 5); ("H2O@"%string, exW "H2O@" 10); ("Na+"%string, exIon)] [("AB"%string, exAB)]
        (mkTriple 1 2 3 4 5) "H2O@" true "GEOCHEMICAL" "BENSON_HELGESON".
Example C09_example :
  (exists s, assoc (g_solv exCfg) (g_subs exCfg) = Some s) /\ no_gas_models exCfg /\ keeps_pressure mm0 /\ refP_given exCfg.
Proof.
  split; [eexists; reflexivity|]. split; [|split].
  - intros x s Hs. cbn in Hs. repeat match goal with H0 : (if ?b then _ else _) = Some _ |- _ => destruct b end;
      try discriminate; inversion Hs; subst; (split; [reflexivity|discriminate]).
  - split; [|split]; intros; cbn in *; congruence.
  - intros x s Hs. cbn in Hs. repeat match goal with H0 : (if ?b then _ else _) = Some _ |- _ => destruct b end;
      try discriminate; inversion Hs; subst; cbn; lra.
Qed.

(** C10: G, H, S, V, Cp (values, both derivatives, status) are stoichiometric sums. *)
Theorem C10_reaction_sum_partial : forall mm n T r e e' t,
  reacFromReactants mm n T r e = (e', Ret t) ->
  exists ts e1, answers (substFn mm n T) (species (r_reactants r)) (with_applyP e true) ts e1 /\
    let sum f := weighted (r_reactants r) (map f ts) in
    (val (rG t) = sum (fun x => val (G x)) /\ val (rH t) = sum (fun x => val (H x)) /\
     val (rS t) = sum (fun x => val (S x)) /\ val (rV t) = sum (fun x => val (V x)) /\
     val (rCp t) = sum (fun x => val (Cp x))) /\
    (ddt (rG t) = sum (fun x => ddt (G x)) /\ ddt (rH t) = sum (fun x => ddt (H x)) /\
     ddt (rS t) = sum (fun x => ddt (S x)) /\ ddt (rV t) = sum (fun x => ddt (V x)) /\
     ddt (rCp t) = sum (fun x => ddt (Cp x))) /\
    (ddp (rG t) = sum (fun x => ddp (G x)) /\ ddp (rH t) = sum (fun x => ddp (H x)) /\
     ddp (rS t) = sum (fun x => ddp (S x)) /\ ddp (rV t) = sum (fun x => ddp (V x)) /\
     ddp (rCp t) = sum (fun x => ddp (Cp x))) /\
    ((undefined (rG t) <-> exists x, In x ts /\ undefined (G x)) /\
     (undefined (rH t) <-> exists x, In x ts /\ undefined (H x)) /\
     (undefined (rS t) <-> exists x, In x ts /\ undefined (S x)) /\
     (undefined (rV t) <-> exists x, In x ts /\ undefined (V x)) /\
     (undefined (rCp t) <-> exists x, In x ts /\ undefined (Cp x))) /\
    val (lnK t) = - val (rG t) / (R_CONSTANT * T) /\ val (logK t) = val (lnK t) * ln_to_lg.
Proof. exact reaction_sum. Qed.
Print Assumptions C10_reaction_sum_partial.
(** the order of the species does not matter for them, when each species has one answer on a
    set [I] of states closed under asking *)
Theorem C10_order : forall mm n T (I : est -> Prop) f r r' e1 e2 e1' e2' t1 t2,
  Permutation (r_reactants r) (r_reactants r') ->
  (forall x e0, In x (species (r_reactants r)) -> I e0 ->
     snd (substFn mm n T x e0) = Ret (f x) /\ I (fst (substFn mm n T x e0))) ->
  I (with_applyP e1 true) -> I (with_applyP e2 true) ->
  reacFromReactants mm n T r e1 = (e1', Ret t1) -> reacFromReactants mm n T r' e2 = (e2', Ret t2) ->
  val (rG t1) = val (rG t2) /\ val (rH t1) = val (rH t2) /\ val (rS t1) = val (rS t2) /\
  val (rV t1) = val (rV t2) /\ val (rCp t1) = val (rCp t2) /\
  val (lnK t1) = val (lnK t2) /\ val (logK t1) = val (logK t2).
Proof. exact reaction_order. Qed.
Print Assumptions C10_order.
(** Cv, U and A are those of the last species alone *)
Theorem C10_Cv_U_A_last_refuted : forall mm n T r e e' t l x c,
  r_reactants r = (l ++ [(x, c)])%list ->
  reacFromReactants mm n T r e = (e', Ret t) ->
  exists ts u e1, answers (substFn mm n T) (species (r_reactants r)) (with_applyP e true) (ts ++ [u])%list e1 /\
    val (rCv t) = c * val (Cv u) /\ val (rU t) = c * val (U u) /\ val (rA t) = c * val (A u).
Proof. exact reaction_last. Qed.
Print Assumptions C10_Cv_U_A_last_refuted.
Theorem C10_not_a_sum_refuted : forall mm T P, exists e' t ts e1,
  reacFromReactants mm 3 T exAB (with_pv ab_engine P) = (e', Ret t) /\
  answers (substFn mm 3 T) (species (r_reactants exAB)) (with_applyP (with_pv ab_engine P) true) ts e1 /\
  let sum f := weighted (r_reactants exAB) (map f ts) in
  val (rG t) = sum (fun x => val (G x)) /\
  val (rCv t) <> sum (fun x => val (Cv x)) /\ val (rU t) <> sum (fun x => val (U x)) /\ val (rA t) <> sum (fun x => val (A x)).
Proof. exact not_a_sum. Qed.
Print Assumptions C10_not_a_sum_refuted.
(** the hypotheses of C10_order are met by two constant substances on the states in which they
    can have been cached already *)
Example C10_example : forall mm n T,
  let x := [("A"%string, 1); ("B"%string, 2)] in
  Permutation x [("B"%string, 2); ("A"%string, 1)] /\
  (forall a e0, In a (species x) -> ab_state e0 ->
     snd (substFn mm (Datatypes.S (Datatypes.S n)) T a e0) = Ret (ab_answer a) /\
     ab_state (fst (substFn mm (Datatypes.S (Datatypes.S n)) T a e0))) /\
  (forall P, ab_state (with_applyP (with_pv ab_engine P) true)).
Proof. intros mm n T x. split; [apply perm_swap|]. split; [apply ab_closed|]. exact ab_start. Qed.

(** C11: lnK and logK follow from G for reactions summed from their species (C10 theorem, last
    line); the constant-volume correction keeps logK and G together ... *)
Theorem C11_conVol_logK_partial : forall r T P t, 0 < T ->
  val (rV t) = val (rV (r_ref r)) ->
  val (logK t) = - val (rG t) / (R_CONSTANT * T * lg_to_ln) ->
  let t' := reacConVol r T P t in val (logK t') = - val (rG t') / (R_CONSTANT * T * lg_to_ln).
Proof. exact reacConVol_logK. Qed.
Print Assumptions C11_conVol_logK_partial.
(** ... but leaves lnK as it was *)
Theorem C11_conVol_lnK_refuted : forall r T P t, 0 < T ->
  val (lnK t) = - val (rG t) / (R_CONSTANT * T) ->
  let t' := reacConVol r T P t in
  (val (lnK t') = - val (rG t') / (R_CONSTANT * T) <-> val (rV t) * (P - r_refP r) = 0).
Proof. exact reacConVol_lnK. Qed.
Print Assumptions C11_conVol_lnK_refuted.
Example C11_example : let t := mkTPR (ts_assign (-1)) (ts_assign (-1 / lg_to_ln)) (ts_assign (R_CONSTANT * 300)) (ts_assign 0) (ts_assign 0)
    (ts_assign 0) (ts_assign 0) (ts_assign 2) (ts_assign 0) (ts_assign 0) in
  let r := mkReac "R" 0 0 0 [] 100000 t in
  val (rV t) = val (rV (r_ref r)) /\ val (logK t) = - val (rG t) / (R_CONSTANT * 300 * lg_to_ln) /\
  val (lnK t) = - val (rG t) / (R_CONSTANT * 300) /\ val (rV t) * (200000 - r_refP r) <> 0.
Proof. cbn. unfold lg_to_ln, R_CONSTANT. split; [reflexivity|]. split; [field|]. split; [field|lra]. Qed.
(** the temperature derivative carried by lnK is wrong unless G = 0 *)
Theorem C11_lnK_derivative_refuted : forall mm n T r e e' t (g : R -> R), 0 < T -> r_reactants r <> [] ->
  reacFromReactants mm n T r e = (e', Ret t) ->
  val (rG t) = g T -> is_derive g T (ddt (rG t)) ->
  (is_derive (fun x => - g x / (R_CONSTANT * x)) T (ddt (lnK t)) <-> val (rG t) = 0).
Proof. exact lnK_derivative. Qed.
Print Assumptions C11_lnK_derivative_refuted.

(** C12: a substance calculated from its reaction gives the reaction back. *)
Theorem C12_reacDC_inverse_partial : forall mm n T s e e' t,
  String.eqb (s_symbol s) "H+" = false -> isReacDC s = true -> e_fallback e' = false ->
  s_reaction s <> ""%string -> s_mP s <> CPM_CON ->
  substObj mm (Datatypes.S n) T s e = (e', Ret t) ->
  exists e0 r tpr e1 ts e2,
    assoc (s_reaction s) (e_reacs e0) = Some r /\ e_reacs e0 = e_reacs e /\
    reacFn mm n T (s_reaction s) e0 = (e1, Ret tpr) /\
    answers (substFn mm n T) (others (s_symbol s) (r_reactants r)) e1 ts e2 /\
    forall c, assoc (s_symbol s) (r_reactants r) = Some c -> c <> 0 ->
    let back p := c * val (p t) + weighted_others (s_symbol s) (r_reactants r) (map (fun x => val (p x)) ts) in
    back G = val (rG tpr) /\ back H = val (rH tpr) /\ back S = val (rS tpr) /\ back Cp = val (rCp tpr) /\
    back V = val (rV tpr) /\ back A = val (rA tpr) /\ back U = val (rU tpr) /\ back Cv = val (rCv tpr).
Proof. exact reacDC_inverse. Qed.
Print Assumptions C12_reacDC_inverse_partial.
Example C12_example :
  let x := mkSubst "X" 0 0 0 OTHERCLASS false true "RX" 298 100000 tps_default in
  let e := new_engine [("A"%string, exC "A" 3 3); ("X"%string, x)] [("RX"%string, exRX)] (mkTriple 0 0 0 0 0) in
  isReacDC x = true /\ s_reaction x <> ""%string /\ s_mP x <> CPM_CON /\ assoc "X" (r_reactants exRX) = Some 1 /\
  exists e' t, substObj mm0 5 300 x e = (e', Ret t) /\ e_fallback e' = false /\ val (G t) = 7.
Proof.
  repeat split; try discriminate. eexists _, _. split; [runo; reflexivity|].
  split; [reflexivity|]. run. repeat match goal with |- context [Req_EM_T ?a ?b] => destruct (Req_EM_T a b) end; field.
Qed.
(** with a constant molar volume the substance is shifted: 9 + 3 is not 10 *)
Theorem C12_conVol_refuted :
  outG (snd (step mm0 5 rd_engine (QSubst 300 200000 "X"))) 9 /\
  outG (snd (step mm0 5 rd_engine (QSubst 300 200000 "A"))) 3 /\
  outG (snd (step mm0 5 rd_engine (QReac 300 200000 "RX"))) 10.
Proof. exact conVol_not_inverse. Qed.
Print Assumptions C12_conVol_refuted.

(** C13: without an infinite chain of references every query ends. *)
Theorem C13_grounded_terminates_partial : forall mm ss rr sol,
  (forall x, grounded (m_equation mm) ss rr sol (NS x) ->
     exists N, forall n, (N <= n)%nat -> forall T e, on_db ss rr sol e -> snd (substFn mm n T x e) <> Fuel) /\
  (forall x, grounded (m_equation mm) ss rr sol (NR x) ->
     exists N, forall n, (N <= n)%nat -> forall T e, on_db ss rr sol e -> snd (reacFn mm n T x e) <> Fuel).
Proof. exact grounded_query. Qed.
Print Assumptions C13_grounded_terminates_partial.
Example C13_example : grounded (m_equation mm0) [("A"%string, exC "A" 3 5); ("B"%string, exC "B" 4 7)] [("AB"%string, exAB)] "H2O@" (NR "AB").
Proof.
  constructor. intros y Hy. inversion Hy; subst.
  assert (r = exAB) as -> by (match goal with H0 : _ \/ _ |- _ => destruct H0 as [K|[K _]]; cbn in K; [congruence|discriminate] end).
  assert (L : forall a z, ~ needs (m_equation mm0) [("A"%string, exC "A" 3 5); ("B"%string, exC "B" 4 7)] [("AB"%string, exAB)] "H2O@" (NS a) z).
  { intros a z Hz. inversion Hz; subst;
      match goal with H0 : assoc _ [(_, exC _ _ _); _] = Some ?s |- _ =>
        cbn in H0; destruct (String.eqb _ _) in H0; [|destruct (String.eqb _ _) in H0; [|discriminate]];
        inversion H0; subst; discriminate end. }
  constructor. intros z Hz. exfalso. exact (L _ _ Hz).
Qed.
(** a substance and its reaction that refer to each other, and a record without its reaction:
    the recursion never ends *)
Theorem C13_cycle_refuted : forall mm ss rr T P x s r rc c l,
  assoc x ss = Some s -> s_symbol s <> "H+"%string -> isReacDC s = true ->
  s_reaction s = r -> r <> ""%string -> assoc r rr = Some rc -> isFromReactants rc = true ->
  r_reactants rc = (x, c) :: l -> (noMethods s && String.eqb r (r_symbol rc) = false) ->
  forall n e, cyc ss rr T P x r e ->
  snd (substFn mm n T x e) = Fuel /\ snd (substObj mm n T s e) = Fuel /\ snd (reacFn mm n T r e) = Fuel.
Proof. exact hang_cycle. Qed.
Print Assumptions C13_cycle_refuted.
Theorem C13_no_reaction_refuted : forall mm n T s e,
  s_symbol s <> "H+"%string -> s_reacdc s = true -> s_reaction s = ""%string ->
  snd (substObj mm n T s e) = Fuel.
Proof. exact hang_no_reaction. Qed.
Print Assumptions C13_no_reaction_refuted.
Theorem C13_witness_refuted : forall mm n T P,
  snd (call (substFn mm n T "X") P (new_engine [("X"%string, exX)] [("R"%string, exR)] ex_tr)) = Fuel.
Proof. exact hang_witness. Qed.
Print Assumptions C13_witness_refuted.

(** C14: the proton, after any history of queries, settings and appended records. *)
Theorem C14_proton_zero : forall mm n ss rr tr l T P s, keys_ok ss ->
  let e := fst (run_ops mm (Datatypes.S (Datatypes.S n)) (new_engine ss rr tr) l) in
  assoc "H+" (e_subs e) = Some s ->
  exists t, snd (call (substFn mm (Datatypes.S (Datatypes.S n)) T "H+") P e) = Ret t /\
    forall p, In p props -> val (p t) = 0 /\ ddt (p t) = 0 /\ ddp (p t) = 0 /\ err (p t) = 0 /\ ~ undefined (p t).
Proof. exact proton_zero. Qed.
Print Assumptions C14_proton_zero.
Example C14_example : keys_ok [("H+"%string, exC "H+" 5 6)] /\
  assoc "H+" (e_subs (fst (run_ops mm0 2 (new_engine [("H+"%string, exC "H+" 5 6)] [] ex_tr) [QSubst 300 1 "H+"; AppendSubst (exC "H+" 7 8)]))) = Some (exC "H+" 7 8).
Proof. split; [intros k s [Hi|[]]; inversion Hi; reflexivity|]. run. reflexivity. Qed.

(** C15: fallback fills gaps only, for substances evaluated by a model of their own. *)
Theorem C15_fills_gaps_only_partial : forall mm n T s e e1 t,
  s_symbol s <> "H+"%string -> isReacDC s = false -> s_mP s <> CPM_AKI -> e_fallback e = false ->
  substObj mm (Datatypes.S n) T s e = (e1, Ret t) ->
  exists t', substObj mm (Datatypes.S n) T s (with_fallback e true) = (with_fallback e1 true, Ret t') /\
    forall p, In p props -> (undefined (p t) -> p t' = p (s_ref s)) /\ (~ undefined (p t) -> p t' = p t).
Proof. exact fallback_direct. Qed.
Print Assumptions C15_fills_gaps_only_partial.
(** for every substance: what is still undefined has no reference value *)
Theorem C15_no_gap_left : forall mm n T s e e1 t,
  s_symbol s <> "H+"%string -> e_fallback e = true ->
  substObj mm (Datatypes.S n) T s e = (e1, Ret t) ->
  forall p, In p props -> undefined (p t) -> undefined (p (s_ref s)).
Proof. exact fallback_gap. Qed.
Print Assumptions C15_no_gap_left.
Example C15_example : exists e1 t, substObj mm0 3 300 (exN "A" 7) (new_engine [] [] ex_tr) = (e1, Ret t) /\ undefined (G t).
Proof. eexists _, _. split; [run; reflexivity|reflexivity]. Qed.

(** C51: a query leaves data and settings as they are ... *)
Theorem C51_queries_change_no_settings_partial : forall mm n T x e,
  same_settings e (fst (substFn mm n T x e)) /\ same_settings e (fst (reacFn mm n T x e)) /\
  (forall s, same_settings e (fst (substObj mm n T s e))).
Proof. exact settings_kept. Qed.
Print Assumptions C51_queries_change_no_settings_partial.
(** ... and the solvent, if it is in the database *)
Theorem C51_solvent_kept : forall mm n T x e s, assoc (e_solv e) (e_subs e) = Some s ->
  e_solv (fst (substFn mm n T x e)) = e_solv e /\ e_solv (fst (reacFn mm n T x e)) = e_solv e.
Proof. exact solvent_kept. Qed.
Print Assumptions C51_solvent_kept.
(** an unknown solvent symbol is replaced by a query *)
Theorem C51_solvent_replaced_refuted : forall P,
  let e := new_engine [("Na+"%string, exIon); ("W"%string, exW "W" 20)] [] (mkTriple 0 0 0 0 0) in
  e_solv (fst (step mm0 5 (fst (step mm0 5 e (SetSolvent "D2O"))) (QSubst 300 P "Na+"))) = "W"%string.
Proof. exact solvent_replaced. Qed.
Print Assumptions C51_solvent_replaced_refuted.

(** C52: the solvent state preference and enable_memoize never change an answer: removing
    them from a history leaves the other answers as they are. *)
Theorem C52_state_preference_ignored_refuted : forall mm n l e,
  keep_outs l (fun o => negb (is_setstate o)) (snd (run_ops mm n e l)) =
  snd (run_ops mm n e (filter (fun o => negb (is_setstate o)) l)).
Proof. exact state_inert. Qed.
Print Assumptions C52_state_preference_ignored_refuted.
Theorem C52_enable_memoize_ignored : forall mm n l e,
  keep_outs l (fun o => negb (is_setenable o)) (snd (run_ops mm n e l)) =
  snd (run_ops mm n e (filter (fun o => negb (is_setenable o)) l)).
Proof. exact enable_inert. Qed.
Print Assumptions C52_enable_memoize_ignored.

(** C53: the answer for a gas depends on what was asked before. *)
Theorem C53_gas_order_refuted :
  0 < gasG /\
  (exists o, snd (run_ops mm0 5 gas_engine [QSubst 300 200000 "O2"]) = [o] /\ answerG o 0) /\
  (exists o1 o2, snd (run_ops mm0 5 gas_engine [QReac 300 200000 "Rx"; QSubst 300 200000 "O2"]) = [o1; o2] /\ answerG o2 gasG) /\
  (exists o2, snd (run_ops mm0 5 gas_engine [QReac 300 200000 "Bad"; QSubst 300 200000 "O2"]) = [OutR Throw; o2] /\ answerG o2 gasG).
Proof. exact (conj gasG_pos (conj gas_alone (conj gas_after_reaction gas_after_failure))). Qed.
Print Assumptions C53_gas_order_refuted.

(** C54: choosing a convention shifts the answer by the documented constants. *)
Theorem C54_convention_shift_partial : forall mm n T s e e1 t w a,
  s_symbol s <> "H+"%string -> isReacDC s = false -> s_mP s <> CPM_AKI -> e_fallback e = false ->
  iequals (e_water e) "STEAM_TABLES" = false -> iequals (e_apparent e) "BERMAN_BROWN" = false ->
  substObj mm (Datatypes.S n) T s e = (e1, Ret t) ->
  let '(e2, r) := substObj mm (Datatypes.S n) T s (with_conv e w a) in
  e2 = with_conv e1 w a /\
  (r = Throw \/ exists t', r = Ret t' /\ V t' = V t /\ Cp t' = Cp t /\ Cv t' = Cv t /\
    (forall p, In p props -> ddt (p t') = ddt (p t) /\ ddp (p t') = ddp (p t) /\ sta (p t') = sta (p t)) /\
    (is_solvent (s_class s) = true -> iequals w "STEAM_TABLES" = true ->
       let w0 := e_triple e in
       val (G t') = val (G t) - Gtr w0 /\ val (A t') = val (A t) - Atr w0 /\ val (U t') = val (U t) - Utr w0 /\
       val (H t') = val (H t) - Htr w0 /\ val (S t') = val (S t) - Str w0) /\
    (is_solvent (s_class s) = true -> iequals w "STEAM_TABLES" = false -> t' = t) /\
    (is_solvent (s_class s) = false -> iequals a "BERMAN_BROWN" = false -> t' = t) /\
    (is_solvent (s_class s) = false -> iequals a "BERMAN_BROWN" = true ->
       exists ee, m_elent mm s = Some ee /\ val (G t') = val (G t) - s_refT s * ee /\
         H t' = H t /\ S t' = S t /\ A t' = A t /\ U t' = U t)).
Proof. exact convention_effect. Qed.
Print Assumptions C54_convention_shift_partial.
Example C54_example : let e := new_engine [] [] (mkTriple 1 2 3 4 5) in
  isReacDC (exW "W" 10) = false /\ iequals (e_water e) "STEAM_TABLES" = false /\
  iequals (e_apparent e) "BERMAN_BROWN" = false /\ is_solvent (s_class (exW "W" 10)) = true /\
  exists e1 t, substObj mm0 3 300 (exW "W" 10) e = (e1, Ret t).
Proof. repeat split. eexists _, _. runo. reflexivity. Qed.
