(** Reading of reaction records. *)
From Coq Require Import List Bool Reals Lra String Ascii ZArith.
From Verif Require Import UnitsModel JsonModel JsonSpec JsonProofs.
Import ListNotations.
Open Scope R_scope.
Open Scope string_scope.

Lemma f_rr_Pr : forall r, field (ren_reac r) "Pst" = option_map JNum (rr_Pr r).
Proof. intros r; unfold ren_reac; cbn [field]; jlook; destruct (rr_Pr r); reflexivity. Qed.
Lemma f_rr_meth : forall r, field (ren_reac r) "TPMethods" = option_map (fun l => JArr (map ren_rmeth l)) (rr_meth r).
Proof. intros r; unfold ren_reac; cbn [field]; jlook; destruct (rr_meth r); reflexivity. Qed.
Lemma f_rr_Tr : forall r, field (ren_reac r) "Tst" = option_map JNum (rr_Tr r).
Proof. intros r; unfold ren_reac; cbn [field]; jlook; destruct (rr_Tr r); reflexivity. Qed.
Lemma f_rr_H : forall r, field (ren_reac r) "drsm_enthalpy" = option_map ren_num (rr_H r).
Proof. intros r; unfold ren_reac; cbn [field]; jlook; destruct (rr_H r); reflexivity. Qed.
Lemma f_rr_S : forall r, field (ren_reac r) "drsm_entropy" = option_map ren_num (rr_S r).
Proof. intros r; unfold ren_reac; cbn [field]; jlook; destruct (rr_S r); reflexivity. Qed.
Lemma f_rr_G : forall r, field (ren_reac r) "drsm_gibbs_energy" = option_map ren_num (rr_G r).
Proof. intros r; unfold ren_reac; cbn [field]; jlook; destruct (rr_G r); reflexivity. Qed.
Lemma f_rr_Cp : forall r, field (ren_reac r) "drsm_heat_capacity_p" = option_map ren_num (rr_Cp r).
Proof. intros r; unfold ren_reac; cbn [field]; jlook; destruct (rr_Cp r); reflexivity. Qed.
Lemma f_rr_V : forall r, field (ren_reac r) "drsm_volume" = option_map ren_num (rr_V r).
Proof. intros r; unfold ren_reac; cbn [field]; jlook; destruct (rr_V r); reflexivity. Qed.
Lemma f_rr_equation : forall r, field (ren_reac r) "equation" = option_map JStr (rr_equation r).
Proof. intros r; unfold ren_reac; cbn [field]; jlook; destruct (rr_equation r); reflexivity. Qed.
Lemma f_rr_lim : forall r, field (ren_reac r) "limitsTP" = option_map ren_lim (rr_lim r).
Proof. intros r; unfold ren_reac; cbn [field]; jlook; destruct (rr_lim r); reflexivity. Qed.
Lemma f_rr_lK : forall r, field (ren_reac r) "logKr" = option_map ren_num (rr_lK r).
Proof. intros r; unfold ren_reac; cbn [field]; jlook; destruct (rr_lK r); reflexivity. Qed.
Lemma f_rr_name : forall r, field (ren_reac r) "name" = option_map JStr (rr_name r).
Proof. intros r; unfold ren_reac; cbn [field]; jlook; destruct (rr_name r); reflexivity. Qed.
Lemma f_rr_reactants : forall r, field (ren_reac r) "reactants" = option_map (fun l => JArr (map ren_reactant l)) (rr_reactants r).
Proof. intros r; unfold ren_reac; cbn [field]; jlook; destruct (rr_reactants r); reflexivity. Qed.
Lemma f_rr_symbol : forall r, field (ren_reac r) "symbol" = option_map JStr (rr_symbol r).
Proof. intros r; unfold ren_reac; cbn [field]; jlook; destruct (rr_symbol r); reflexivity. Qed.
Lemma f_rr_body : forall r, body (ren_reac r) = ren_reac r.
Proof. intros r; unfold body, given; replace (field (ren_reac r) "properties") with (@None json); [reflexivity|]; unfold ren_reac; cbn [field]; jlook; reflexivity. Qed.
Lemma f_rm_dm : forall r, field (ren_rmeth r) "dr_dolejs_manning10_coeffs" = option_map ren_list (rm_dm r).
Proof. intros r; unfold ren_rmeth; cbn [field]; jlook; destruct (rm_dm r); reflexivity. Qed.
Lemma f_rm_cp : forall r, field (ren_rmeth r) "dr_heat_capacity_ft_coeffs" = option_map ren_list (rm_cp r).
Proof. intros r; unfold ren_rmeth; cbn [field]; jlook; destruct (rm_cp r); reflexivity. Qed.
Lemma f_rm_fm : forall r, field (ren_rmeth r) "dr_marshall_franck_coeffs" = option_map ren_list (rm_fm r).
Proof. intros r; unfold ren_rmeth; cbn [field]; jlook; destruct (rm_fm r); reflexivity. Qed.
Lemma f_rm_rb : forall r, field (ren_rmeth r) "dr_ryzhenko_coeffs" = option_map ren_list (rm_rb r).
Proof. intros r; unfold ren_rmeth; cbn [field]; jlook; destruct (rm_rb r); reflexivity. Qed.
Lemma f_rm_v : forall r, field (ren_rmeth r) "dr_volume_fpt_coeffs" = option_map ren_list (rm_v r).
Proof. intros r; unfold ren_rmeth; cbn [field]; jlook; destruct (rm_v r); reflexivity. Qed.
Lemma f_rm_lk : forall r, field (ren_rmeth r) "logk_ft_coeffs" = option_map ren_list (rm_lk r).
Proof. intros r; unfold ren_rmeth; cbn [field]; jlook; destruct (rm_lk r); reflexivity. Qed.
Lemma f_rm_method : forall r, field (ren_rmeth r) "method" = Some (ren_key (rm_key r, rm_name r)).
Proof. intros r; unfold ren_rmeth; cbn [field]; jlook; reflexivity. Qed.

(** reactants: the last entry of a symbol counts *)
Lemma look_rset : forall k v m q, look q (rset k v m) = if String.eqb q k then Some v else look q m.
Proof.
  intros k v; induction m as [|[k' v'] m IH]; intros q; cbn [rset look]; [destruct (String.eqb q k); reflexivity|].
  destruct (String.eqb k k') eqn:E; cbn [look].
  - apply String.eqb_eq in E; subst k'; destruct (String.eqb q k); reflexivity.
  - rewrite IH; destruct (String.eqb q k') eqn:F; [|reflexivity]; apply String.eqb_eq in F; subst q.
    rewrite String.eqb_sym, E; reflexivity.
Qed.
Lemma rset_keys : forall k v m q, In q (map fst (rset k v m)) <-> q = k \/ In q (map fst m).
Proof.
  intros k v; induction m as [|[k' v'] m IH]; intros q; cbn [rset map fst In]; [intuition|].
  destruct (String.eqb k k') eqn:E; cbn [map fst In]; [apply String.eqb_eq in E; subst k'; intuition|rewrite IH; intuition].
Qed.
Lemma rset_nodup : forall k v m, NoDup (map fst m) -> NoDup (map fst (rset k v m)).
Proof.
  intros k v; induction m as [|[k' v'] m IH]; intros N; cbn [rset map fst] in *; [constructor; [intros []|constructor]|].
  inversion N as [|? ? N1 N2]; subst; destruct (String.eqb k k') eqn:E; cbn [map fst]; [apply String.eqb_eq in E; subst k'; constructor; assumption|].
  constructor; [|apply IH, N2]. rewrite rset_keys; intros [Q|Q]; [|contradiction]; subst k'; rewrite String.eqb_refl in E; discriminate E.
Qed.
Lemma reactants_run : forall l m, getReactants (map ren_reactant l) m = JOk (fold_left (fun m p => rset (fst p) (snd p) m) l m).
Proof. induction l as [|[k v] l IH]; intros m; [reflexivity|]; cbn [map getReactants fold_left]; rewrite <- IH; reflexivity. Qed.
Lemma fold_look : forall l m q, look q (fold_left (fun m p => rset (fst p) (snd p) m) l m) = match last_entry q l with Some v => Some v | None => look q m end.
Proof.
  assert (A : forall a b q, look q (a ++ b)%list = match look q a with Some v => Some v | None => look q b end).
  { induction a as [|[k v] a IH]; intros b q; cbn [List.app look]; [reflexivity|]; destruct (String.eqb q k); [reflexivity|apply IH]. }
  induction l as [|[k v] l IH]; intros m q; [reflexivity|]; cbn [fold_left]; rewrite IH, look_rset; unfold last_entry; cbn [rev fst snd]; rewrite A.
  destruct (look q (rev l)); [reflexivity|]; cbn [look]; destruct (String.eqb q k); reflexivity.
Qed.
Lemma fold_nodup : forall l m, NoDup (map fst m) -> NoDup (map fst (fold_left (fun m p => rset (fst p) (snd p) m) l m)).
Proof. induction l as [|[k v] l IH]; intros m N; [exact N|]; cbn [fold_left]; apply IH, rset_nodup, N. Qed.

Section P.
Variable convert : R -> string -> string -> jres R.
Variable fromEquation : string -> rmap.
Hypothesis K : keeps convert.
Definition qstep (ps : rparams) (m : rmrec) : rparams :=
  mkPR (dflt (q_lk ps) (rm_lk m)) (dflt (q_cp ps) (rm_cp m)) (dflt (q_v ps) (rm_v m)) (dflt (q_rb ps) (rm_rb m)) (dflt (q_fm ps) (rm_fm m)) (dflt (q_dm ps) (rm_dm m)).
Ltac inb := let u := fresh in let H := fresh in intros u H; cbn [In] in H; repeat (destruct H as [<-|H]; [cbn; tauto|]); contradiction.
Lemma rparams_ren : forall m ps, thermoParamReac convert (ren_rmeth m) ps = JOk (qstep ps m).
Proof.
  intros m ps; unfold thermoParamReac.
  rewrite (rvu_ren convert K _ _ (rm_lk m)) by (try apply f_rm_lk; inb).
  rewrite (rvu_ren convert K _ _ (rm_cp m)) by (try apply f_rm_cp; inb).
  rewrite (rvu_ren convert K _ _ (rm_v m)) by (try apply f_rm_v; inb).
  rewrite (rvu_ren convert K _ _ (rm_rb m)) by (try apply f_rm_rb; inb).
  rewrite (rvu_ren convert K _ _ (rm_fm m)) by (try apply f_rm_fm; inb).
  rewrite (rvu_ren convert K _ _ (rm_dm m)) by (try apply f_rm_dm; inb).
  reflexivity.
Qed.
Definition rmstep (m : meths) (z : Z) : meths := setM (r_method z) m.
Lemma rmethods_run : forall l ks, rkeyed l ks -> forall ps s,
  methodsR convert (map ren_rmeth l) ps s = (set_rmeth (fun m => fold_left rmstep ks m) s, JOk (fold_left qstep l ps)).
Proof.
  intros l ks F; induction F as [|m z l ks E F IH]; intros ps s.
  - cbn [map methodsR fold_left]; unfold ret; destruct s; reflexivity.
  - cbn [map methodsR]; rewrite f_rm_method.
    replace (usable (ren_key (rm_key m, rm_name m))) with true by reflexivity.
    rewrite (key_int_ren (rm_key m, rm_name m) z E), bindu.
    replace (first_value (ren_key (rm_key m, rm_name m))) with (JOk (rm_name m)) by reflexivity.
    rewrite bindu, sequ, rparams_ren, bindu, IH; cbn [fold_left]; destruct s; reflexivity.
Qed.
Lemma fold_rmstep : forall xs m, fold_left (fun m x => setM x m) xs m =
  mkMe (if existsb (fun y => match in_cat GenEoS y with Some _ => true | None => false end) xs then last_in GenEoS xs else mG m)
       (if existsb (fun y => match in_cat CorrT y with Some _ => true | None => false end) xs then last_in CorrT xs else mT m)
       (if existsb (fun y => match in_cat CorrP y with Some _ => true | None => false end) xs then last_in CorrP xs else mP m).
Proof.
  induction xs as [|x xs IH]; intros m; cbn [fold_left map existsb last_in]; [destruct m; reflexivity|].
  rewrite IH; unfold setM; destruct x as [[[| |] c]|]; cbn [in_cat orb mG mT mP];
    repeat match goal with |- context [existsb ?f ?l] => destruct (existsb f l) end; reflexivity.
Qed.
Lemma fold_rmstep0 : forall ks, fold_left rmstep ks (mkMe 0 0 0) = mkMe (last_in GenEoS (map r_method ks)) (last_in CorrT (map r_method ks)) (last_in CorrP (map r_method ks)).
Proof.
  intros ks. assert (E : forall m, fold_left rmstep ks m = fold_left (fun m x => setM x m) (map r_method ks) m) by (induction ks as [|k ks IH]; intros m; [reflexivity|cbn [fold_left map]; apply IH]).
  rewrite E, fold_rmstep; cbn [mG mT mP].
  assert (Z : forall c xs, existsb (fun y => match in_cat c y with Some _ => true | None => false end) xs = false -> last_in c xs = 0%Z).
  { intros c; induction xs as [|x xs IH]; intros Q; [reflexivity|]; cbn [existsb last_in] in *; apply orb_false_iff in Q; destruct Q as [Q1 Q2].
    destruct (in_cat c x); [discriminate Q1|]; apply IH, Q2. }
  f_equal; match goal with |- (if existsb ?f ?l then _ else _) = _ => destruct (existsb f l) eqn:Q end; try reflexivity; symmetry; apply Z, Q.
Qed.
Lemma fold_qstep : forall l ps, fold_left qstep l ps =
  mkPR (fold_left (fun a m => dflt a (rm_lk m)) l (q_lk ps)) (fold_left (fun a m => dflt a (rm_cp m)) l (q_cp ps)) (fold_left (fun a m => dflt a (rm_v m)) l (q_v ps))
       (fold_left (fun a m => dflt a (rm_rb m)) l (q_rb ps)) (fold_left (fun a m => dflt a (rm_fm m)) l (q_fm ps)) (fold_left (fun a m => dflt a (rm_dm m)) l (q_dm ps)).
Proof. induction l as [|m l IH]; intros ps; [destruct ps; reflexivity|]; cbn [fold_left]; rewrite IH; reflexivity. Qed.
Definition set_rpar (p : rparams) (r : reac) : reac :=
  mkRe (r_name r) (r_symbol r) (r_equation r) (r_reactants r) (r_lowT r) (r_upT r) (r_Tr r) (r_Pr r) (r_meth r) p (r_refs r).
Lemma rtp_run : forall r ks T (m : M reac T) s, rmeth_ok r ks ->
  seqM (match given (ren_reac r) "TPMethods" with
        | Some ms => bind (methodsR convert (elems ms) rparams0) (fun p => upd (fun r => mkRe (r_name r) (r_symbol r) (r_equation r) (r_reactants r) (r_lowT r) (r_upT r) (r_Tr r) (r_Pr r) (r_meth r) p (r_refs r)))
        | None => ret tt end) m s =
  m (ostep (fun l => l) (fun l s => set_rpar (rpar_of l) (set_rmeth (fun m => fold_left rmstep ks m) s)) (rr_meth r) s).
Proof.
  intros r ks T m s H; rewrite (given_map _ (fun l => JArr (map ren_rmeth l)) _ _ (rr_meth r)) by (try apply f_rr_meth; reflexivity).
  unfold rmeth_ok in H; destruct (rr_meth r) as [l|]; cbn [option_map]; [|reflexivity].
  unfold seqM; cbn [elems]; unfold bind at 1; unfold bind at 1; rewrite (rmethods_run l ks H), fold_qstep; reflexivity.
Qed.
Lemma rlim_run : forall (o : option (option R * option R)) j T (m : M reac T) (u v : R -> reac -> reac) s, field j "limitsTP" = option_map ren_lim o ->
  seqM (match given j "limitsTP" with Some l => seqM (opt l "lowerT" get_double u) (opt l "upperT" get_double v) | None => ret tt end) m s =
  m (ostep (fun a => a) v (upp o) (ostep (fun a => a) u (low o) s)).
Proof.
  intros o j T m u v s E; rewrite (given_map _ ren_lim _ _ o) by (try exact E; reflexivity).
  destruct o as [[a b]|]; cbn [option_map low upp]; [|reflexivity].
  unfold seqM at 1; unfold bind at 1.
  rewrite (opt_run _ _ _ JNum (fun a => a) _ _ _ _ a) by (try apply f_lim_lo; reflexivity).
  rewrite (opt_run1 _ _ _ JNum (fun a => a) _ _ _ _ b) by (try apply f_lim_up; reflexivity); reflexivity.
Qed.
Lemma rrefs_ren : forall r k a b c d e, reads3 convert "1" (rr_lK r) k -> reads3 convert "J/K/mol" (rr_Cp r) a -> reads3 convert "J/mol" (rr_G r) b -> reads3 convert "J/mol" (rr_H r) c ->
  reads3 convert "J/K/mol" (rr_S r) d -> reads3 convert "J/bar" (rr_V r) e -> thermoRefPropReac convert (ren_reac r) = JOk (mkRR k a b c d e).
Proof.
  intros r k a b c d e Q A B C D E; unfold thermoRefPropReac.
  rewrite (refProp_ren _ _ _ _ (rr_lK r) k (f_rr_lK r) Q), (refProp_ren _ _ _ _ (rr_Cp r) a (f_rr_Cp r) A), (refProp_ren _ _ _ _ (rr_G r) b (f_rr_G r) B), (refProp_ren _ _ _ _ (rr_H r) c (f_rr_H r) C),
    (refProp_ren _ _ _ _ (rr_S r) d (f_rr_S r) D), (refProp_ren _ _ _ _ (rr_V r) e (f_rr_V r) E); reflexivity.
Qed.
Definition entries (l : list (string * R)) : rmap := fold_left (fun m p => rset (fst p) (snd p) m) l [].
Theorem reaction_read : forall r ks k a b h d v,
  rmeth_ok r ks ->
  reads3 convert "1" (rr_lK r) k -> reads3 convert "J/K/mol" (rr_Cp r) a -> reads3 convert "J/mol" (rr_G r) b -> reads3 convert "J/mol" (rr_H r) h ->
  reads3 convert "J/K/mol" (rr_S r) d -> reads3 convert "J/bar" (rr_V r) v ->
  exists s, parseReaction convert fromEquation (ren_reac r) = JOk s /\
  (r_name s = dflt "" (rr_name r) /\ r_symbol s = dflt "" (rr_symbol r) /\ r_equation s = dflt "" (rr_equation r)) /\
  (r_lowT s = dflt 0 (low (rr_lim r)) /\ r_upT s = dflt 0 (upp (rr_lim r)) /\ r_Tr s = dflt (29815 / 100) (rr_Tr r) /\ r_Pr s = dflt 100000 (rr_Pr r)) /\
  match rr_reactants r with
  | Some l => NoDup (map fst (r_reactants s)) /\ forall q, look q (r_reactants s) = last_entry q l
  | None => r_reactants s = match rr_equation r with Some e => fromEquation e | None => [] end
  end /\
  r_refs s = Some (mkRR k a b h d v) /\
  r_meth s = mkMe (last_in GenEoS (map r_method ks)) (last_in CorrT (map r_method ks)) (last_in CorrP (map r_method ks)) /\
  r_par s = rpar_of (dflt [] (rr_meth r)).
Proof.
  intros r ks k a b h d v Ht Rk Ra Rb Rh Rd Rv; unfold parseReaction; rewrite f_rr_body; unfold parseReactionM.
  rewrite (opt_run _ _ _ JStr (fun a => a) _ _ _ _ (rr_name r)) by (try apply f_rr_name; reflexivity).
  rewrite (opt_run _ _ _ JStr (fun a => a) _ _ _ _ (rr_symbol r)) by (try apply f_rr_symbol; reflexivity).
  rewrite (opt_run _ _ _ JStr (fun a => a) _ _ _ _ (rr_equation r)) by (try apply f_rr_equation; reflexivity).
  rewrite (rlim_run (rr_lim r)) by apply f_rr_lim.
  rewrite (opt_run _ _ _ JNum (fun a => a) _ _ _ _ (rr_Tr r)) by (try apply f_rr_Tr; reflexivity).
  rewrite (opt_run _ _ _ JNum (fun a => a) _ _ _ _ (rr_Pr r)) by (try apply f_rr_Pr; reflexivity).
  rewrite (opt_run _ _ _ (fun l => JArr (map ren_reactant l)) entries _ _ _ _ (rr_reactants r)) by (try apply f_rr_reactants; try reflexivity; intros; apply reactants_run).
  rewrite (rtp_run r ks) by exact Ht.
  rewrite (rrefs_ren r k a b h d v Rk Ra Rb Rh Rd Rv), bindu.
  match goal with |- exists e, caught (upd ?u ?s) = _ /\ _ => exists (ap u s); split; [apply upd_end|] end.
  Ltac rhit P w := thru P; rewrite (ostep_hit _ _ _ _ P) with (v := w) by reflexivity; thru P.
  split; [|split; [|split; [|split; [|split]]]].
  - repeat split.
    + rhit r_name (fun a : string => a); reflexivity.
    + rhit r_symbol (fun a : string => a); reflexivity.
    + rhit r_equation (fun a : string => a); reflexivity.
  - repeat split.
    + rhit r_lowT (fun a : R => a); reflexivity.
    + rhit r_upT (fun a : R => a); reflexivity.
    + rhit r_Tr (fun a : R => a); reflexivity.
    + rhit r_Pr (fun a : R => a); reflexivity.
  - thru r_reactants; rewrite (ostep_hit _ _ _ _ r_reactants) with (v := entries) by reflexivity; thru r_reactants.
    destruct (rr_reactants r) as [l|].
    + split; [apply fold_nodup; constructor|]; intros q; unfold entries; rewrite fold_look; destruct (last_entry q l); reflexivity.
    + rewrite (ostep_hit _ _ _ _ r_reactants) with (v := fromEquation) by reflexivity; thru r_reactants; reflexivity.
  - apply (ap_hit _ _ r_refs); reflexivity.
  - rewrite <- fold_rmstep0; thru r_meth.
    rewrite (ostep_val _ _ _ _ r_meth) with (v := fun (_ : list rmrec) m => fold_left rmstep ks m) by reflexivity; thru r_meth.
    unfold rmeth_ok in Ht; destruct (rr_meth r) as [l|]; [reflexivity|rewrite Ht; reflexivity].
  - thru r_par; rewrite (ostep_hit _ _ _ _ r_par) with (v := rpar_of) by reflexivity; thru r_par.
    destruct (rr_meth r); reflexivity.
Qed.
End P.
