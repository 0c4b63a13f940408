(** Reading of JSON records: every member of a record goes where it should. *)
From Coq Require Import List Bool Reals Lra String Ascii ZArith.
From Verif Require Import UnitsModel JsonModel JsonSpec.
Import ListNotations.
Open Scope R_scope.
Open Scope string_scope.

Lemma assoc_skip : forall k k' o l, String.eqb k k' = false -> assoc k (mem k' o ++ l)%list = assoc k l.
Proof. intros k k' [v|] l E; cbn [mem List.app assoc]; [rewrite E|]; reflexivity. Qed.
Lemma assoc_hit : forall k o l, assoc k (mem k o ++ l)%list = match o with Some v => Some v | None => assoc k l end.
Proof. intros k [v|] l; cbn [mem List.app assoc]; [rewrite String.eqb_refl|]; reflexivity. Qed.
Lemma assoc_last : forall k o, assoc k (mem k o) = o.
Proof. intros k [v|]; cbn [mem List.app assoc]; [rewrite String.eqb_refl|]; reflexivity. Qed.
Lemma assoc_lastn : forall k k' o, String.eqb k k' = false -> assoc k (mem k' o) = None.
Proof. intros k k' [v|] E; cbn [mem List.app assoc]; [rewrite E|]; reflexivity. Qed.
Lemma assoc_skip1 : forall k k' v l, String.eqb k k' = false -> assoc k ([(k', v)] ++ l)%list = assoc k l.
Proof. intros k k' v l E; cbn [List.app assoc]; rewrite E; reflexivity. Qed.
Lemma assoc_skip1' : forall k k' v, String.eqb k k' = false -> assoc k [(k', v)] = None.
Proof. intros k k' v E; cbn [assoc]; rewrite E; reflexivity. Qed.
Ltac jlook := repeat first [rewrite assoc_skip by reflexivity | rewrite assoc_hit | rewrite assoc_last | rewrite assoc_lastn by reflexivity | rewrite assoc_skip1 by reflexivity | rewrite assoc_skip1' by reflexivity].

Lemma f_er_M : forall r, field (ren_elem r) "atomic_mass" = option_map ren_num (er_M r).
Proof. intros r; unfold ren_elem; cbn [field]; jlook; destruct (er_M r); reflexivity. Qed.
Lemma f_er_class : forall r, field (ren_elem r) "class_" = option_map ren_key (er_class r).
Proof. intros r; unfold ren_elem; cbn [field]; jlook; destruct (er_class r); reflexivity. Qed.
Lemma f_er_S : forall r, field (ren_elem r) "entropy" = option_map ren_num (er_S r).
Proof. intros r; unfold ren_elem; cbn [field]; jlook; destruct (er_S r); reflexivity. Qed.
Lemma f_er_Cp : forall r, field (ren_elem r) "heat_capacity" = option_map ren_num (er_Cp r).
Proof. intros r; unfold ren_elem; cbn [field]; jlook; destruct (er_Cp r); reflexivity. Qed.
Lemma f_er_iso : forall r, field (ren_elem r) "isotope_mass" = option_map ren_int (er_iso r).
Proof. intros r; unfold ren_elem; cbn [field]; jlook; destruct (er_iso r); reflexivity. Qed.
Lemma f_er_name : forall r, field (ren_elem r) "name" = option_map JStr (er_name r).
Proof. intros r; unfold ren_elem; cbn [field]; jlook; destruct (er_name r); reflexivity. Qed.
Lemma f_er_number : forall r, field (ren_elem r) "number" = option_map ren_int (er_number r).
Proof. intros r; unfold ren_elem; cbn [field]; jlook; destruct (er_number r); reflexivity. Qed.
Lemma f_er_symbol : forall r, field (ren_elem r) "symbol" = option_map JStr (er_symbol r).
Proof. intros r; unfold ren_elem; cbn [field]; jlook; destruct (er_symbol r); reflexivity. Qed.
Lemma f_er_V : forall r, field (ren_elem r) "volume" = option_map ren_num (er_V r).
Proof. intros r; unfold ren_elem; cbn [field]; jlook; destruct (er_V r); reflexivity. Qed.
Lemma f_er_body : forall r, body (ren_elem r) = ren_elem r.
Proof. intros r; unfold body, given; replace (field (ren_elem r) "properties") with (@None json); [reflexivity|]; unfold ren_elem; cbn [field]; jlook; reflexivity. Qed.
Lemma f_sr_Pr : forall r, field (ren_subst r) "Pst" = option_map JNum (sr_Pr r).
Proof. intros r; unfold ren_subst; cbn [field]; jlook; destruct (sr_Pr r); reflexivity. Qed.
Lemma f_sr_meth : forall r, field (ren_subst r) "TPMethods" = option_map (fun l => JArr (map ren_meth l)) (sr_meth r).
Proof. intros r; unfold ren_subst; cbn [field]; jlook; destruct (sr_meth r); reflexivity. Qed.
Lemma f_sr_Tr : forall r, field (ren_subst r) "Tst" = option_map JNum (sr_Tr r).
Proof. intros r; unfold ren_subst; cbn [field]; jlook; destruct (sr_Tr r); reflexivity. Qed.
Lemma f_sr_agg : forall r, field (ren_subst r) "aggregate_state" = option_map ren_key (sr_agg r).
Proof. intros r; unfold ren_subst; cbn [field]; jlook; destruct (sr_agg r); reflexivity. Qed.
Lemma f_sr_class : forall r, field (ren_subst r) "class_" = option_map ren_key (sr_class r).
Proof. intros r; unfold ren_subst; cbn [field]; jlook; destruct (sr_class r); reflexivity. Qed.
Lemma f_sr_formula : forall r, field (ren_subst r) "formula" = option_map JStr (sr_formula r).
Proof. intros r; unfold ren_subst; cbn [field]; jlook; destruct (sr_formula r); reflexivity. Qed.
Lemma f_sr_charge : forall r, field (ren_subst r) "formula_charge" = option_map ren_int (sr_charge r).
Proof. intros r; unfold ren_subst; cbn [field]; jlook; destruct (sr_charge r); reflexivity. Qed.
Lemma f_sr_lim : forall r, field (ren_subst r) "limitsTP" = option_map ren_lim (sr_lim r).
Proof. intros r; unfold ren_subst; cbn [field]; jlook; destruct (sr_lim r); reflexivity. Qed.
Lemma f_sr_comp : forall r, field (ren_subst r) "m_compressibility" = option_map ren_num (sr_comp r).
Proof. intros r; unfold ren_subst; cbn [field]; jlook; destruct (sr_comp r); reflexivity. Qed.
Lemma f_sr_exp : forall r, field (ren_subst r) "m_expansivity" = option_map ren_num (sr_exp r).
Proof. intros r; unfold ren_subst; cbn [field]; jlook; destruct (sr_exp r); reflexivity. Qed.
Lemma f_sr_mass : forall r, field (ren_subst r) "mass_per_mole" = option_map ren_num (sr_mass r).
Proof. intros r; unfold ren_subst; cbn [field]; jlook; destruct (sr_mass r); reflexivity. Qed.
Lemma f_sr_name : forall r, field (ren_subst r) "name" = option_map JStr (sr_name r).
Proof. intros r; unfold ren_subst; cbn [field]; jlook; destruct (sr_name r); reflexivity. Qed.
Lemma f_sr_reaction : forall r, field (ren_subst r) "reaction" = option_map JStr (sr_reaction r).
Proof. intros r; unfold ren_subst; cbn [field]; jlook; destruct (sr_reaction r); reflexivity. Qed.
Lemma f_sr_H : forall r, field (ren_subst r) "sm_enthalpy" = option_map ren_num (sr_H r).
Proof. intros r; unfold ren_subst; cbn [field]; jlook; destruct (sr_H r); reflexivity. Qed.
Lemma f_sr_S : forall r, field (ren_subst r) "sm_entropy_abs" = option_map ren_num (sr_S r).
Proof. intros r; unfold ren_subst; cbn [field]; jlook; destruct (sr_S r); reflexivity. Qed.
Lemma f_sr_G : forall r, field (ren_subst r) "sm_gibbs_energy" = option_map ren_num (sr_G r).
Proof. intros r; unfold ren_subst; cbn [field]; jlook; destruct (sr_G r); reflexivity. Qed.
Lemma f_sr_Cp : forall r, field (ren_subst r) "sm_heat_capacity_p" = option_map ren_num (sr_Cp r).
Proof. intros r; unfold ren_subst; cbn [field]; jlook; destruct (sr_Cp r); reflexivity. Qed.
Lemma f_sr_V : forall r, field (ren_subst r) "sm_volume" = option_map ren_num (sr_V r).
Proof. intros r; unfold ren_subst; cbn [field]; jlook; destruct (sr_V r); reflexivity. Qed.
Lemma f_sr_symbol : forall r, field (ren_subst r) "symbol" = option_map JStr (sr_symbol r).
Proof. intros r; unfold ren_subst; cbn [field]; jlook; destruct (sr_symbol r); reflexivity. Qed.
Lemma f_sr_body : forall r, body (ren_subst r) = ren_subst r.
Proof. intros r; unfold body, given; replace (field (ren_subst r) "properties") with (@None json); [reflexivity|]; unfold ren_subst; cbn [field]; jlook; reflexivity. Qed.
Lemma f_mr_ak : forall r, field (ren_meth r) "eos_akinfiev_diamond_coeffs" = option_map ren_list (mr_ak r).
Proof. intros r; unfold ren_meth; cbn [field]; jlook; destruct (mr_ak r); reflexivity. Qed.
Lemma f_mr_crit : forall r, field (ren_meth r) "eos_gas_crit_props" = option_map ren_list (mr_crit r).
Proof. intros r; unfold ren_meth; cbn [field]; jlook; destruct (mr_crit r); reflexivity. Qed.
Lemma f_mr_hkf : forall r, field (ren_meth r) "eos_hkf_coeffs" = option_map ren_list (mr_hkf r).
Proof. intros r; unfold ren_meth; cbn [field]; jlook; destruct (mr_hkf r); reflexivity. Qed.
Lemma f_mr_lim : forall r, field (ren_meth r) "limitsTP" = option_map ren_lim (mr_lim r).
Proof. intros r; unfold ren_meth; cbn [field]; jlook; destruct (mr_lim r); reflexivity. Qed.
Lemma f_mr_cp : forall r, field (ren_meth r) "m_heat_capacity_ft_coeffs" = option_map ren_list (mr_cp r).
Proof. intros r; unfold ren_meth; cbn [field]; jlook; destruct (mr_cp r); reflexivity. Qed.
Lemma f_mr_landau : forall r, field (ren_meth r) "m_landau_phase_trans_props" = option_map ren_list (mr_landau r).
Proof. intros r; unfold ren_meth; cbn [field]; jlook; destruct (mr_landau r); reflexivity. Qed.
Lemma f_mr_ph : forall r, field (ren_meth r) "m_phase_trans_props" = option_map ren_list (mr_ph r).
Proof. intros r; unfold ren_meth; cbn [field]; jlook; destruct (mr_ph r); reflexivity. Qed.
Lemma f_mr_hp : forall r, field (ren_meth r) "solute_holland_powell98_coeff" = option_map ren_list (mr_hp r).
Proof. intros r; unfold ren_meth; cbn [field]; jlook; destruct (mr_hp r); reflexivity. Qed.

Lemma f_mr_method : forall r, field (ren_meth r) "method" = Some (ren_key (mr_key r, mr_name r)).
Proof. intros r; unfold ren_meth; cbn [field]; jlook; reflexivity. Qed.
Lemma f_lim_lo : forall p, field (ren_lim p) "lowerT" = option_map JNum (fst p).
Proof. intros p; unfold ren_lim; cbn [field]; jlook; destruct (fst p); reflexivity. Qed.
Lemma f_lim_up : forall p, field (ren_lim p) "upperT" = option_map JNum (snd p).
Proof. intros p; unfold ren_lim; cbn [field]; jlook; destruct (snd p); reflexivity. Qed.
Lemma f_num_values : forall n, field (ren_num n) "values" = Some (one (JNum (n_val n))).
Proof. intros n; unfold ren_num; cbn [field]; jlook; reflexivity. Qed.
Lemma f_num_units : forall n, field (ren_num n) "units" = option_map (fun u => one (JStr u)) (n_unit n).
Proof. intros n; unfold ren_num; cbn [field]; jlook; destruct (n_unit n); reflexivity. Qed.
Lemma f_num_errors : forall n, field (ren_num n) "errors" = option_map (fun u => one (JNum u)) (n_err n).
Proof. intros n; unfold ren_num; cbn [field]; jlook; destruct (n_err n); reflexivity. Qed.

Definition solid (j : json) : Prop := is_null j = false.
Lemma given_map : forall A (f : A -> json) j k o, (forall a, is_null (f a) = false) -> field j k = option_map f o -> given j k = option_map f o.
Proof.
  intros A f j k o S E; unfold given; rewrite E; destruct o as [a|]; [|reflexivity]; cbn [option_map].
  generalize (S a); destruct (f a); intros Q; [discriminate Q| | | | |]; reflexivity.
Qed.
(** one step of a reader: kept folded, so that the state stays small *)
Definition ap {St : Type} (u : St -> St) (s : St) : St := u s.
Definition ostep {St A B : Type} (r : B -> A) (u : A -> St -> St) (o : option B) (s : St) : St := match o with Some a => u (r a) s | None => s end.
Lemma opt_run : forall St A B (f : B -> json) (r : B -> A) j k (g : json -> jres A) (u : A -> St -> St) o T (m : M St T) s,
  (forall a, is_null (f a) = false) -> (forall a, g (f a) = JOk (r a)) -> field j k = option_map f o ->
  seqM (opt j k g u) m s = m (ostep r u o s).
Proof.
  intros St A B f r j k g u o T m s S G E; unfold seqM, opt; rewrite (given_map _ _ _ _ _ S E).
  destruct o as [a|]; cbn [option_map]; unfold bind, lift, upd, ret; [rewrite G|]; reflexivity.
Qed.
Lemma opt_run1 : forall St A B (f : B -> json) (r : B -> A) j k (g : json -> jres A) (u : A -> St -> St) o s,
  (forall a, is_null (f a) = false) -> (forall a, g (f a) = JOk (r a)) -> field j k = option_map f o ->
  opt j k g u s = (ostep r u o s, JOk tt).
Proof.
  intros St A B f r j k g u o s S G E; unfold opt; rewrite (given_map _ _ _ _ _ S E).
  destruct o as [a|]; cbn [option_map]; unfold bind, lift, upd, ret; [rewrite G|]; reflexivity.
Qed.
Lemma ostep_pass : forall St A B X (P : St -> X) (r : B -> A) u o s, (forall a s, P (u a s) = P s) -> P (ostep r u o s) = P s.
Proof. intros St A B X P r u [a|] s H; [apply H|reflexivity]. Qed.
Lemma ostep_hit : forall St A B X (P : St -> X) (r : B -> A) u (o : option B) s (v : B -> X), (forall a s, P (u (r a) s) = v a) ->
  P (ostep r u o s) = match o with Some a => v a | None => P s end.
Proof. intros St A B X P r u [a|] s v H; [apply H|reflexivity]. Qed.
Lemma ap_pass : forall St X (P : St -> X) u s, (forall s, P (u s) = P s) -> P (ap u s) = P s.
Proof. intros St X P u s H; apply H. Qed.
Lemma ap_hit : forall St X (P : St -> X) u s v, (forall s, P (u s) = v) -> P (ap u s) = v.
Proof. intros St X P u s v H; apply H. Qed.
Lemma ap_val : forall St X (P : St -> X) u s (v : X -> X), (forall s, P (u s) = v (P s)) -> P (ap u s) = v (P s).
Proof. intros St X P u s v H; apply H. Qed.
Lemma ostep_val : forall St A B X (P : St -> X) (r : B -> A) u (o : option B) s (v : B -> X -> X), (forall a s, P (u (r a) s) = v a (P s)) ->
  P (ostep r u o s) = match o with Some a => v a (P s) | None => P s end.
Proof. intros St A B X P r u [a|] s v H; [apply H|reflexivity]. Qed.
Lemma upd_end : forall St (u : St -> St) s, caught (upd u s) = JOk (ap u s).
Proof. reflexivity. Qed.
Ltac thru P := repeat first [rewrite (ostep_pass _ _ _ _ P) by reflexivity | rewrite (ap_pass _ _ P) by reflexivity].
Lemma Int_part_Z : forall z, Int_part (IZR z) = z.
Proof. intros z; unfold Int_part; rewrite <- (tech_up (IZR z) (z + 1)); [ring| |]; rewrite plus_IZR; lra. Qed.
Lemma trunc_Z : forall z, trunc (IZR z) = z.
Proof. intros z; unfold trunc; destruct (Rle_dec 0 (IZR z)); [apply Int_part_Z|rewrite <- opp_IZR, Int_part_Z; apply Z.opp_involutive]. Qed.
Lemma get_ren_int : forall z, get_int (ren_int z) = JOk z.
Proof. intros z; unfold ren_int, get_int; rewrite trunc_Z; reflexivity. Qed.
Lemma key_int_ren : forall k z, stoi (fst k) = Some z -> key_int (ren_key k) = JOk z.
Proof. intros k z E; unfold key_int, ren_key, first_key, jbind, stoi_; rewrite E; reflexivity. Qed.

Section P.
Variable convert : R -> string -> string -> jres R.
Notation rd := (reads convert).

Lemma read_value_unit_ren : forall j k t o y v, field j k = option_map ren_num o -> k <> "m_expansivity" -> k <> "m_compressibility" ->
  rd t o y -> read_value_unit convert j k v t = JOk (orelse y v).
Proof.
  intros j k t o y v E N1 N2 D; unfold read_value_unit; rewrite E; destruct o as [n|]; cbn [option_map]; [|cbn in D; rewrite D; reflexivity].
  destruct D as (z & C & ->); unfold head_of; rewrite f_num_units, f_num_values; cbn [one].
  apply String.eqb_neq in N1; apply String.eqb_neq in N2; rewrite N1, N2; cbn [andb].
  destruct (n_unit n) as [u|]; cbn [option_map one is_null jbind get_string get_double dflt] in *; rewrite Rmult_1_r, C; reflexivity.
Qed.
Lemma refProp_ren : forall j k t o y, field j k = option_map ren_num o -> reads3 convert t o y -> refProp convert j k t = JOk y.
Proof.
  intros j k t o y E D; unfold refProp, readValueErrorUnit; rewrite E; destruct o as [n|]; cbn [option_map]; [|cbn in D; rewrite D; reflexivity].
  destruct D as (z & e & C & -> & Q); unfold first_of; rewrite f_num_units, f_num_values, f_num_errors; cbn [one].
  destruct (n_unit n) as [u|]; cbn [option_map one is_null jbind get_string get_double dflt] in *; rewrite C; cbn [jbind];
    (destruct (n_err n) as [x|]; cbn [option_map one is_null jbind get_double]; [rewrite Q; reflexivity|rewrite Q; reflexivity]).
Qed.

(** ** elements *)
Lemma bindu : forall St A T (x : A) (f : A -> M St T) s, bind (lift (JOk x)) f s = f x s.
Proof. reflexivity. Qed.
Lemma sequ : forall St T (u : St -> St) (m : M St T) s, seqM (upd u) m s = m (ap u s).
Proof. reflexivity. Qed.
Lemma seqret : forall St T (m : M St T) s, seqM (ret tt) m s = m s.
Proof. reflexivity. Qed.
Lemma sequl : forall St A T (x : A) (u : A -> St -> St) (m : M St T) s, seqM (bind (lift (JOk x)) (fun a => upd (u a))) m s = m (ap (u x) s).
Proof. reflexivity. Qed.
Theorem element_read : forall r a b c d z,
  rd "J/(mol*K)" (er_S r) a -> rd "J/(mol*K)" (er_Cp r) b -> rd "g/mol" (er_M r) c -> rd "J/bar" (er_V r) d -> key_of (er_class r) z ->
  exists e, parseElement convert (ren_elem r) = JOk e /\
  e_name e = dflt "" (er_name r) /\ e_symbol e = dflt "" (er_symbol r) /\ e_number e = dflt 0%Z (er_number r) /\
  e_S e = a /\ e_Cp e = orelse b a /\ e_mass e = orelse c (orelse b a) /\ e_V e = orelse d (orelse c (orelse b a)) /\
  e_class e = z /\ e_iso e = dflt 0%Z (er_iso r).
Proof.
  intros r a b c d z A B C D K; unfold parseElement; rewrite f_er_body; unfold parseElementM.
  rewrite (opt_run _ _ _ JStr (fun a => a) _ _ _ _ (er_name r)) by (try apply f_er_name; reflexivity).
  rewrite (opt_run _ _ _ JStr (fun a => a) _ _ _ _ (er_symbol r)) by (try apply f_er_symbol; reflexivity).
  rewrite (opt_run _ _ _ ren_int (fun a => a) _ _ _ _ (er_number r)) by (try apply f_er_number; try apply get_ren_int; reflexivity).
  assert (O : forall y : option R, orelse y None = y) by (intros [y|]; reflexivity).
  rewrite (read_value_unit_ren _ _ _ (er_S r) a None) by (try apply f_er_S; try discriminate; exact A); rewrite bindu, sequ, O.
  rewrite (read_value_unit_ren _ _ _ (er_Cp r) b _) by (try apply f_er_Cp; try discriminate; exact B); rewrite bindu, sequ.
  rewrite (read_value_unit_ren _ _ _ (er_M r) c _) by (try apply f_er_M; try discriminate; exact C); rewrite bindu, sequ.
  rewrite (read_value_unit_ren _ _ _ (er_V r) d _) by (try apply f_er_V; try discriminate; exact D); rewrite bindu, sequ.
  match goal with |- exists e, caught (seqM ?x ?m ?s) = _ /\ _ =>
    assert (Q : seqM x m s = m (ap (fun e => mkEl (e_name e) (e_symbol e) (e_number e) (e_S e) (e_Cp e) (e_mass e) (e_V e) (match er_class r with Some _ => z | None => e_class e end) (e_iso e)) s))
  end.
  { rewrite f_er_class; destruct (er_class r) as [k|]; cbn [option_map key_of] in *.
    - unfold ren_key at 1; fold (ren_key k); rewrite (key_int_ren k z K). apply (sequl elem Z unit z).
    - rewrite seqret; reflexivity. }
  rewrite Q; clear Q.
  rewrite (opt_run1 _ _ _ ren_int (fun a => a) _ _ _ _ (er_iso r)) by (try apply f_er_iso; try apply get_ren_int; reflexivity).
  eexists; split; [reflexivity|].
  split; [thru e_name; rewrite (ostep_hit _ _ _ _ e_name) with (v := fun a => a) by reflexivity; reflexivity|].
  split; [thru e_symbol; rewrite (ostep_hit _ _ _ _ e_symbol) with (v := fun a => a) by reflexivity; thru e_symbol; reflexivity|].
  split; [thru e_number; rewrite (ostep_hit _ _ _ _ e_number) with (v := fun a => a) by reflexivity; thru e_number; reflexivity|].
  split; [thru e_S; apply (ap_hit _ _ e_S); reflexivity|].
  split; [thru e_Cp; apply (ap_hit _ _ e_Cp); reflexivity|].
  split; [thru e_mass; apply (ap_hit _ _ e_mass); reflexivity|].
  split; [thru e_V; apply (ap_hit _ _ e_V); reflexivity|].
  split.
  - rewrite (ostep_pass _ _ _ _ e_class) by reflexivity; unfold ap at 1; cbn [e_class]; destruct (er_class r) as [k|]; cbn [key_of] in K; [reflexivity|thru e_class; rewrite K; reflexivity].
  - rewrite (ostep_hit _ _ _ _ e_iso) with (v := fun a => a) by reflexivity; thru e_iso; reflexivity.
Qed.

(** ** methods and their coefficients *)
Hypothesis K : keeps convert.
Lemma get_list_num : forall l, get_list get_double (map JNum l) = JOk l.
Proof. induction l as [|x l IH]; [reflexivity|]; cbn [map get_list jbind get_double]; rewrite IH; reflexivity. Qed.
Lemma convert_keep : forall to, (forall u, In u to -> In u builtin) -> forall vs i, convert_values convert vs i to to = JOk vs.
Proof.
  intros to I; induction vs as [|v vs IH]; intros i; [reflexivity|]; cbn [convert_values].
  assert (E : convert v (fst (pair_units (unit_at to i) (unit_at to i))) (snd (pair_units (unit_at to i) (unit_at to i))) = JOk v).
  { unfold pair_units; destruct (String.eqb (unit_at to i) "") eqn:Z; cbn [orb]; [rewrite Z; cbn [orb fst snd]; apply K; left; reflexivity|].
    rewrite Z; cbn [orb fst snd]; apply K; unfold unit_at in *.
    destruct (nth_in_or_default i to "") as [Q|Q]; [exact (I _ Q)|rewrite Q in Z; discriminate Z]. }
  rewrite E; cbn [jbind]; rewrite IH; reflexivity.
Qed.
Lemma rvu_ren : forall j k o vs to, (forall u, In u to -> In u builtin) -> field j k = option_map ren_list o -> read_values_units convert j k vs to = JOk (dflt vs o).
Proof.
  intros j k o vs to I E; unfold read_values_units; rewrite E; destruct o as [l|]; [|reflexivity]; cbn [option_map].
  replace (field (ren_list l) "units") with (@None json) by reflexivity; replace (field (ren_list l) "values") with (Some (JArr (map JNum l))) by reflexivity.
  cbn [jbind]; rewrite get_list_num; cbn [jbind dflt]; apply convert_keep, I.
Qed.
Lemma limits_ren : forall m, limits (ren_meth m) = JOk (lim_list (mr_lim m)).
Proof.
  intros m; unfold limits, limit; rewrite f_mr_lim; destruct (mr_lim m) as [[a b]|]; cbn [option_map]; [|reflexivity].
  unfold given; rewrite f_lim_lo, f_lim_up; destruct a, b; reflexivity.
Qed.
Definition pstep (ps : sparams) (m : mrec) : sparams :=
  mkPS (dflt (p_ak ps) (mr_ak m)) (dflt (p_crit ps) (mr_crit m)) (dflt (p_hkf ps) (mr_hkf m))
       (p_int ps ++ if String.eqb (mr_name m) "cp_ft_equation" then [lim_list (mr_lim m)] else [])%list
       (push (dflt [] (mr_cp m)) (p_cp ps)) (push (dflt [] (mr_ph m)) (p_ph ps)) (dflt (p_landau ps) (mr_landau m)) (dflt (p_hp ps) (mr_hp m)) (p_exp ps) (p_comp ps).
Ltac inb := let u := fresh in let H := fresh in intros u H; cbn [u_ak u_crit u_hkf u_cp u_ph In] in H; repeat (destruct H as [<-|H]; [cbn; tauto|]); contradiction.
Lemma params_ren : forall m ps, thermoParamSubst convert (ren_meth m) (mr_name m) ps = JOk (pstep ps m).
Proof.
  intros m ps; unfold thermoParamSubst.
  rewrite (rvu_ren _ _ (mr_ak m)) by (try apply f_mr_ak; inb); cbn [jbind].
  rewrite (rvu_ren _ _ (mr_crit m)) by (try apply f_mr_crit; inb); cbn [jbind].
  rewrite (rvu_ren _ _ (mr_hkf m)) by (try apply f_mr_hkf; inb); cbn [jbind].
  rewrite limits_ren.
  rewrite (rvu_ren _ _ (mr_cp m)) by (try apply f_mr_cp; inb).
  rewrite (rvu_ren _ _ (mr_ph m)) by (try apply f_mr_ph; inb).
  rewrite (rvu_ren _ _ (mr_landau m)) by (try apply f_mr_landau; inb).
  rewrite (rvu_ren _ _ (mr_hp m)) by (try apply f_mr_hp; inb).
  unfold pstep; destruct (String.eqb (mr_name m) "cp_ft_equation"); cbn [jbind]; [reflexivity|]; rewrite app_nil_r; reflexivity.
Qed.
Definition mstep (m : meths) (z : Z) : meths := setM (s_method z) m.
Lemma set_meth_id : forall s, set_meth (fun m => m) s = s.
Proof. intros []; reflexivity. Qed.
Lemma methods_run : forall l ks, keyed l ks -> forall ps s,
  methodsS convert (map ren_meth l) ps s = (set_meth (fun m => fold_left mstep ks m) s, JOk (fold_left pstep l ps)).
Proof.
  intros l ks F; induction F as [|m z l ks E F IH]; intros ps s.
  - cbn [map methodsS fold_left]; unfold ret; rewrite set_meth_id; reflexivity.
  - cbn [map methodsS]; rewrite f_mr_method.
    replace (usable (ren_key (mr_key m, mr_name m))) with true by reflexivity.
    rewrite (key_int_ren (mr_key m, mr_name m) z E), bindu.
    replace (first_value (ren_key (mr_key m, mr_name m))) with (JOk (mr_name m)) by reflexivity.
    rewrite bindu, sequ, params_ren, bindu, IH; cbn [fold_left]; destruct s; reflexivity.
Qed.
Lemma fold_mstep : forall ks m, fold_left mstep ks m =
  mkMe (if existsb (fun y => match in_cat GenEoS y with Some _ => true | None => false end) (map s_method ks) then last_in GenEoS (map s_method ks) else mG m)
       (if existsb (fun y => match in_cat CorrT y with Some _ => true | None => false end) (map s_method ks) then last_in CorrT (map s_method ks) else mT m)
       (if existsb (fun y => match in_cat CorrP y with Some _ => true | None => false end) (map s_method ks) then last_in CorrP (map s_method ks) else mP m).
Proof.
  induction ks as [|z ks IH]; intros m; cbn [fold_left map existsb last_in]; [destruct m; reflexivity|].
  rewrite IH; unfold mstep, setM; destruct (s_method z) as [[[| |] c]|]; cbn [in_cat orb mG mT mP];
    repeat match goal with |- context [existsb ?f ?l] => destruct (existsb f l) end; reflexivity.
Qed.
Lemma fold_mstep0 : forall ks, fold_left mstep ks (mkMe 0 0 0) = mkMe (last_in GenEoS (map s_method ks)) (last_in CorrT (map s_method ks)) (last_in CorrP (map s_method ks)).
Proof.
  intros ks; rewrite fold_mstep; cbn [mG mT mP].
  assert (Z : forall c xs, existsb (fun y => match in_cat c y with Some _ => true | None => false end) xs = false -> last_in c xs = 0%Z).
  { intros c; induction xs as [|x xs IH]; intros Q; [reflexivity|]; cbn [existsb last_in] in *; apply orb_false_iff in Q; destruct Q as [Q1 Q2].
    destruct (in_cat c x); [discriminate Q1|]; apply IH, Q2. }
  f_equal; match goal with |- (if existsb ?f ?l then _ else _) = _ => destruct (existsb f l) eqn:Q end; try reflexivity; symmetry; apply Z, Q.
Qed.
Lemma push_one : forall o l, push (dflt [] o) l = (l ++ match o with Some (x :: r) => [x :: r] | _ => [] end)%list.
Proof. intros [[|x r]|] l; cbn [dflt push]; try rewrite app_nil_r; reflexivity. Qed.
Lemma fold_pstep : forall l ps, fold_left pstep l ps =
  mkPS (fold_left (fun a m => dflt a (mr_ak m)) l (p_ak ps)) (fold_left (fun a m => dflt a (mr_crit m)) l (p_crit ps)) (fold_left (fun a m => dflt a (mr_hkf m)) l (p_hkf ps))
       (p_int ps ++ all_ints l)%list (p_cp ps ++ all_lists mr_cp l)%list (p_ph ps ++ all_lists mr_ph l)%list
       (fold_left (fun a m => dflt a (mr_landau m)) l (p_landau ps)) (fold_left (fun a m => dflt a (mr_hp m)) l (p_hp ps)) (p_exp ps) (p_comp ps).
Proof.
  induction l as [|m l IH]; intros ps.
  - cbn [fold_left all_ints all_lists flat_map]; rewrite !app_nil_r; destruct ps; reflexivity.
  - cbn [fold_left]; rewrite IH; unfold pstep; cbn [p_ak p_crit p_hkf p_int p_cp p_ph p_landau p_hp p_exp p_comp].
    unfold all_ints, all_lists; cbn [flat_map]; rewrite !push_one, <- !app_assoc; reflexivity.
Qed.

(** ** substances *)
Lemma read_exp_ren : forall j o y v, field j "m_expansivity" = option_map ren_num o -> unitless_hack "kbar" o ->
  rd "1/K" o y -> read_value_unit convert j "m_expansivity" v "1/K" = JOk (orelse y v).
Proof.
  intros j o y v E N D; unfold read_value_unit; rewrite E; destruct o as [n|]; cbn [option_map]; [|cbn in D; rewrite D; reflexivity].
  destruct D as (z & C & ->); unfold head_of; rewrite f_num_units, f_num_values; cbn [one]; cbn [unitless_hack] in N.
  destruct (n_unit n) as [u|]; cbn [option_map one is_null jbind get_string get_double dflt] in *.
  - assert (N' : String.eqb u "kbar" = false) by (apply String.eqb_neq; intros ->; apply N; reflexivity).
    rewrite N'; change (String.eqb "m_expansivity" "m_expansivity") with true; change (String.eqb "m_expansivity" "m_compressibility") with false; cbn [andb].
    rewrite Rmult_1_r, C; reflexivity.
  - change (String.eqb "m_expansivity" "m_expansivity" && String.eqb "1/K" "kbar")%bool with false; change (String.eqb "m_expansivity" "m_compressibility") with false; cbn [andb].
    rewrite Rmult_1_r, C; reflexivity.
Qed.
Lemma read_comp_ren : forall j o y v, field j "m_compressibility" = option_map ren_num o -> unitless_hack "1e-05/K" o ->
  rd "kbar" o y -> read_value_unit convert j "m_compressibility" v "kbar" = JOk (orelse y v).
Proof.
  intros j o y v E N D; unfold read_value_unit; rewrite E; destruct o as [n|]; cbn [option_map]; [|cbn in D; rewrite D; reflexivity].
  destruct D as (z & C & ->); unfold head_of; rewrite f_num_units, f_num_values; cbn [one]; cbn [unitless_hack] in N.
  change (String.eqb "m_compressibility" "m_expansivity") with false; cbn [andb].
  destruct (n_unit n) as [u|]; cbn [option_map one is_null jbind get_string get_double dflt] in *.
  - assert (N' : String.eqb u "1e-05/K" = false) by (apply String.eqb_neq; intros ->; apply N; reflexivity).
    rewrite N'; change (String.eqb "m_compressibility" "m_compressibility") with true; cbn [andb].
    rewrite Rmult_1_r, C; reflexivity.
  - change (String.eqb "m_compressibility" "m_compressibility" && String.eqb "kbar" "1e-05/K")%bool with false; cbn [andb].
    rewrite Rmult_1_r, C; reflexivity.
Qed.
Lemma refs_ren : forall r a b c d e, reads3 convert "J/K/mol" (sr_Cp r) a -> reads3 convert "J/mol" (sr_G r) b -> reads3 convert "J/mol" (sr_H r) c ->
  reads3 convert "J/K/mol" (sr_S r) d -> reads3 convert "J/bar" (sr_V r) e -> thermoRefPropSubst convert (ren_subst r) = JOk (mkSR a b c d e).
Proof.
  intros r a b c d e A B C D E; unfold thermoRefPropSubst.
  rewrite (refProp_ren _ _ _ (sr_Cp r) a (f_sr_Cp r) A), (refProp_ren _ _ _ (sr_G r) b (f_sr_G r) B), (refProp_ren _ _ _ (sr_H r) c (f_sr_H r) C),
    (refProp_ren _ _ _ (sr_S r) d (f_sr_S r) D), (refProp_ren _ _ _ (sr_V r) e (f_sr_V r) E); reflexivity.
Qed.
Definition ustep (ks : list Z) (ps : sparams) (s : subst) : subst := set_par ps (set_meth (fun m => fold_left mstep ks m) s).
Lemma tp_run : forall r ks x c T (m : M subst T) s, meth_ok convert r ks x c ->
  seqM (match given (ren_subst r) "TPMethods" with Some ms => getTPMethodsS convert (ren_subst r) ms | None => ret tt end) m s =
  m (ostep (fun l => l) (fun l s => ustep ks (par_of l x c) s) (sr_meth r) s).
Proof.
  intros r ks x c T m s H; rewrite (given_map _ (fun l => JArr (map ren_meth l)) _ _ (sr_meth r)) by (try apply f_sr_meth; reflexivity).
  unfold meth_ok in H; destruct (sr_meth r) as [l|]; cbn [option_map]; [|reflexivity].
  destruct H as (F & N1 & N2 & D1 & D2); unfold getTPMethodsS, seqM; cbn [elems].
  unfold bind at 1; unfold bind at 1; rewrite (methods_run l ks F), (read_exp_ren _ _ x _ (f_sr_exp r) N1 D1), bindu, (read_comp_ren _ _ c _ (f_sr_comp r) N2 D2), bindu.
  unfold upd; rewrite fold_pstep; cbn [p_ak p_crit p_hkf p_int p_cp p_ph p_landau p_hp p_exp p_comp sparams0].
  assert (O : forall y : option R, orelse y None = y) by (intros [y|]; reflexivity); rewrite !O; reflexivity.
Qed.
Lemma key_run : forall (o : option (string * string)) j k z T (m : M subst T) (u : Z -> subst -> subst) s, field j k = option_map ren_key o -> key_of o z ->
  seqM (match given j k with Some x => if is_empty x then ret tt else bind (lift (key_int x)) (fun a => upd (u a)) | None => ret tt end) m s =
  m (ostep (fun _ => z) u o s).
Proof.
  intros o j k z T m u s E Q; rewrite (given_map _ ren_key _ _ o) by (try exact E; reflexivity).
  destruct o as [p|]; cbn [option_map key_of] in *; [|reflexivity].
  replace (is_empty (ren_key p)) with false by reflexivity; rewrite (key_int_ren p z Q); reflexivity.
Qed.
Lemma lim_run : forall (o : option (option R * option R)) j T (m : M subst T) (u v : R -> subst -> subst) s, field j "limitsTP" = option_map ren_lim o ->
  seqM (match given j "limitsTP" with Some l => seqM (opt l "lowerT" get_double u) (opt l "upperT" get_double v) | None => ret tt end) m s =
  m (ostep (fun a => a) v (upp o) (ostep (fun a => a) u (low o) s)).
Proof.
  intros o j T m u v s E; rewrite (given_map _ ren_lim _ _ o) by (try exact E; reflexivity).
  destruct o as [[a b]|]; cbn [option_map low upp]; [|reflexivity].
  unfold seqM at 1; unfold bind at 1.
  rewrite (opt_run _ _ _ JNum (fun a => a) _ _ _ _ a) by (try apply f_lim_lo; reflexivity).
  rewrite (opt_run1 _ _ _ JNum (fun a => a) _ _ _ _ b) by (try apply f_lim_up; reflexivity); reflexivity.
Qed.
Theorem substance_read : forall r ks mass ag cl x c a b h d v,
  rd "g/mol" (sr_mass r) mass -> key_of (sr_agg r) ag -> key_of (sr_class r) cl -> meth_ok convert r ks x c ->
  reads3 convert "J/K/mol" (sr_Cp r) a -> reads3 convert "J/mol" (sr_G r) b -> reads3 convert "J/mol" (sr_H r) h ->
  reads3 convert "J/K/mol" (sr_S r) d -> reads3 convert "J/bar" (sr_V r) v ->
  exists s, parseSubstance convert (ren_subst r) = JOk s /\
  (s_name s = dflt "" (sr_name r) /\ s_symbol s = dflt "" (sr_symbol r) /\ s_formula s = dflt "" (sr_formula r) /\ s_charge s = dflt 0%Z (sr_charge r) /\
   s_reaction s = dflt "" (sr_reaction r) /\ s_agg s = ag /\ s_class s = cl) /\
  (s_lowT s = dflt 0 (low (sr_lim r)) /\ s_upT s = dflt 0 (upp (sr_lim r)) /\ s_Tr s = dflt (29815 / 100) (sr_Tr r) /\ s_Pr s = dflt 100000 (sr_Pr r)) /\
  s_mass s = mass /\
  s_refs s = mkSR a b h d v /\
  s_meth s = mkMe (last_in GenEoS (map s_method ks)) (last_in CorrT (map s_method ks)) (last_in CorrP (map s_method ks)) /\
  s_par s = par_of (dflt [] (sr_meth r)) x c /\
  s_reacdc s = match sr_meth r, sr_reaction r with None, Some _ => true | _, _ => false end.
Proof.
  intros r ks mass ag cl x c a b h d v Hm Ha Hc Ht Ra Rb Rh Rd Rv; unfold parseSubstance; rewrite f_sr_body; unfold parseSubstanceM.
  rewrite (opt_run _ _ _ JStr (fun a => a) _ _ _ _ (sr_name r)) by (try apply f_sr_name; reflexivity).
  rewrite (opt_run _ _ _ JStr (fun a => a) _ _ _ _ (sr_symbol r)) by (try apply f_sr_symbol; reflexivity).
  rewrite (opt_run _ _ _ JStr (fun a => a) _ _ _ _ (sr_formula r)) by (try apply f_sr_formula; reflexivity).
  rewrite (opt_run _ _ _ ren_int (fun a => a) _ _ _ _ (sr_charge r)) by (try apply f_sr_charge; try apply get_ren_int; reflexivity).
  rewrite (opt_run _ _ _ JStr (fun a => a) _ _ _ _ (sr_reaction r)) by (try apply f_sr_reaction; reflexivity).
  rewrite (read_value_unit_ren _ _ _ (sr_mass r) mass None) by (try apply f_sr_mass; try discriminate; exact Hm); rewrite bindu, sequ.
  rewrite (key_run (sr_agg r) _ _ ag) by (try apply f_sr_agg; exact Ha).
  rewrite (key_run (sr_class r) _ _ cl) by (try apply f_sr_class; exact Hc).
  rewrite (lim_run (sr_lim r)) by apply f_sr_lim.
  rewrite (opt_run _ _ _ JNum (fun a => a) _ _ _ _ (sr_Tr r)) by (try apply f_sr_Tr; reflexivity).
  rewrite (opt_run _ _ _ JNum (fun a => a) _ _ _ _ (sr_Pr r)) by (try apply f_sr_Pr; reflexivity).
  rewrite (tp_run r ks x c) by exact Ht.
  match goal with |- exists e, caught (seqM ?t ?m ?s) = _ /\ _ =>
    assert (Q : seqM t m s = m (ap (fun q => mkSu (s_name q) (s_symbol q) (s_formula q) (s_charge q) (s_reaction q) (s_mass q) (s_agg q) (s_class q) (s_lowT q) (s_upT q) (s_Tr q) (s_Pr q) (s_meth q)
        (match sr_meth r, sr_reaction r with None, Some _ => true | _, _ => s_reacdc q end) (s_par q) (s_refs q)) s))
  end.
  { rewrite f_sr_meth, (given_map _ JStr _ _ (sr_reaction r)) by (try apply f_sr_reaction; reflexivity).
    match goal with |- seqM _ _ ?s = _ => generalize s; intros s0 end.
    destruct (sr_meth r), (sr_reaction r); cbn [option_map]; rewrite ?seqret, ?sequ; destruct s0; reflexivity. }
  rewrite Q; clear Q; rewrite (refs_ren r a b h d v Ra Rb Rh Rd Rv), bindu.
  match goal with |- exists e, caught (upd ?u ?s) = _ /\ _ => exists (ap u s); split; [apply upd_end|] end.
  Ltac hit P w := thru P; rewrite (ostep_hit _ _ _ _ P) with (v := w) by reflexivity; thru P.
  split; [|split; [|split; [|split; [|split; [|split]]]]].
  - repeat split.
    + hit s_name (fun a : string => a); reflexivity.
    + hit s_symbol (fun a : string => a); reflexivity.
    + hit s_formula (fun a : string => a); reflexivity.
    + hit s_charge (fun a : Z => a); reflexivity.
    + hit s_reaction (fun a : string => a); reflexivity.
    + hit s_agg (fun _ : string * string => ag); destruct (sr_agg r); [reflexivity|]; symmetry; exact Ha.
    + hit s_class (fun _ : string * string => cl); destruct (sr_class r); [reflexivity|]; symmetry; exact Hc.
  - repeat split.
    + hit s_lowT (fun a : R => a); reflexivity.
    + hit s_upT (fun a : R => a); reflexivity.
    + hit s_Tr (fun a : R => a); reflexivity.
    + hit s_Pr (fun a : R => a); reflexivity.
  - thru s_mass; rewrite (ap_hit _ _ s_mass) with (v := orelse mass None) by reflexivity; destruct mass; reflexivity.
  - apply (ap_hit _ _ s_refs); reflexivity.
  - rewrite <- fold_mstep0; thru s_meth.
    rewrite (ostep_val _ _ _ _ s_meth) with (v := fun (_ : list mrec) m => fold_left mstep ks m) by reflexivity; thru s_meth.
    unfold meth_ok in Ht; destruct (sr_meth r) as [l|]; [reflexivity|destruct Ht as (-> & _); reflexivity].
  - thru s_par; rewrite (ostep_hit _ _ _ _ s_par) with (v := fun l => par_of l x c) by reflexivity; thru s_par.
    unfold meth_ok in Ht; destruct (sr_meth r) as [l|]; [reflexivity|destruct Ht as (_ & -> & ->); reflexivity].
  - rewrite (ap_pass _ _ s_reacdc) by reflexivity.
    rewrite (ap_val _ _ s_reacdc) with (v := fun y => match sr_meth r, sr_reaction r with None, Some _ => true | _, _ => y end) by reflexivity.
    thru s_reacdc; destruct (sr_meth r) as [l|]; [|destruct (sr_reaction r)]; reflexivity.
Qed.
End P.
