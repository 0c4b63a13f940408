(** Reading of JSON records: null and unknown members, built-in units, coefficients, examples. *)
From Coq Require Import List Bool Reals Lra Lia String Ascii ZArith.
From Verif Require Import UnitsModel UnitsConv CpModel CpSpec CpProofs JsonModel JsonSpec JsonProofs JsonReac.
Import ListNotations.
Open Scope R_scope.
Open Scope string_scope.

(** ** only known members matter, and null counts as absent *)
Section A.
Variable convert : R -> string -> string -> jres R.
Variable fromEquation : string -> rmap.
Lemma given_same : forall j j' k, same_member j j' k -> given j k = given j' k.
Proof. intros j j' k [E|[E E']]; unfold given; [rewrite E|rewrite E, E']; reflexivity. Qed.
Lemma opt_same : forall St A j j' k (g : json -> jres A) (u : A -> St -> St), same_member j j' k -> opt j k g u = opt j' k g u.
Proof. intros St A j j' k g u H; unfold opt; rewrite (given_same j j' k H); reflexivity. Qed.
Lemma rvu_same : forall j j' k v t, same_member j j' k -> read_value_unit convert j k v t = read_value_unit convert j' k v t.
Proof.
  intros j j' k v t [E|[E E']]; unfold read_value_unit; [rewrite E; reflexivity|]; rewrite E, E'; cbn [head_of field jbind].
  destruct (String.eqb k "m_expansivity" && String.eqb t "kbar")%bool; destruct (String.eqb k "m_compressibility" && _)%bool; reflexivity.
Qed.
Lemma ref_same : forall j j' k t, same_member j j' k -> refProp convert j k t = refProp convert j' k t.
Proof. intros j j' k t [E|[E E']]; unfold refProp, readValueErrorUnit; [rewrite E; reflexivity|]; rewrite E, E'; reflexivity. Qed.
Lemma body_same : forall j j' ks, same_on ("properties" :: ks) j j' -> body j = j /\ body j' = j' \/ body j = body j'.
Proof.
  intros j j' ks H; unfold body; rewrite (given_same j j' "properties" (H _ (or_introl eq_refl))).
  destruct (given j' "properties"); [right; reflexivity|left; split; reflexivity].
Qed.
Ltac same H := apply H; cbn [In known_e known_s known_r]; repeat (first [left; reflexivity|right]).
Theorem element_same : forall j j', same_on known_e j j' -> field j "class_" = field j' "class_" -> parseElement convert j = parseElement convert j'.
Proof.
  intros j j' H C; unfold parseElement; destruct (body_same j j' _ H) as [[E E']|E]; [|rewrite E; reflexivity]; rewrite E, E'; unfold parseElementM.
  rewrite (opt_same _ _ j j' "name") by same H; rewrite (opt_same _ _ j j' "symbol") by same H; rewrite (opt_same _ _ j j' "number") by same H.
  rewrite (opt_same _ _ j j' "isotope_mass") by same H; rewrite C.
  rewrite (rvu_same j j' "entropy") by same H.
  f_equal; unfold seqM, bind, lift, upd; 
  repeat match goal with |- match ?x with _ => _ end = match ?y with _ => _ end => change x with y; destruct y as [? []]; try reflexivity end.
  all: try (destruct (read_value_unit convert j' "entropy" None "J/(mol*K)"); try reflexivity).
  all: rewrite (rvu_same j j' "heat_capacity") by same H; match goal with |- match ?x with _ => _ end = _ => destruct x; try reflexivity end.
  all: rewrite (rvu_same j j' "atomic_mass") by same H; match goal with |- match ?x with _ => _ end = _ => destruct x; try reflexivity end.
  all: rewrite (rvu_same j j' "volume") by same H; match goal with |- match ?x with _ => _ end = _ => destruct x; try reflexivity end.
Qed.
Lemma refs_same : forall j j', same_on known_s j j' -> thermoRefPropSubst convert j = thermoRefPropSubst convert j'.
Proof.
  intros j j' H; unfold thermoRefPropSubst.
  rewrite (ref_same j j' "sm_heat_capacity_p") by same H; rewrite (ref_same j j' "sm_gibbs_energy") by same H; rewrite (ref_same j j' "sm_enthalpy") by same H.
  rewrite (ref_same j j' "sm_entropy_abs") by same H; rewrite (ref_same j j' "sm_volume") by same H; reflexivity.
Qed.
Lemma tp_same : forall j j' ms s, same_on known_s j j' -> getTPMethodsS convert j ms s = getTPMethodsS convert j' ms s.
Proof.
  intros j j' ms s H; unfold getTPMethodsS; unfold bind at 1; symmetry; unfold bind at 1.
  destruct (methodsS convert (elems ms) sparams0 s) as [s' [ps| | |]]; try reflexivity.
  rewrite (rvu_same j j' "m_expansivity") by same H; unfold bind at 1; symmetry; unfold bind at 1.
  destruct (lift (read_value_unit convert j' "m_expansivity" (p_exp ps) "1/K") s') as [s2 [x| | |]]; try reflexivity.
  rewrite (rvu_same j j' "m_compressibility") by same H; reflexivity.
Qed.
Lemma seqM_ext : forall St A B (m m' : M St A) (n n' : M St B) s, (forall s, m s = m' s) -> (forall s, n s = n' s) -> seqM m n s = seqM m' n' s.
Proof. intros St A B m m' n n' s H H'; unfold seqM, bind; rewrite H; destruct (m' s) as [s' [x| | |]]; auto. Qed.
Lemma bind_ext : forall St A B (m : M St A) (n n' : A -> M St B) s, (forall a s, n a s = n' a s) -> bind m n s = bind m n' s.
Proof. intros St A B m n n' s H'; unfold bind; destruct (m s) as [s' [x| | |]]; auto. Qed.
Theorem substance_same : forall j j', same_on known_s j j' -> field j "TPMethods" = field j' "TPMethods" -> parseSubstance convert j = parseSubstance convert j'.
Proof.
  intros j j' H C; unfold parseSubstance; destruct (body_same j j' _ H) as [[E E']|E]; [|rewrite E; reflexivity]; rewrite E, E'; f_equal; unfold parseSubstanceM.
  rewrite (opt_same _ _ j j' "name") by same H; rewrite (opt_same _ _ j j' "symbol") by same H; rewrite (opt_same _ _ j j' "formula") by same H.
  rewrite (opt_same _ _ j j' "formula_charge") by same H; rewrite (opt_same _ _ j j' "reaction") by same H; rewrite (rvu_same j j' "mass_per_mole") by same H.
  rewrite (given_same j j' "aggregate_state") by same H; rewrite (given_same j j' "class_") by same H; rewrite (given_same j j' "limitsTP") by same H.
  rewrite (opt_same _ _ j j' "Tst") by same H; rewrite (opt_same _ _ j j' "Pst") by same H; rewrite (given_same j j' "reaction") by same H.
  rewrite (refs_same j j' H), C; rewrite (given_same j j' "TPMethods") by (left; exact C).
  do 5 (apply seqM_ext; [reflexivity|intros ?s]). apply bind_ext; intros v ?s; do 6 (apply seqM_ext; [reflexivity|intros ?s]).
  apply seqM_ext; [|intros; apply seqM_ext; [reflexivity|reflexivity]].
  intros ?s; destruct (given j' "TPMethods"); [apply tp_same, H|reflexivity].
Qed.
Theorem reaction_same : forall j j', same_on known_r j j' -> parseReaction convert fromEquation j = parseReaction convert fromEquation j'.
Proof.
  intros j j' H; unfold parseReaction; destruct (body_same j j' _ H) as [[E E']|E]; [|rewrite E; reflexivity]; rewrite E, E'; f_equal; unfold parseReactionM, thermoRefPropReac.
  rewrite (opt_same _ _ j j' "name") by same H; rewrite (opt_same _ _ j j' "symbol") by same H; rewrite (opt_same _ _ j j' "equation") by same H.
  rewrite (given_same j j' "limitsTP") by same H; rewrite (opt_same _ _ j j' "Tst") by same H; rewrite (opt_same _ _ j j' "Pst") by same H.
  rewrite (opt_same _ _ j j' "reactants") by same H; rewrite (given_same j j' "TPMethods") by same H.
  rewrite (ref_same j j' "logKr") by same H; rewrite (ref_same j j' "drsm_heat_capacity_p") by same H; rewrite (ref_same j j' "drsm_gibbs_energy") by same H.
  rewrite (ref_same j j' "drsm_enthalpy") by same H; rewrite (ref_same j j' "drsm_entropy") by same H; rewrite (ref_same j j' "drsm_volume") by same H.
  reflexivity.
Qed.
Theorem coefficients_dropped : forall k x l name ps, ~ In k read_s -> thermoParamSubst convert (JObj ((k, x) :: l)) name ps = thermoParamSubst convert (JObj l) name ps.
Proof.
  intros k x l name ps N.
  assert (F : forall q, In q read_s -> field (JObj ((k, x) :: l)) q = field (JObj l) q).
  { intros q Q; cbn [field assoc]; destruct (String.eqb q k) eqn:E; [|reflexivity]; apply String.eqb_eq in E; subst q; contradiction. }
  assert (V : forall q vs to, In q read_s -> read_values_units convert (JObj ((k, x) :: l)) q vs to = read_values_units convert (JObj l) q vs to).
  { intros q vs to Q; unfold read_values_units; rewrite (F q Q); reflexivity. }
  unfold thermoParamSubst, limits, limit; rewrite !V by (cbn [In read_s]; repeat (first [left; reflexivity|right])); rewrite (F "limitsTP") by (cbn [In read_s]; repeat (first [left; reflexivity|right])); reflexivity.
Qed.
End A.

(** ** the units of the program convert to themselves *)
Lemma uconvert_keeps : keeps uconvert.
Proof.
  intros x u H. unfold uconvert. set (t := list_ascii_of_string u).
  assert (E : UnitsModel.convert x t t = UOk x); [|rewrite E; reflexivity].
  destruct (both_temp t t) eqn:B.
  - destruct (temp_same x t t B) as (y & Ey & Hy). rewrite Ey. f_equal. apply (kelvins_inj (str t)); [apply andb_true_iff in B; apply B|exact Hy].
  - apply conv_refl; [exact B|]. subst t. unfold builtin in H. cbn [In] in H.
    repeat (destruct H as [<-|H]; [first [discriminate B | exists true; vm_compute; reflexivity]|]). contradiction.
Qed.
Lemma offered_coefficients_dropped : forall k x l name ps,
  In k ["m_volume_fpt_coeffs"; "eos_birch_murnaghan_coeffs"; "eos_churakov_gottschalk_coeffs"; "m_berman_phase_trans_props"; "solute_holland_powell98_coeffs"; "solute_anderson91_coeffs"] ->
  thermoParamSubst uconvert (JObj ((k, x) :: l)) name ps = thermoParamSubst uconvert (JObj l) name ps.
Proof.
  intros k x l name ps H; apply coefficients_dropped; cbn [In] in H.
  repeat (destruct H as [<-|H]; [cbn [In read_s]; intuition discriminate|]); contradiction.
Qed.
