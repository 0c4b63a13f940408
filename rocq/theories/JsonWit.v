(** Concrete records for the properties about reading JSON. *)
From Coq Require Import List Bool Reals Lra Lia String Ascii ZArith.
From Verif Require Import UnitsModel CpModel CpSpec CpProofs JsonModel JsonSpec JsonProofs JsonReac JsonMore.
Import ListNotations.
Open Scope R_scope.
Open Scope string_scope.

Definition no_e : erec := mkER None None None None None None None None None.
Definition no_s : srec := mkSrec None None None None None None None None None None None None None None None None None None None.
Lemma ukeep : forall t n, In t builtin -> n_unit n = None -> reads uconvert t (Some n) (Some (n_val n)).
Proof. intros t n I E; exists (n_val n); split; [|reflexivity]; rewrite E; apply uconvert_keeps, I. Qed.
Ltac inl := cbn [In builtin]; repeat (first [left; reflexivity|right]).

(** entropy of an element given, heat capacity, mass and volume absent *)
Definition h_e : erec := mkER (Some "H") (Some "H") (Some 1%Z) (Some (mkNum 65 None None)) None None None None None.
Lemma absent_takes_entropy : exists e, parseElement uconvert (ren_elem h_e) = JOk e /\ er_Cp h_e = None /\ er_M h_e = None /\ er_V h_e = None /\
  e_Cp e = Some 65 /\ e_mass e = Some 65 /\ e_V e = Some 65.
Proof.
  destruct (element_read uconvert h_e (Some 65) None None None 0%Z) as (e & E & _ & _ & _ & _ & A & B & C & _); try reflexivity.
  - apply (ukeep "J/(mol*K)" (mkNum 65 None None)); [inl|reflexivity].
  - exists e; repeat split; assumption.
Qed.
Lemma absent_indeterminate : exists e, parseElement uconvert (ren_elem no_e) = JOk e /\ e_S e = None /\ e_Cp e = None /\ e_mass e = None /\ e_V e = None.
Proof. destruct (element_read uconvert no_e None None None None 0%Z) as (e & E & _ & _ & _ & S & A & B & C & _); try reflexivity. exists e; repeat split; assumption. Qed.
Lemma mass_indeterminate : exists s, parseSubstance uconvert (ren_subst no_s) = JOk s /\ s_mass s = None.
Proof.
  destruct (substance_read uconvert uconvert_keeps no_s [] None 0%Z 0%Z (Some 0) (Some 0) unset unset unset unset unset) as (s & E & _ & _ & A & _); try reflexivity.
  - repeat split.
  - exists s; split; assumption.
Qed.
(** a null inside a coefficient vector: everything after it is lost, without an exception *)
Definition j_null : json := JObj [("TPMethods", JArr [JObj [("eos_hkf_coeffs", JObj [("values", JArr [JNum 1; JNull])]); ("method", JObj [("2", JStr "solute_hkf88_gems")])]]);
  ("sm_gibbs_energy", JObj [("values", JArr [JNum (-100)])])].
Lemma null_loses : exists s, parseSubstance uconvert j_null = JOk s /\ rG (s_refs s) = (0, 0, false) /\ p_hkf (s_par s) = [].
Proof. eexists; split; [reflexivity|split; reflexivity]. Qed.
(** a method key that is not a number: std::invalid_argument *)
Definition j_key : json := JObj [("TPMethods", JArr [JObj [("method", JObj [("cp_ft_equation", JStr "cp_ft_equation")])]])].
Lemma key_escapes : parseSubstance uconvert j_key = JStd.
Proof. reflexivity. Qed.
(** an empty array of values *)
Definition j_emp : json := JObj [("mass_per_mole", JObj [("values", JArr [])])].
Lemma empty_ub : parseSubstance uconvert j_emp = JUB.
Proof. reflexivity. Qed.
(** "TPMethods": null is not the same as no "TPMethods" *)
Lemma tpmethods_null : exists l s s', parseSubstance uconvert (JObj (("TPMethods", JNull) :: l)) = JOk s /\ parseSubstance uconvert (JObj l) = JOk s' /\ s_reacdc s <> s_reacdc s'.
Proof. exists [("reaction", JStr "NaCl = Na+ + Cl-")]; do 2 eexists; split; [reflexivity|split; [reflexivity|discriminate]]. Qed.

(** ** methods *)
Lemma last_in_app : forall c xs x z, in_cat c x = Some z -> last_in c (xs ++ [x])%list = z.
Proof.
  intros c; induction xs as [|y xs IH]; intros x z E; cbn [List.app last_in]; [rewrite E; reflexivity|].
  rewrite (IH x z E); destruct (in_cat c y); [|reflexivity].
  replace (existsb _ (xs ++ [x])%list) with true; [reflexivity|]; symmetry; rewrite existsb_app; cbn [existsb]; rewrite E, orb_true_r; reflexivity.
Qed.
Lemma offered_codes : forall k n, In (k, n) offered_s -> k <> 41%Z -> k <> 42%Z -> exists c z, z <> 0%Z /\ s_method k = Some (c, z).
Proof.
  intros k n H A B.
  assert (D : forallb (fun p => orb (orb (Z.eqb (fst p) 41) (Z.eqb (fst p) 42)) (match s_method (fst p) with Some (_, z) => negb (Z.eqb z 0) | None => false end)) offered_s = true) by (vm_compute; reflexivity).
  rewrite forallb_forall in D; specialize (D _ H); cbn [fst] in D; apply Z.eqb_neq in A; apply Z.eqb_neq in B; rewrite A, B in D; cbn [orb] in D.
  destruct (s_method k) as [[c z]|]; [|discriminate D]; exists c, z; split; [|reflexivity]; apply negb_true_iff, Z.eqb_neq in D; exact D.
Qed.
Lemma offered_last : forall k n, In (k, n) offered_s -> k <> 41%Z -> k <> 42%Z -> exists c z, z <> 0%Z /\ forall pre, last_in c (map s_method (pre ++ [k])) = z.
Proof.
  intros k n H A B; destruct (offered_codes k n H A B) as (c & z & Z & E); exists c, z; split; [exact Z|]; intros pre.
  rewrite map_app; apply last_in_app; rewrite E; destruct c; reflexivity.
Qed.
Lemma offered_distinct : forall k k', In k (map fst offered_s) -> In k' (map fst offered_s) -> s_method k = s_method k' -> s_method k <> None -> k = k'.
Proof.
  intros k k' H H' E N.
  assert (D : forallb (fun k => forallb (fun k' => orb (Z.eqb k k') (match s_method k, s_method k' with
    | Some (c, z), Some (c', z') => negb (Z.eqb z z') | _, _ => true end)) (map fst offered_s)) (map fst offered_s) = true) by (vm_compute; reflexivity).
  rewrite forallb_forall in D; specialize (D k H); rewrite forallb_forall in D; specialize (D k' H').
  apply orb_true_iff in D; destruct D as [D|D]; [apply Z.eqb_eq, D|exfalso].
  rewrite <- E in D; destruct (s_method k) as [[c z]|]; [|apply N; reflexivity]; rewrite Z.eqb_refl in D; discriminate D.
Qed.
Lemma roffered_last : forall k n, In (k, n) offered_r -> exists c z, z <> 0%Z /\ forall pre, last_in c (map r_method (pre ++ [k])) = z.
Proof.
  intros k n H. assert (E : exists c z, z <> 0%Z /\ r_method k = Some (c, z)).
  { assert (D : forallb (fun p => match r_method (fst p) with Some (_, z) => negb (Z.eqb z 0) | None => false end) offered_r = true) by (vm_compute; reflexivity).
    rewrite forallb_forall in D; specialize (D _ H); cbn [fst] in D.
    destruct (r_method k) as [[c z]|]; [|discriminate D]; exists c, z; split; [|reflexivity]; apply negb_true_iff, Z.eqb_neq in D; exact D. }
  destruct E as (c & z & Z & E); exists c, z; split; [exact Z|]; intros pre; rewrite map_app; apply last_in_app; rewrite E; destruct c; reflexivity.
Qed.
Definition m_of (k n : string) : mrec := mkMR k n None None None None None None None None.
Lemma with_methods_read : forall l ks, keyed l ks -> exists s, parseSubstance uconvert (ren_subst (with_methods l)) = JOk s /\
  s_meth s = mkMe (last_in GenEoS (map s_method ks)) (last_in CorrT (map s_method ks)) (last_in CorrP (map s_method ks)) /\ s_par s = par_of l None None.
Proof.
  intros l ks H.
  destruct (substance_read uconvert uconvert_keeps (with_methods l) ks None 0%Z 0%Z None None unset unset unset unset unset) as (s & E & _ & _ & _ & _ & A & B & _); try reflexivity.
  - repeat split; exact H.
  - exists s; repeat split; assumption.
Qed.
Lemma hp98_ignored : forall l, (forall m, In m l -> m = m_of "41" "solute_holland_powell98" \/ m = m_of "42" "solute_anderson91") ->
  exists s, parseSubstance uconvert (ren_subst (with_methods l)) = JOk s /\ s_meth s = mkMe 0 0 0.
Proof.
  intros l H. assert (E : exists ks, keyed l ks /\ forall k, In k ks -> s_method k = None).
  { induction l as [|m l IH]; [exists []; split; [constructor|intros k []]|].
    destruct IH as (ks & K & N); [intros m' I'; apply H; right; exact I'|].
    destruct (H m (or_introl eq_refl)) as [-> | ->]; [exists (41%Z :: ks)|exists (42%Z :: ks)]; (split; [constructor; [reflexivity|exact K]|intros k [<-|I']; [reflexivity|apply N, I']]). }
  destruct E as (ks & K & N); destruct (with_methods_read l ks K) as (s & P & Q & _); exists s; split; [exact P|]; rewrite Q.
  assert (Z : forall c, last_in c (map s_method ks) = 0%Z).
  { intros c; clear K Q; induction ks as [|k ks IH]; [reflexivity|]; cbn [map last_in]; rewrite (N k (or_introl eq_refl)); cbn [in_cat]; apply IH; intros k' I'; apply N; right; exact I'. }
  rewrite !Z; reflexivity.
Qed.
Lemma second_wins : exists s, parseSubstance uconvert (ren_subst (with_methods [m_of "0" "cp_ft_equation"; m_of "2" "solute_hkf88_gems"])) = JOk s /\ s_meth s = mkMe 101 0 0.
Proof. destruct (with_methods_read [m_of "0" "cp_ft_equation"; m_of "2" "solute_hkf88_gems"] [0; 2]%Z) as (s & P & Q & _); [repeat constructor|]. exists s; split; [exact P|exact Q]. Qed.

(** ** heat capacity records, from the text to the function *)
Lemma cp_parsed : forall l, (forall x, In x l -> c_co x <> [] /\ c_tr x <> Some []) ->
  exists s, parseSubstance uconvert (ren_subst (with_methods (map cp_meth l))) = JOk s /\
    p_int (s_par s) = rows (map (fun x => (c_lo x, c_up x)) l) /\ p_cp (s_par s) = map c_co l /\ p_ph (s_par s) = given_lists l.
Proof.
  intros l H. destruct (with_methods_read (map cp_meth l) (map (fun _ => 0%Z) l)) as (s & P & _ & Q).
  { induction l as [|x l IH]; [constructor|]; cbn [map]; constructor; [reflexivity|]; apply IH; intros y I'; apply H; right; exact I'. }
  exists s; split; [exact P|]; rewrite Q; cbn [par_of p_int p_cp p_ph]; clear P Q s.
  induction l as [|x l IH]; [repeat split|].
  destruct IH as (A & B & C); [intros y I'; apply H; right; exact I'|].
  destruct (H x (or_introl eq_refl)) as (N & N').
  cbn [map]; unfold all_ints, all_lists, given_lists in *; cbn [flat_map]; rewrite A, B, C; cbn [cp_meth mr_name mr_lim mr_cp mr_ph].
  repeat split.
  - destruct (c_co x); [exfalso; apply N; reflexivity|reflexivity].
  - destruct (c_tr x) as [[|t r]|]; [exfalso; apply N'; reflexivity|reflexivity|reflexivity].
Qed.
Lemma cp_end_to_end : forall l k x T G H S, (forall x, In x l -> c_co x <> [] /\ c_tr x <> Some []) ->
  cp_rec (mkCp (rows (map (fun x => (c_lo x, c_up x)) l)) (map c_co l) (given_lists l) (29815 / 100) G H S) (map (fun x => (c_lo x, c_up x)) l) ->
  nth_error l k = Some x -> chosen (map (fun x => (c_lo x, c_up x)) l) k T -> 0 < T -> nth 9 (c_co x) 0 = 0 ->
  exists s q, parseSubstance uconvert (ren_subst (with_methods (map cp_meth l))) = JOk s /\ empCp (cp_data s G H S) T = COk q /\ pCp q = cp_poly (c_co x) T.
Proof.
  intros l k x T G H S N C E Ch P Z.
  destruct (cp_parsed l N) as (s & Ps & A & B & D).
  assert (Tr : s_Tr s = 29815 / 100).
  { destruct (substance_read uconvert uconvert_keeps (with_methods (map cp_meth l)) (map (fun _ => 0%Z) l) None 0%Z 0%Z None None unset unset unset unset unset) as (s' & Ps' & _ & (_ & _ & Q & _) & _); try reflexivity.
    - repeat split. clear. induction l as [|y l IH]; [constructor|]; cbn [map]; constructor; [reflexivity|exact IH].
    - rewrite Ps in Ps'; injection Ps' as <-; exact Q. }
  destruct (chosen_cp _ _ k T (c_co x) C Ch P) as (q & Eq & V); [cbn [coeffs]; rewrite nth_error_map, E; reflexivity|exact Z|].
  exists s, q; split; [exact Ps|]; unfold cp_data; rewrite A, B, D, Tr; split; assumption.
Qed.
(** the entry for 1..10 K has no coefficients: those of 10..100 K are taken for it *)
Definition cp_bare (lo up : R) (c : option (list R)) : mrec := mkMR "0" "cp_ft_equation" (Some (Some lo, Some up)) c None None None None None None.
Lemma misaligned : exists s q, parseSubstance uconvert (ren_subst (with_methods [cp_bare 1 10 None; cp_bare 10 100 (Some [7])])) = JOk s /\
  p_int (s_par s) = [[1; 10]; [10; 100]] /\ p_cp (s_par s) = [[7]] /\ empCp (cp_data s 0 0 0) 5 = COk q /\ pCp q = 7.
Proof.
  destruct (with_methods_read [cp_bare 1 10 None; cp_bare 10 100 (Some [7])] [0; 0]%Z) as (s & P & _ & Q); [repeat constructor|].
  exists s. unfold cp_data, empCp; rewrite Q; cbn [par_of p_int p_cp p_ph all_ints all_lists flat_map cp_bare mr_name mr_lim mr_cp mr_ph lim_list List.app String.eqb Ascii.eqb Bool.eqb].
  eexists; split; [exact P|split; [reflexivity|split; [reflexivity|]]].
  cbn [coeffs ints trans]; unfold select_k; cbn [search]; unfold Rleb, Rltb.
  destruct (Rle_dec 1 5); [|lra]; destruct (Rlt_dec 5 10); [|lra]; cbn [andb cbind].
  split; [reflexivity|].
  cbn [idx nth_error cbind pCp]; unfold Cpf, overlay, zeros, a_; cbn [List.length skipn repeat List.app firstn nth]; unfold Rdiv; ring.
Qed.
(** units of HKF coefficients are dropped when the third one is (cal*K)/mol *)
Lemma hkf_units_dropped : forall us vs ps l name, (3 <= List.length us)%nat -> nth 2 us "" = "(cal*K)/mol" ->
  l = [("eos_hkf_coeffs", JObj [("units", JArr (map JStr us)); ("values", JArr (map JNum vs))])] -> name <> "cp_ft_equation" ->
  exists ps', thermoParamSubst uconvert (JObj l) name ps = JOk ps' /\ p_hkf ps' = vs.
Proof.
  intros us vs ps l name L U -> N. unfold thermoParamSubst.
  apply String.eqb_neq in N; rewrite N.
  assert (E : read_values_units uconvert (JObj [("eos_hkf_coeffs", JObj [("units", JArr (map JStr us)); ("values", JArr (map JNum vs))])]) "eos_hkf_coeffs" (p_hkf ps) u_hkf = JOk vs).
  { assert (G : get_list get_string (map JStr us) = JOk us) by (clear; induction us as [|u us IH]; [reflexivity|]; cbn [map get_list jbind get_string]; rewrite IH; reflexivity).
    unfold read_values_units.
    set (e := JObj [("units", JArr (map JStr us)); ("values", JArr (map JNum vs))]).
    replace (field (JObj [("eos_hkf_coeffs", e)]) "eos_hkf_coeffs") with (Some e) by reflexivity.
    replace (field e "units") with (Some (JArr (map JStr us))) by reflexivity; replace (field e "values") with (Some (JArr (map JNum vs))) by reflexivity.
    rewrite G; cbn [jbind]; unfold unit_at; rewrite U, String.eqb_refl, (proj2 (Nat.leb_le _ _) L); cbn [andb].
    rewrite get_list_num; cbn [jbind]; apply (convert_keep uconvert uconvert_keeps).
    intros u H; unfold u_hkf in H; cbn [In] in H; repeat (destruct H as [<-|H]; [inl|]); contradiction. }
  rewrite E; eexists; split; reflexivity.
Qed.

(** every coefficient is converted with the units of its own place *)
Lemma convert_each : forall conv from to vs i r, convert_values conv vs i from to = JOk r -> List.length r = List.length vs /\
  forall k v, nth_error vs k = Some v -> exists y, nth_error r k = Some y /\
    conv v (fst (pair_units (unit_at from (i + k)) (unit_at to (i + k)))) (snd (pair_units (unit_at from (i + k)) (unit_at to (i + k)))) = JOk y.
Proof.
  intros conv from to vs. induction vs as [|v vs IH]; intros i r; cbn [convert_values].
  - intros [= <-]. split; [reflexivity|]. intros [|k] v E; discriminate.
  - destruct (conv v _ _) eqn:E; try discriminate. cbn [jbind]. destruct (convert_values conv vs (S i) from to) eqn:F; try discriminate. cbn [jbind]. intros [= <-].
    destruct (IH _ _ F) as [L N]. split; [cbn; now rewrite L|]. intros [|k] w Hw; cbn in Hw |- *.
    + injection Hw as <-. eexists. split; [reflexivity|]. rewrite PeanoNat.Nat.add_0_r. exact E.
    + destruct (N k w Hw) as (z & A & B). exists z. split; [exact A|]. rewrite <- plus_n_Sm. exact B.
Qed.
Lemma units_each : forall conv us vs j data to values r, field j data = Some (JObj [("units", JArr (map JStr us)); ("values", JArr (map JNum vs))]) ->
  data <> "eos_hkf_coeffs" -> read_values_units conv j data values to = JOk r ->
  List.length r = List.length vs /\ forall k v, nth_error vs k = Some v -> nth k us "" <> "" -> nth k to "" <> "" ->
    exists y, nth_error r k = Some y /\ conv v (nth k us "") (nth k to "") = JOk y.
Proof.
  intros conv us vs j data to values r F N. unfold read_values_units. rewrite F. apply String.eqb_neq in N. rewrite N. cbn [andb].
  set (e := JObj [("units", JArr (map JStr us)); ("values", JArr (map JNum vs))]).
  replace (field e "units") with (Some (JArr (map JStr us))) by reflexivity; replace (field e "values") with (Some (JArr (map JNum vs))) by reflexivity.
  assert (G : get_list get_string (map JStr us) = JOk us) by (clear; induction us as [|u us IH]; [reflexivity|]; cbn [map get_list jbind get_string]; rewrite IH; reflexivity).
  rewrite G; cbn [jbind]. rewrite get_list_num; cbn [jbind]. intros H. apply convert_each in H. destruct H as [L H]. split; [exact L|].
  intros k v Hv Hu Ht. destruct (H k v Hv) as (y & A & B). exists y. split; [exact A|]. rewrite PeanoNat.Nat.add_0_l in B. unfold unit_at in B.
  unfold pair_units in B. rewrite (proj2 (String.eqb_neq _ _) Hu) in B. rewrite (proj2 (String.eqb_neq _ _) Hu), (proj2 (String.eqb_neq _ _) Ht) in B. exact B.
Qed.
