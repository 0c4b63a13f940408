(** Property theorems C16-C19 and C55: the database and the record orders. *)
From Coq Require Import String List Bool Arith ZArith Sorted Permutation.
From Verif Require Import DatabaseModel DatabaseSpec DatabaseProofs DatabaseWit OrderModel OrderProofs.
Import ListNotations.
Open Scope string_scope.

Section Any.
(** any record types, json library and formula parser *)
Variables E S R D J : Type.
Variable symE : E -> string.
Variable symS : S -> string.
Variable symR : R -> string.
Variable blankE : D -> string -> E.
Variable blankS : string -> S.
Variable blankR : string -> R.
Variable toKey : E -> E.
Variable addDB : E -> D -> D.
Variable parseE : J -> outc E.
Variable parseS : J -> outc S.
Variable parseR : J -> outc R.
Variable labelOf : J -> outc (option string).
Variable propsOf : J -> J.
Variable jparse : string -> option J.
Notation append := (appendData E S R D J symE symS symR addDB parseE parseS parseR labelOf propsOf jparse).
Notation decT := (decodeText E S R J parseE parseS parseR labelOf propsOf jparse).
Notation step := (dbstep E S R D J symE symS symR blankE blankS blankR toKey addDB parseE parseS parseR labelOf propsOf jparse).
Notation run := (dbrun E S R D J symE symS symR blankE blankS blankR toKey addDB parseE parseS parseR labelOf propsOf jparse).
Notation aS := (aopS E S R J symS blankS parseE parseS parseR labelOf propsOf jparse).
Notation aR := (aopR E S R J symR blankR parseE parseS parseR labelOf propsOf jparse).
Notation aE := (aopE E S R J symE parseE parseS parseR labelOf propsOf jparse toKey).
Notation getS := (getSubstance E S R D).
Notation getR := (getReaction E S R D).
Notation getE := (getElement E S R D).
Notation empty := (emptyDb E S R D).

(** C16: after any history the getters agree with the abstract maps. *)
Theorem C16_substances : forall (l : list (dbop E S R J)) a k, let d := run l (empty a) in
  let m := fold_left (fun m o => aS o m) l (fun _ => None) in
  getS k d = match m k with Some s => Ok s | None => OtherEx end /\
  containsSubstance E S R D k d = match m k with Some _ => true | None => false end.
Proof. exact (get_sub E S R D J symE symS symR blankE blankS blankR toKey addDB parseE parseS parseR labelOf propsOf jparse). Qed.
Theorem C16_reactions : forall (l : list (dbop E S R J)) a k, let d := run l (empty a) in
  let m := fold_left (fun m o => aR o m) l (fun _ => None) in
  getR k d = match m k with Some s => Ok s | None => OtherEx end /\
  containsReaction E S R D k d = match m k with Some _ => true | None => false end.
Proof. exact (get_rea E S R D J symE symS symR blankE blankS blankR toKey addDB parseE parseS parseR labelOf propsOf jparse). Qed.
(** elements: one more operation [o] after any history [l] *)
Theorem C16_elements : forall (l : list (dbop E S R J)) a o k, let d := run l (empty a) in
  let look x y := match getE y x with Ok e => Some e | _ => None end in
  look (step o d) k = aE (blankE (d_all E S R D d)) o (look d) k /\
  getE k d = (match look d k with Some e => Ok e | None => OtherEx end) /\
  containsElement E S R D k d = match look d k with Some _ => true | None => false end.
Proof. exact (get_ele E S R D J symE symS symR blankE blankS blankR toKey addDB parseE parseS parseR labelOf propsOf jparse). Qed.

(** C17: records that all decode are loaded the same together or in two calls ... *)
Theorem C17_split_partial : forall l1 l2 lb (d : db E S R D), (forall x, In x l1 -> exists i, decT lb x = Ok i) ->
  same_maps E S R D (fst (append (l1 ++ l2)%list lb d)) (fst (append l2 lb (fst (append l1 lb d)))) /\
  snd (append (l1 ++ l2)%list lb d) = snd (append l2 lb (fst (append l1 lb d))).
Proof. exact (append_split E S R D J symE symS symR addDB parseE parseS parseR labelOf propsOf jparse). Qed.
(** ... and at the first record that does not decode exactly the ones in front are loaded; a
    json error is not reported to the caller *)
Theorem C17_prefix_loaded : forall l1 x l2 lb (d : db E S R D), (forall x, In x l1 -> exists i, decT lb x = Ok i) ->
  (forall i, decT lb x <> Ok i) ->
  same_maps E S R D (fst (append (l1 ++ x :: l2)%list lb d)) (fst (append l1 lb d)) /\
  (decT lb x = JsonEx -> snd (append (l1 ++ x :: l2)%list lb d) = Ok tt) /\
  (decT lb x = OtherEx -> snd (append (l1 ++ x :: l2)%list lb d) = OtherEx).
Proof. exact (append_cut E S R D J symE symS symR addDB parseE parseS parseR labelOf propsOf jparse). Qed.
(** the formula data are left as they were when no new element symbol comes in, or on failure *)
Theorem C17_formula_data_stale_refuted : forall l lb (d : db E S R D),
  (numberOfElements E S R D (fst (append l lb d)) = numberOfElements E S R D d ->
   d_all E S R D (fst (append l lb d)) = d_all E S R D d) /\
  (snd (append l lb d) = OtherEx -> d_all E S R D (fst (append l lb d)) = d_all E S R D d).
Proof.
  exact (fun l lb d => conj
    (append_stale E S R D J symE symS symR addDB parseE parseS parseR labelOf propsOf jparse l lb d)
    (append_failed_stale E S R D J symE symS symR addDB parseE parseS parseR labelOf propsOf jparse l lb d)).
Qed.

(** C18: listings are strictly sorted, without duplicates, complete, and agree with the getters. *)
Theorem C18_listings : forall (l : list (dbop E S R J)) a, let d := run l (empty a) in
  well_listed (getSubstancesList E S R D d) (getSubstances E S R D d) (numberOfSubstances E S R D d)
    (fun k => getS k d) (fun k => containsSubstance E S R D k d) /\
  well_listed (getReactionsList E S R D d) (getReactions E S R D d) (numberOfReactions E S R D d)
    (fun k => getR k d) (fun k => containsReaction E S R D k d) /\
  well_listed (getElementsList E S R D d) (getElements E S R D d) (numberOfElements E S R D d)
    (fun k => getE k d) (fun k => containsElement E S R D k d).
Proof. exact (listings E S R D J symE symS symR blankE blankS blankR toKey addDB parseE parseS parseR labelOf propsOf jparse). Qed.
Theorem C18_insertion_order : forall ss ss' a, Permutation ss ss' -> NoDup (map symS ss) ->
  let d := run (map (SetS E S R J) ss) (empty a) in let d' := run (map (SetS E S R J) ss') (empty a) in
  getSubstancesList E S R D d = getSubstancesList E S R D d' /\ getSubstances E S R D d = getSubstances E S R D d'.
Proof. exact (order_free E S R D J symE symS symR blankE blankS blankR toKey addDB parseE parseS parseR labelOf propsOf jparse). Qed.

(** C55: a record is found under its own symbol, unless a caller edits the symbol through a
    reference or hands in a map with other keys. *)
Theorem C55_own_symbol_partial :
  (forall e, symE (toKey e) = symE e) -> (forall a k, symE (blankE a k) = k) ->
  (forall k, symS (blankS k) = k) -> (forall k, symR (blankR k) = k) ->
  forall (l : list (dbop E S R J)) a, (forall o, In o l -> respects E S R J symE symS symR o) ->
  let d := run l (empty a) in
  (forall k e, getE k d = Ok e -> symE e = k) /\ (forall k s, getS k d = Ok s -> symS s = k) /\
  (forall k r, getR k d = Ok r -> symR r = k).
Proof. exact (keyed_get E S R D J symE symS symR blankE blankS blankR toKey addDB parseE parseS parseR labelOf propsOf jparse). Qed.
End Any.
Print Assumptions C16_substances.
Print Assumptions C16_reactions.
Print Assumptions C16_elements.
Print Assumptions C17_split_partial.
Print Assumptions C17_prefix_loaded.
Print Assumptions C17_formula_data_stale_refuted.
Print Assumptions C18_listings.
Print Assumptions C18_insertion_order.
Print Assumptions C55_own_symbol_partial.

(** a history: add keeps, set and load overwrite, in listing order *)
Example C16_example : let d := w_run [AddS rec rec rec jrec ("B", 1); AddS rec rec rec jrec ("A", 2); AddS rec rec rec jrec ("B", 3);
    SetS rec rec rec jrec ("A", 4); Append rec rec rec jrec ["FeO"; "O 16"] ""] w_empty in
  getSubstances rec rec rec fdata d = [("A", 4); ("B", 1); ("FeO", 72)] /\ w_getE "O" d = Ok ("O", 16).
Proof. split; reflexivity. Qed.
Example C17_example : (forall x, In x ["Fe 56"; "FeO"] -> exists i, w_dec "" x = Ok i) /\ (forall i, w_dec "" "Mix" <> Ok i) /\
  w_dec "" "{" = JsonEx /\ snd (w_append ["Fe 56"; "{"; "FeO"] "" w_empty) = Ok tt /\
  getSubstance rec rec rec fdata "FeO" (fst (w_append ["Fe 56"; "{"; "FeO"] "" w_empty)) = OtherEx.
Proof.
  split; [intros x [<-|[<-|[]]]; eexists; reflexivity|]. split; [discriminate|]. repeat split; reflexivity.
Qed.
Theorem C17_element_mass_stale_refuted : let d := fst (w_append ["Fe 56"] "" w_empty) in let d' := fst (w_append ["Fe 57"] "" d) in
  w_getE "Fe" d' = Ok ("Fe", 57) /\ w_all d' "Fe" = Some 56.
Proof. exact stale_element. Qed.
Print Assumptions C17_element_mass_stale_refuted.
Theorem C17_one_by_one_refuted : let d := fst (w_append ["Fe 56"] "" w_empty) in
  let together := fst (w_append ["O 16"; "Fe 57"] "" d) in
  let apart := fst (w_append ["Fe 57"] "" (fst (w_append ["O 16"] "" d))) in
  w_all together "Fe" = Some 57 /\ w_all apart "Fe" = Some 56.
Proof. exact one_by_one. Qed.
Print Assumptions C17_one_by_one_refuted.
Theorem C17_half_loaded_refuted : let r := w_append ["O 16"; "Mix"] "" w_empty in
  snd r = OtherEx /\ w_getE "O" (fst r) = Ok ("O", 16) /\ w_all (fst r) "O" = None.
Proof. exact half_loaded. Qed.
Print Assumptions C17_half_loaded_refuted.
Example C18_example : Permutation [("A", 1); ("B", 2)] [("B", 2); ("A", 1)] /\ NoDup (map (@fst string nat) [("A", 1); ("B", 2)]).
Proof. split; [apply perm_swap|]. repeat constructor; cbn; intuition discriminate. Qed.
Theorem C55_renamed_refuted : let d := w_run [AddS rec rec rec jrec ("A", 1); EditS rec rec rec jrec "A" (fun s => ("B", snd s))] w_empty in
  getSubstance rec rec rec fdata "A" d = Ok ("B", 1) /\ getSubstance rec rec rec fdata "B" d = OtherEx.
Proof. exact renamed. Qed.
Print Assumptions C55_renamed_refuted.

(** C19: the order of elements is not a strict weak order; the pairs that break it; equality and
    order disagree *)
Theorem C19_element_order_refuted : ~ strict_weak elem_lt.
Proof. exact element_not_order. Qed.
Print Assumptions C19_element_order_refuted.
Theorem C19_element_both_below_refuted : forall a b,
  (elem_lt a b = true /\ elem_lt b a = true) <->
  (el_symbol a = el_symbol b /\ el_name a = el_name b /\ el_class a = el_class b /\
   (((el_iso a < el_iso b)%Z /\ (el_valence b < el_valence a)%Z) \/ ((el_iso b < el_iso a)%Z /\ (el_valence a < el_valence b)%Z))).
Proof. exact element_both_below. Qed.
Print Assumptions C19_element_both_below_refuted.
Theorem C19_equal_yet_below_refuted : forall a,
  let b := mkElem (el_symbol a) (el_name a) (el_class a) (el_iso a) (el_valence a + 1) in elem_eq a b = true /\ elem_lt a b = true.
Proof. exact element_eq_yet_below. Qed.
Print Assumptions C19_equal_yet_below_refuted.
(** it is one among elements of one valence *)
Theorem C19_one_valence_partial : forall v,
  strict_weak (fun a b : {e | el_valence e = v} => elem_lt (proj1_sig a) (proj1_sig b)) /\
  (forall a b, el_valence a = v -> el_valence b = v -> (elem_eq a b = true <-> elem_lt a b = false /\ elem_lt b a = false)) /\
  (forall a b, elem_gt a b = elem_lt b a).
Proof. exact element_order_one_valence. Qed.
Print Assumptions C19_one_valence_partial.
(** the order of substances is one, with equality as the equivalence *)
Theorem C19_substance_order : strict_weak sub_lt /\ (forall a b, sub_gt a b = sub_lt b a) /\
  (forall a b, sub_eq a b = true <-> sub_lt a b = false /\ sub_lt b a = false).
Proof. exact substance_order. Qed.
Print Assumptions C19_substance_order.
Example C19_example : elem_lt exH1 exH2 = true /\ elem_lt exH2 exH1 = true /\
  elem_lt (mkElem "H" "H" 0 1 1) (mkElem "O" "O" 0 16 1) = true.
Proof. repeat split; reflexivity. Qed.
