(** Property theorems C20 and C21: reaction equations. *)
From Coq Require Import String Ascii List Bool ZArith Reals.
From Verif Require Import DatabaseModel DatabaseProofs EquationModel EquationSpec EquationProofs EquationMore.
Import ListNotations.
Open Scope R_scope.

(** C20: parsing the text of an equation with distinct species gives exactly its species, with
    negative coefficients on the left and positive ones on the right, for any number of species,
    any spacing, integer and decimal coefficients. *)
Theorem C20_round_trip : forall l r, side_ok l -> side_ok r -> NoDup (map fst (occurrences l r)) ->
  exists m, fromEquation (equation_text l r) [] = Some m /\
    forall x c, (exists d, mfind x m = Some d /\ dval d = c) <-> In (x, c) (occurrences l r).
Proof. exact round_trip. Qed.
Print Assumptions C20_round_trip.
Example C20_example : side_ok eqL /\ side_ok eqR /\ NoDup (map fst (occurrences eqL eqR)) /\
  string_of_list_ascii (equation_text eqL eqR) = "  2 HCO3- +  0.5O2(aq) = 10e- + 1.25 (OH)x"%string.
Proof. split; [exact eqL_ok|]. split; [exact eqR_ok|]. split; [exact eqLR_distinct|reflexivity]. Qed.

(** C20, every form of number: sign, digits, fraction, exponent of ten with its own sign, or a
    sign alone in front of the symbol. *)
Theorem C20_signed_numbers : forall n s n' s', sym_ok s -> sym_ok s' -> s <> s' -> number_ok n s -> number_ok n' s' ->
  exists d d' m, fromEquation (number_text n ++ s ++ "="%char :: number_text n' ++ s') [] = Some m /\
    mfind (string_of_list_ascii s) m = Some d /\ dval d = - number_value n /\
    mfind (string_of_list_ascii s') m = Some d' /\ dval d' = number_value n' /\
    forall x, x <> string_of_list_ascii s -> x <> string_of_list_ascii s' -> mfind x m = None.
Proof. exact signed_numbers. Qed.
Print Assumptions C20_signed_numbers.
Example C20_signed_example : let n := mkNumber (Some true) (Some (txt "2", Some (txt "5"))) (Some (false, Some true, txt "3")) in
  let n' := mkNumber (Some false) None None in
  sym_ok (txt "Ca+2") /\ sym_ok (txt "(OH)x") /\ txt "Ca+2" <> txt "(OH)x" /\ number_ok n (txt "Ca+2") /\ number_ok n' (txt "(OH)x") /\
  string_of_list_ascii (number_text n ++ txt "Ca+2" ++ "="%char :: number_text n' ++ txt "(OH)x") = "-2.5e-3Ca+2=+(OH)x"%string.
Proof.
  cbv zeta. assert (A : forall f s, forallb f s = true -> all f s) by (intros f s; exact (proj1 (forallb_forall f s))).
  repeat split; try reflexivity; try discriminate; try (left; reflexivity); try (right; reflexivity); apply A; reflexivity.
Qed.

(** What the grammar above leaves out is misread without an error: a plus without white space on
    both sides joins two species into one, a symbol that looks like an exponent is eaten, a text
    without "=" makes every species a product, and a second "=" sign makes the right side throw. *)
Theorem C20_plus_needs_space_refuted :
  fromEquation (txt "A+ B = C") [] = Some [("A+B"%string, (-1, 0)%Z); ("C"%string, (1, 0)%Z)].
Proof. reflexivity. Qed.
Print Assumptions C20_plus_needs_space_refuted.
Theorem C20_exponent_eaten_refuted :
  fromEquation (txt "2E1X = C") [] = Some [("C"%string, (1, 0)%Z); ("X"%string, (-2, 1)%Z)].
Proof. reflexivity. Qed.
Print Assumptions C20_exponent_eaten_refuted.
Theorem C20_no_equals_refuted :
  fromEquation (txt "A + B") [] = Some [("A"%string, (1, 0)%Z); ("B"%string, (1, 0)%Z)].
Proof. reflexivity. Qed.
Print Assumptions C20_no_equals_refuted.

(** C21 in full: the coefficient of a species is that of its last occurrence; an earlier
    coefficient of the same object is kept for species that do not occur. *)
Theorem C21_last_occurrence_counts : forall l r m0, side_ok l -> side_ok r -> sorted m0 ->
  exists m, fromEquation (equation_text l r) m0 = Some m /\ sorted m /\
    forall x, option_map dval (mfind x m) = last_of x (occurrences l r) (option_map dval (mfind x m0)).
Proof. exact equation_last. Qed.
Print Assumptions C21_last_occurrence_counts.
(** an empty piece in front of a side does not hide the species behind it *)
Theorem C21_empty_piece : forall s l s' r m0, sep_ok s -> sep_ok s' -> side_ok l -> side_ok r -> s_lead l = [] -> s_lead r = [] -> sorted m0 ->
  exists m, fromEquation (sep_text s ++ side_text l ++ "="%char :: sep_text s' ++ side_text r) m0 = Some m /\
    forall x, option_map dval (mfind x m) = last_of x (occurrences l r) (option_map dval (mfind x m0)).
Proof. exact empty_piece. Qed.
Print Assumptions C21_empty_piece.
Example C21_empty_example : let s := (txt " ", txt "  ") in
  let l := mkSide [] (mkTerm None [] (txt "A")) [((txt " ", txt " "), mkTerm None [] (txt "B"))] (txt " ") in
  let r := mkSide [] (mkTerm None [] (txt "C")) [] [] in
  sep_ok s /\ side_ok l /\ side_ok r /\ s_lead l = [] /\ s_lead r = [] /\
  string_of_list_ascii (sep_text s ++ side_text l ++ "="%char :: sep_text s ++ side_text r) = " +  A + B = +  C"%string.
Proof.
  cbv zeta. assert (A : forall f s, forallb f s = true -> all f s) by (intros f s; exact (proj1 (forallb_forall f s))).
  split; [repeat split; try discriminate; apply A; reflexivity|]. split; [|split; [|repeat split]].
  - split; [apply A; reflexivity|]. split; [apply A; reflexivity|]. split.
    + intros t [<-|[<-|[]]]; repeat split; try (left; reflexivity); apply A; reflexivity.
    + intros p [<-|[]]; repeat split; try discriminate; apply A; reflexivity.
  - split; [apply A; reflexivity|]. split; [apply A; reflexivity|]. split.
    + intros t [<-|[]]; repeat split; try (left; reflexivity); apply A; reflexivity.
    + intros p [].
Qed.
(** so repeated species are lost: C21 as stated is false, *)
Theorem C21_repeated_species_refuted : exists l r x m, side_ok l /\ side_ok r /\
  fromEquation (equation_text l r) [] = Some m /\
  match mfind x m with Some d => dval d | None => 0 end <> net x (occurrences l r).
Proof. exact duplicate_lost. Qed.
Print Assumptions C21_repeated_species_refuted.
(** and true when no species is repeated. *)
Theorem C21_net_partial : forall l r, side_ok l -> side_ok r -> NoDup (map fst (occurrences l r)) ->
  exists m, fromEquation (equation_text l r) [] = Some m /\
    forall x, match mfind x m with Some d => dval d | None => 0 end = net x (occurrences l r).
Proof. exact net_iff_distinct. Qed.
Print Assumptions C21_net_partial.
(** A reaction object that is given a second equation keeps the species of the first. *)
Theorem C21_old_species_kept_refuted : exists m1,
  fromEquation (txt "A = B") [] = Some m1 /\
  fromEquation (txt "C = D") m1 = Some [("A"%string, (-1, 0)%Z); ("B"%string, (1, 0)%Z); ("C"%string, (-1, 0)%Z); ("D"%string, (1, 0)%Z)].
Proof. eexists. split; reflexivity. Qed.
Print Assumptions C21_old_species_kept_refuted.
