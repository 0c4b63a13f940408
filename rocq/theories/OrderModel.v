(** Model of the comparison operators of Element and Substance.  Definitions only. *)
From Coq Require Import String Bool ZArith.
From Verif Require Import DatabaseModel.

(** Element.cpp:8-42, the fields that are compared *)
Record Elem : Type := mkElem { el_symbol : string; el_name : string; el_class : Z; el_iso : Z; el_valence : Z }.
(** Element.cpp:213-235 *)
Definition elem_lt (l r : Elem) : bool :=
  if sltb (el_symbol l) (el_symbol r) then true
  else if String.eqb (el_symbol l) (el_symbol r) then
    if sltb (el_name l) (el_name r) then true
    else if String.eqb (el_name l) (el_name r) then
      if Z.ltb (el_class l) (el_class r) then true
      else if Z.eqb (el_class l) (el_class r) then
        if Z.ltb (el_iso l) (el_iso r) then true else Z.ltb (el_valence l) (el_valence r)
      else false
    else false
  else false.
(** Element.cpp:237-259 *)
Definition elem_gt (l r : Elem) : bool :=
  if sltb (el_symbol r) (el_symbol l) then true
  else if String.eqb (el_symbol l) (el_symbol r) then
    if sltb (el_name r) (el_name l) then true
    else if String.eqb (el_name l) (el_name r) then
      if Z.ltb (el_class r) (el_class l) then true
      else if Z.eqb (el_class l) (el_class r) then
        if Z.ltb (el_iso r) (el_iso l) then true else Z.ltb (el_valence r) (el_valence l)
      else false
    else false
  else false.
(** Element.cpp:261-267 *)
Definition elem_eq (l r : Elem) : bool :=
  String.eqb (el_symbol l) (el_symbol r) && String.eqb (el_name l) (el_name r) &&
  Z.eqb (el_class l) (el_class r) && Z.eqb (el_iso l) (el_iso r).

(** Substance.cpp: the fields that are compared *)
Record SubK : Type := mkSubK { sk_symbol : string; sk_name : string }.
(** Substance.cpp:337-347 *)
Definition sub_lt (l r : SubK) : bool :=
  if sltb (sk_symbol l) (sk_symbol r) then true
  else if String.eqb (sk_symbol l) (sk_symbol r) then sltb (sk_name l) (sk_name r) else false.
(** Substance.cpp:349-359 *)
Definition sub_gt (l r : SubK) : bool :=
  if sltb (sk_symbol r) (sk_symbol l) then true
  else if String.eqb (sk_symbol l) (sk_symbol r) then sltb (sk_name r) (sk_name l) else false.
(** Substance.cpp:361-366 *)
Definition sub_eq (l r : SubK) : bool := String.eqb (sk_symbol l) (sk_symbol r) && String.eqb (sk_name l) (sk_name r).
