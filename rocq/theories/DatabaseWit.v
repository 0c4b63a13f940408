(** Concrete histories for the database theorems. *)
From Coq Require Import String List Bool Arith ZArith.
From Verif Require Import DatabaseModel DatabaseSpec DatabaseProofs.
Import ListNotations.
Open Scope string_scope.

(** records: symbol and one number (a mass for elements) *)
Definition rec := (string * nat)%type.
(** parsed json: label, symbol, number *)
Definition jrec := (string * rec)%type.
(** formula data: the last entered mass of each symbol *)
Definition fdata := string -> option nat.
Definition w_addDB (e : rec) (d : fdata) : fdata := fun k => if String.eqb k (fst e) then Some (snd e) else d k.
Definition w_label (j : jrec) : outc (option string) := if String.eqb (fst j) "" then Ok None else Ok (Some (fst j)).
Definition w_props (j : jrec) : jrec := j.
Definition w_parse (j : jrec) : outc rec := if String.eqb (fst (snd j)) "" then OtherEx else Ok (snd j).
(** texts *)
Definition w_json (s : string) : option jrec :=
  if String.eqb s "Fe 56" then Some ("element", ("Fe", 56)) else
  if String.eqb s "Fe 57" then Some ("element", ("Fe", 57)) else
  if String.eqb s "O 16" then Some ("element", ("O", 16)) else
  if String.eqb s "FeO" then Some ("substance", ("FeO", 72)) else
  if String.eqb s "Mix" then Some ("mixture", ("M", 1)) else None.
Definition w_blank (k : string) : rec := (k, 0).
Notation w_append := (appendData rec rec rec fdata jrec fst fst fst w_addDB w_parse w_parse w_parse w_label w_props w_json).
Notation w_run := (dbrun rec rec rec fdata jrec fst fst fst (fun _ => w_blank) w_blank w_blank (fun e => e) w_addDB w_parse w_parse w_parse w_label w_props w_json).
Notation w_dec := (decodeText rec rec rec jrec w_parse w_parse w_parse w_label w_props w_json).
Definition w_empty := emptyDb rec rec rec fdata (fun _ => None).
Notation w_all := (d_all rec rec rec fdata).
Notation w_getE := (getElement rec rec rec fdata).

(** an element is replaced: its record changes, the mass used in formulas does not *)
Lemma stale_element : let d := fst (w_append ["Fe 56"] "" w_empty) in let d' := fst (w_append ["Fe 57"] "" d) in
  w_getE "Fe" d' = Ok ("Fe", 57) /\ w_all d' "Fe" = Some 56.
Proof. split; reflexivity. Qed.
(** loading in one go or one by one differs *)
Lemma one_by_one : let d := fst (w_append ["Fe 56"] "" w_empty) in
  let together := fst (w_append ["O 16"; "Fe 57"] "" d) in
  let apart := fst (w_append ["Fe 57"] "" (fst (w_append ["O 16"] "" d))) in
  w_all together "Fe" = Some 57 /\ w_all apart "Fe" = Some 56.
Proof. split; reflexivity. Qed.
(** new elements in front of a failing record are listed but unknown to the formula data *)
Lemma half_loaded : let r := w_append ["O 16"; "Mix"] "" w_empty in
  snd r = OtherEx /\ w_getE "O" (fst r) = Ok ("O", 16) /\ w_all (fst r) "O" = None.
Proof. repeat split; reflexivity. Qed.
(** a record edited through the reference accessor is found under a symbol that is not its own *)
Lemma renamed : let d := w_run [AddS rec rec rec jrec ("A", 1); EditS rec rec rec jrec "A" (fun s => ("B", snd s))] w_empty in
  getSubstance rec rec rec fdata "A" d = Ok ("B", 1) /\ getSubstance rec rec rec fdata "B" d = OtherEx.
Proof. split; reflexivity. Qed.
