(** Model of Database::setSubstancesChargeFromFromula.  Definitions only. *)
From Coq Require Import String List ZArith QArith.
From Verif Require Import DatabaseModel.
Import ListNotations.

(** Substance.cpp:16-76: the fields this function reads or writes; [cs_rest] holds all the others *)
Record chsub (A : Type) : Type := mkCS { cs_symbol : string; cs_formula : string; cs_charge : Z; cs_rest : A }.
Arguments mkCS {A}. Arguments cs_symbol {A}. Arguments cs_formula {A}. Arguments cs_charge {A}. Arguments cs_rest {A}.

(** Substance.cpp:169-172 setCharge *)
Definition setCharge {A} (s : chsub A) (c : Z) : chsub A := mkCS (cs_symbol s) (cs_formula s) c (cs_rest s).
(** the implicit conversion of the charge of a formula to the int of setCharge: towards zero (a value
    beyond the range of int is left out) *)
Definition to_int (q : Q) : Z := Z.quot (Qnum q) (Zpos (Qden q)).
(** the three arguments of the warning of Database.cpp:680: symbol, "record charge", "updated to" *)
Definition warning : Type := string * Z * Q.

Section Charge.
Variable A : Type.
(** ChemicalFun::FormulaToken and its properties with the elements of the database
    (Database.cpp:675-676); None: the parser throws.  The charge is a double there. *)
Variable parse : string -> option Q.

(** Database.cpp:674-682, one turn of the loop: the record is set before the warning reads it *)
Definition charge_one (s : chsub A) : option (chsub A * list warning) :=
  match parse (cs_formula s) with
  | None => None
  | Some q =>
      if Qeq_bool (inject_Z (cs_charge s)) q then Some (s, [])
      else let s' := setCharge s (to_int q) in Some (s', [(cs_symbol s', cs_charge s', q)])
  end.
(** Database.cpp:654-684: the map after the call, the warnings, and whether the call returned (false:
    an exception left the loop) *)
Fixpoint set_charges (m : smap (chsub A)) : smap (chsub A) * list warning * bool :=
  match m with
  | [] => ([], [], true)
  | (k, s) :: m' =>
      match charge_one s with
      | None => (m, [], false)
      | Some (s', w) => match set_charges m' with (r, ws, b) => ((k, s') :: r, (w ++ ws)%list, b) end
      end
  end.
End Charge.
