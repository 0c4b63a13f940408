(** The files of a property grid: toCSVPropertyGrid, CSVHeaderPropertyGrid, the text foutPropertyGrid writes; OutputBatch.cpp 66-79, 138-172, 295-355.
    The formatting of numbers (precision, fixed, NaN, conversion of units) is a parameter.  A file opens when its directory exists; permissions,
    a full disk and names the system refuses are left out.  Definitions only.  *)
From Coq Require Import String Ascii List Bool Arith Reals.
From Verif Require Import BatchModel CsvModel.
Import ListNotations.
Open Scope list_scope.
Open Scope char_scope.

Definition endl : ascii := "010".
(** 138-172 *)
Definition grid_header (tThenP : bool) (sep uT uP : text) (cols : list text) : text :=
  txt "Symbol" ++ cells_text sep ((if tThenP then txt "T(" ++ uT ++ txt ")_P(" ++ uP ++ [")"] else txt "P(" ++ uP ++ txt ")_T(" ++ uT ++ [")"]) :: cols).
(** 312-316 *)
Definition message : text := txt "Only a loop over T-P pairs is possible when generating property grids".

Section Text.
Variables (V : Type) (fuel : nat) (tpFirst tThenP : bool) (sep uT uP : text) (colf rowf : R -> text) (val : string -> V -> text).
(** 336-353 *)
Definition grid_line (prop : string) (g : grow V) : option text :=
  let '(s, r, vals) := g in option_map (fun x => x ++ cells_text sep (rowf r :: map (fun cv => val prop (snd cv)) vals)) (find_and_replace fuel (txt s) sep ["_"]).
(** the content of the file of the property at [idx]; [None]: an index outside a vector, or still running *)
Definition grid_text (symbols : list string) (t : tps) (res : list (list V)) (idx : nat) (prop : string) : option text :=
  let head := grid_header tThenP sep uT uP (map colf (if tThenP then Ps t else Ts t)) ++ [endl] in
  if tpFirst then
    match foutGrid V tThenP symbols t res idx with
    | Some g => option_map (fun ls => head ++ flat_map (fun l => l ++ [endl]) ls) (all_some (map (grid_line prop) g))
    | None => None
    end
  else Some (head ++ message).

(** files by name; the directory of a name, up to its last slash *)
Definition disk := text -> option text.
Fixpoint dir_of (name : text) : text :=
  match name with [] => [] | c :: s => if existsb (Ascii.eqb "/") (c :: s) then c :: dir_of s else [] end.
Definition put_file (dirs : text -> bool) (name content : text) (f : disk) : disk :=
  if dirs (dir_of name) then fun m => if list_eq_dec ascii_dec m name then Some content else f m else f.
(** 66-79: the name is put together at 71; open, <<, close report nothing *)
Definition grid_name (filename : text) (prop : string) : text := txt prop ++ ["_"] ++ filename.
Definition toCSVPropertyGrid (dirs : text -> bool) (filename : text) (props symbols : list string) (t : tps) (res : list (list V)) (f : disk) : option disk :=
  option_map (fun cs => fold_left (fun f pc => put_file dirs (grid_name filename (fst pc)) (snd pc) f) (combine props cs) f)
    (all_some (map (fun ip => grid_text symbols t res (fst ip) (snd ip)) (combine (seq 0 (length props)) props))).
End Text.
