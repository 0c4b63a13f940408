(** What a reader of the files expects, said without the model of the writer. *)
From Coq Require Import String Ascii List Bool Arith.
From Verif Require Import CsvModel.
Import ListNotations.
Open Scope list_scope.
Open Scope char_scope.

(** [sep] is somewhere in [s] *)
Definition occurs (sep s : text) : Prop := exists a b, s = a ++ sep ++ b.
Fixpoint join (sep : text) (l : list text) : text := match l with [] => [] | [x] => x | x :: l' => x ++ sep ++ join sep l' end.
(** a reader that cuts at every character c *)
Fixpoint split (c : ascii) (s : text) : list text :=
  match s with
  | [] => [[]]
  | x :: s' => if Ascii.eqb x c then [] :: split c s' else match split c s' with f :: fs => (x :: f) :: fs | [] => [[x]] end
  end.
Definition nl : ascii := "010".
(** the file of a list of lines, each ended by a new line, and its reader *)
Definition file_text (l : list text) : text := flat_map (fun r => r ++ [nl]) l.
Definition read (c : ascii) (file : text) : list (list text) := map (split c) (removelast (split nl file)).
(** every c becomes '_' *)
Definition clean (c : ascii) (s : text) : text := map (fun x => if Ascii.eqb x c then "_" else x) s.
(** a separator that is in none of the fixed words of the headers *)
Definition plain_sep (c : ascii) : Prop := forallb (fun x => negb (Ascii.eqb x c)) (txt "SymbolPropertyT()_") = true.
Definition free (c : ascii) (s : text) : Prop := ~ In c s.

Definition keys {V : Type} (m : smap V) : list string := map fst m.
(** the value that the last assignment to k in the two lists gives *)
Fixpoint last_for {V : Type} (ks : list string) (vs : list V) (k : string) : option V :=
  match ks, vs with
  | a :: ks', v :: vs' => match last_for ks' vs' k with Some w => Some w | None => if String.eqb k a then Some v else None end
  | _, _ => None
  end.
(** settings that do not replace the whole table *)
Definition keeps {V : Type} (s : setting V) : Prop := match s with All _ => False | _ => True end.
(** a use of OutputToCSV: open a file, write rows, close it *)
Definition session (s : string * list text) : list cop := COpen (fst s) :: map CWrite (snd s) ++ [CClose].
Definition content (header : text) (rows : list text) : list text := match rows with [] => [] | _ => header :: rows end.
(** the file after the sessions: what the last session of that name wrote *)
Fixpoint expected (header : text) (ss : list (string * list text)) (n : string) : option (list text) :=
  match ss with [] => None | s :: ss' => match expected header ss' n with Some l => Some l | None => if String.eqb n (fst s) then Some (content header (snd s)) else None end end.
(** a line of the table: symbol, temperature, pressure and values as printed; the printed numbers have neither the separator nor a new line *)
Record line : Type := mkLine { l_sym : text; l_T : text; l_P : text; l_vals : list text }.
Definition line_ok (c : ascii) (n : nat) (l : line) : Prop :=
  length (l_sym l) <= n /\ free nl (l_sym l) /\ Forall (fun x => free c x /\ free nl x) (l_T l :: l_P l :: l_vals l).
(** what the header of the electro file announces *)
Definition electro_labels : list string := ["symbol"; "T"; "P"; "bornN"; "bornQ"; "bornU"; "bornX"; "bornY"; "bornZ"; "epsilon"; "epsilonP"; "epsilonPP"; "epsilonT"; "epsilonTP"; "epsilonTT"]%string.
(** what the cells of the headers of the first two files name *)
Definition cell_means : list (string * string) :=
  [("Substance", "symbol"); ("T(C)", "T"); ("P(bar)", "P"); ("G0(J/mol)", "gibbs_energy"); ("H0(J/mol)", "enthalpy"); ("S0(J/molK)", "entropy"); ("Cp0(J/molK)", "heat_capacity_cp");
   ("Cv0(J/molK)", "heat_capacity_cv"); ("V0(J/bar)", "volume"); ("A0(J/mol)", "helmholtz_energy"); ("U0(J/mol)", "internal_energy");
   ("Rho(kg/m3)", "density"); ("Rho_dT((kg/m3)/K)", "densityT"); ("Rho_dP((kg/m3)/Pa)", "densityP"); ("Rho_d2T((kg/m3)/K2)", "densityTT"); ("Rho_dTdP((kg/m3)/KPa)", "densityTP");
   ("Rho_d2P((kg/m3)/Pa2", "densityPP"); ("Aplha(1/K)", "Alpha"); ("Alpha_dT", "dAldT"); ("Beta(1/Pa)", "Beta")]%string.
(** the field of the record a user means by a name of a property *)
Definition meant (name : string) : string :=
  (if String.eqb name "logKr" then "log_equilibrium_constant" else if String.eqb name "lnKr" then "ln_equilibrium_constant" else name)%string.
(** the dimension of a property by the end of its name *)
Definition dim_ends : list (string * string) :=
  [("gibbs_energy", "J/mol"); ("enthalpy", "J/mol"); ("helmholtz_energy", "J/mol"); ("internal_energy", "J/mol"); ("entropy", "J/K/mol"); ("heat_capacity_cp", "J/K/mol"); ("heat_capacity_cv", "J/K/mol"); ("volume", "J/bar"); ("logKr", "1"); ("lnKr", "1")]%string.
