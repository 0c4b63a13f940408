(** Model of the text that OutputBatch.cpp and Common/OutputToCSV.cpp write, and of the settings of ThermoBatch.cpp.  Definitions only.
    Texts are lists of characters.  The formatting of numbers by the stream is a parameter.  *)
From Coq Require Import String Ascii List Bool Arith.
Import ListNotations.
Open Scope list_scope.
Open Scope char_scope.

Definition text := list ascii.
Definition txt (s : string) : text := list_ascii_of_string s.

(** *** std::string::find: the leftmost place of [sep], what is before it and what is after it *)
Fixpoint strip (sep s : text) : option text :=
  match sep, s with
  | [], _ => Some s
  | a :: sep', b :: s' => if Ascii.eqb a b then strip sep' s' else None
  | _ :: _, [] => None
  end.
Fixpoint cut (sep s : text) : option (text * text) :=
  match strip sep s with
  | Some r => Some ([], r)
  | None => match s with [] => None | c :: s' => match cut sep s' with Some (a, b) => Some (c :: a, b) | None => None end end
  end.
(** find_and_replace, OutputBatch.cpp:34-42; [None]: still running after [fuel] rounds *)
Fixpoint replace_from (fuel : nat) (sep rep done rest : text) : option text :=
  match fuel with
  | O => None
  | S fuel => match cut sep rest with None => Some (done ++ rest) | Some (a, b) => replace_from fuel sep rep (done ++ a ++ rep) b end
  end.
Definition find_and_replace (fuel : nat) (source sep rep : text) : option text := replace_from fuel sep rep [] source.

(** *** lines of OutputBatch.cpp; a cell is printed as a separator and a text *)
Definition cells_text (sep : text) (l : list text) : text := flat_map (fun c => sep ++ c) l.
(** CSVHeader, OutputBatch.cpp:108-121: properties with their units *)
Definition csv_header (sep uT uP : text) (props : list (text * text)) : text :=
  txt "Symbol" ++ cells_text sep ((txt "T(" ++ uT ++ [")"]) :: (txt "P(" ++ uP ++ [")"]) :: map (fun p => fst p ++ ["("] ++ snd p ++ [")"]) props).
(** foutResults, OutputBatch.cpp:212-227 *)
Definition csv_row (fuel : nat) (sep symbol T P : text) (vals : list text) : option text :=
  option_map (fun s => s ++ cells_text sep (T :: P :: vals)) (find_and_replace fuel symbol sep ["_"]).
(** CSVHeaderTransposed, OutputBatch.cpp:123-136, and foutResultsTransposed, 271-290 *)
Fixpoint all_some {A : Type} (l : list (option A)) : option (list A) :=
  match l with [] => Some [] | Some a :: l' => option_map (cons a) (all_some l') | None :: _ => None end.
Definition csv_header_t (fuel : nat) (sep uT uP : text) (symbols : list text) : option text :=
  option_map (fun ss => txt "Property" ++ cells_text sep ((txt "T(" ++ uT ++ [")"]) :: (txt "P(" ++ uP ++ [")"]) :: ss))
    (all_some (map (fun s => find_and_replace fuel s sep ["_"]) symbols)).
Definition csv_row_t (fuel : nat) (sep property unit T P : text) (vals : list text) : option text :=
  option_map (fun s => (s ++ ["("] ++ unit ++ [")"]) ++ cells_text sep (T :: P :: vals)) (find_and_replace fuel property sep ["_"]).

(** *** settings: the unit of a property, ThermoBatch.cpp:509-546.  [at] throws for a missing key; units[i] past the end is undefined behaviour *)
Inductive result (A : Type) : Type := Ok (a : A) | Throws | Undefined.
Arguments Ok {A} _. Arguments Throws {A}. Arguments Undefined {A}.
Section Settings.
Variable V : Type.
Definition smap : Type := list (string * V).
Fixpoint at_ (m : smap) (k : string) : result V :=
  match m with [] => Throws | (k', v) :: m' => if String.eqb k k' then Ok v else at_ m' k end.
Fixpoint set_at (m : smap) (k : string) (v : V) : smap :=
  match m with [] => [] | (k', v') :: m' => if String.eqb k k' then (k', v) :: m' else (k', v') :: set_at m' k v end.
(** setPropertyUnit, ThermoBatch.cpp:532-535, setPropertyDigit 537-540: the settings afterwards, and whether it ended *)
Definition setPropertyUnit (m : smap) (k : string) (v : V) : result smap :=
  match at_ m k with Ok _ => Ok (set_at m k v) | Throws => Throws | Undefined => Undefined end.
(** setPropertiesUnits, ThermoBatch.cpp:520-524, setPropertiesDigits 526-530: the loop over the properties *)
Fixpoint setPropertiesUnits (m : smap) (ks : list string) (vs : list V) : smap * result unit :=
  match ks with
  | [] => (m, Ok tt)
  | k :: ks' =>
    match vs with
    | [] => (m, Undefined)
    | v :: vs' => match setPropertyUnit m k v with Ok m' => setPropertiesUnits m' ks' vs' | Throws => (m, Throws) | Undefined => (m, Undefined) end
    end
  end.
(** setUnits, ThermoBatch.cpp:515-518, setDigits 510-513 *)
Definition setUnits (_ new : smap) : smap := new.
Inductive setting : Type := One (k : string) (v : V) | Many (ks : list string) (vs : list V) | All (m : smap).
Definition apply (m : smap) (s : setting) : smap :=
  match s with One k v => match setPropertyUnit m k v with Ok m' => m' | _ => m end | Many ks vs => fst (setPropertiesUnits m ks vs) | All n => setUnits m n end.
End Settings.
Arguments at_ {V}. Arguments set_at {V}. Arguments setPropertyUnit {V}. Arguments setPropertiesUnits {V}. Arguments setUnits {V}. Arguments One {V}. Arguments Many {V}. Arguments All {V}. Arguments apply {V}.

(** ThermoBatch.h:268-293 *)
Definition defaultPropertyUnits : smap string :=
  [("temperature", "K"); ("pressure", "Pa"); ("gibbs_energy", "J/mol"); ("enthalpy", "J/mol"); ("entropy", "J/K/mol"); ("heat_capacity_cp", "J/K/mol"); ("heat_capacity_cv", "J/K/mol"); ("volume", "J/bar");
   ("helmholtz_energy", "J/mol"); ("internal_energy", "J/mol"); ("reaction_gibbs_energy", "J/mol"); ("reaction_helmholtz_energy", "J/mol"); ("reaction_internal_energy", "J/mol"); ("reaction_enthalpy", "J/mol");
   ("reaction_entropy", "J/K/mol"); ("reaction_volume", "J/bar"); ("reaction_heat_capacity_cp", "J/K/mol"); ("reaction_heat_capacity_cv", "J/K/mol"); ("logKr", "1"); ("lnKr", "1")]%string.
(** what calculate 249-253, the headers and the rows look up: temperature, pressure and every property *)
Definition lookups {V : Type} (m : smap V) (props : list string) : result unit :=
  fold_right (fun k r => match at_ m k with Ok _ => r | Throws => Throws | Undefined => Undefined end) (Ok tt) ("temperature" :: "pressure" :: props)%string.
(** Output::toDouble, OutputBatch.cpp:81-84, and toThermoScalar, 86-89, of results[0][0]; the printed cell, 225, converts to the unit of the property *)
Definition toDouble {W : Type} (results : list (list W)) : result W := match results with (v :: _) :: _ => Ok v | _ => Undefined end.
Definition printed {W U : Type} (convert : W -> U -> U -> W) (from to : smap U) (prop : string) (v : W) : result W :=
  match at_ from prop, at_ to prop with Ok a, Ok b => Ok (convert v a b) | _, _ => Throws end.

(** *** OutputToCSV: one of its three files.  The stream (open or not, failed or not, where it writes), the header flag, and the files by name.
    open on an open stream sets the fail bit and changes nothing; a successful open truncates and clears it; output to a closed stream fails *)
Record csv : Type := mkCsv { c_open : option string; c_fail : bool; c_head : bool; files : string -> option (list text) }.
Inductive cop : Type := COpen (name : string) | CClose | CWrite (row : text).
Definition put (c : csv) (l : text) : csv :=
  match c_open c, c_fail c with
  | Some n, false => mkCsv (Some n) false (c_head c) (fun m => if String.eqb m n then option_map (fun ls => ls ++ [l]) (files c n) else files c m)
  | o, _ => mkCsv o true (c_head c) (files c)
  end.
(** OutputToCSV.cpp:63-79 close..., 81-106 open..., 108-154 write...; opening a closed stream succeeds *)
Definition cstep (header : text) (c : csv) (o : cop) : csv :=
  match o with
  | COpen n => match c_open c with
               | Some _ => mkCsv (c_open c) true (c_head c) (files c)
               | None => mkCsv (Some n) false (c_head c) (fun m => if String.eqb m n then Some [] else files c m)
               end
  | CClose => match c_open c with Some _ => mkCsv None (c_fail c) false (files c) | None => c end
  | CWrite row => let c := if c_head c then c else let c' := put c header in mkCsv (c_open c') (c_fail c') true (files c') in put c row
  end.
Definition crun (header : text) (h : list cop) (c : csv) : csv := fold_left (cstep header) h c.
Definition fresh : csv := mkCsv None false false (fun _ => None).
(** the rows, as the names of what is printed, OutputToCSV.cpp:118-121, 134-136, 149-153 *)
Definition row_thermo : list string := ["symbol"; "T"; "P"; "gibbs_energy"; "enthalpy"; "entropy"; "heat_capacity_cp"; "heat_capacity_cv"; "volume"; "helmholtz_energy"; "internal_energy"]%string.
Definition row_solvent : list string := ["symbol"; "T"; "P"; "density"; "densityT"; "densityP"; "densityTT"; "densityTP"; "densityPP"; "Alpha"; "dAldT"; "Beta"]%string.
Definition row_electro : list string := ["symbol"; "T"; "P"; "bornN"; "bornQ"; "bornU"; "bornX"; "bornX"; "bornY"; "bornZ"; "epsilon"; "epsilonP"; "epsilonPP"; "epsilonT"; "epsilonTP"; "epsilonTT"]%string.
(** OutputToCSV.h:25-30 *)
Definition head_thermo : string := "Substance,T(C),P(bar),G0(J/mol),H0(J/mol),S0(J/molK),Cp0(J/molK),Cv0(J/molK),V0(J/bar),A0(J/mol),U0(J/mol)".
Definition head_solvent : string := "Substance,T(C),P(bar),Rho(kg/m3),Rho_dT((kg/m3)/K),Rho_dP((kg/m3)/Pa),Rho_d2T((kg/m3)/K2),Rho_dTdP((kg/m3)/KPa),Rho_d2P((kg/m3)/Pa2,Aplha(1/K),Alpha_dT,Beta(1/Pa)".
Definition head_electro : string := "Substance,T(C),P(bar),bornN(Pa-2),bornQ(Pa-1),bornU(Pa-1K-1),bornX(K-2),bornY(K-1),bornZ,eps,eps_dP,eps_d2P,eps_dT,eps_dTdP,eps_d2T".

(** *** the names of the properties.  ThermoBatch.h:169-214 *)
Definition defaultPropertyNames : smap string :=
  map (fun n => (n, "substance"%string)) ["gibbs_energy"; "enthalpy"; "entropy"; "heat_capacity_cp"; "heat_capacity_cv"; "volume"; "helmholtz_energy"; "internal_energy"]%string ++
   map (fun n => (n, "reaction"%string)) ["reaction_gibbs_energy"; "reaction_helmholtz_energy"; "reaction_internal_energy"; "reaction_enthalpy"; "reaction_entropy"; "reaction_volume"; "reaction_heat_capacity_cp"; "reaction_heat_capacity_cv"; "logKr"; "lnKr"]%string ++
   map (fun n => (n, "solvent"%string)) ["density"; "densityT"; "densityP"; "densityTT"; "densityTP"; "densityPP"; "alpha"; "beta"; "alphaT"; "epsilon"; "epsilonT"; "epsilonP"; "epsilonTT"; "epsilonTP"; "epsilonPP"; "bornZ"; "bornY"; "bornQ"; "bornN"; "bornU"; "bornX"]%string.
(** ThermoBatch.h:294-319 *)
Definition defaultPropertyDigits : smap nat :=
  [("temperature", 1); ("pressure", 1); ("gibbs_energy", 0); ("enthalpy", 0); ("entropy", 3); ("heat_capacity_cp", 3); ("heat_capacity_cv", 3); ("volume", 3); ("helmholtz_energy", 0); ("internal_energy", 0);
   ("reaction_gibbs_energy", 0); ("reaction_helmholtz_energy", 0); ("reaction_internal_energy", 0); ("reaction_enthalpy", 0); ("reaction_entropy", 3); ("reaction_volume", 3); ("reaction_heat_capacity_cp", 3); ("reaction_heat_capacity_cv", 3);
   ("logKr", 3); ("lnKr", 3)]%string.
(** the names selectResultsSubst, ThermoBatch.cpp:180-196, and selectResultsReact, 229-246, compare with, and the field of the record each pushes *)
Definition select_subst : list (string * string) :=
  [("gibbs_energy", "gibbs_energy"); ("helmholtz_energy", "helmholtz_energy"); ("internal_energy", "internal_energy"); ("enthalpy", "enthalpy"); ("entropy", "entropy"); ("volume", "volume"); ("heat_capacity_cp", "heat_capacity_cp"); ("heat_capacity_cv", "heat_capacity_cv")]%string.
Definition select_react : list (string * string) :=
  [("reaction_gibbs_energy", "reaction_gibbs_energy"); ("reaction_helmholtz_energy", "reaction_helmholtz_energy"); ("reaction_internal_energy", "reaction_internal_energy"); ("reaction_enthalpy", "reaction_enthalpy"); ("reaction_entropy", "reaction_entropy");
   ("reaction_volume", "reaction_volume"); ("reaction_heat_capacity_cp", "reaction_heat_capacity_cp"); ("reaction_heat_capacity_cv", "reaction_heat_capacity_cv"); ("logKr", "log_equilibrium_constant"); ("lnKr", "ln_equilibrium_constant")]%string.
(** the loop: every comparison that holds pushes *)
Definition selectResults {W : Type} (table : list (string * string)) (field : string -> W) (properties : list string) : list W :=
  flat_map (fun name => flat_map (fun nf => if String.eqb name (fst nf) then [field (snd nf)] else []) table) properties.
(** scanProperties, GlobalFunctions.cpp:22-34: the lines as pairs of name and unit *)
Definition scanProperties (what : string) : result (list (string * string)) :=
  fold_right (fun a r => if String.eqb (snd a) what then match at_ defaultPropertyUnits (fst a), r with Ok u, Ok l => Ok ((fst a, u) :: l) | Undefined, _ => Undefined | _, Undefined => Undefined | _, _ => Throws end else r) (Ok []) defaultPropertyNames.
