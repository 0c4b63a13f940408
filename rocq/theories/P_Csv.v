(** C76-C78: the text of the batch output, the settings of a batch, the files of OutputToCSV. *)
From Coq Require Import String Ascii List Bool Arith Lia.
From Verif Require Import CsvModel CsvSpec CsvPf CsvSet CsvEx.
Import ListNotations.
Open Scope list_scope.
Open Scope char_scope.

(** C76: with any separator that is not empty and has no '_' the replacement ends, puts one '_' for each of the separators read from the left, and leaves no separator. *)
Theorem C76_symbol : forall sep s, sep <> [] -> ~ In "_" sep ->
  exists l r, find_and_replace (S (length s)) s sep ["_"] = Some r /\ s = join sep l /\ r = join ["_"] l /\ Forall (fun x => ~ occurs sep x) l /\ ~ occurs sep r.
Proof. exact replace_ok. Qed.
Print Assumptions C76_symbol.
Example C76_symbol_example : find_and_replace 20 (txt "x;;;y;;z") (txt ";;") ["_"] = Some (txt "x_;y_z"). Proof. reflexivity. Qed.

(** A reader that cuts lines at the separator finds the header and the cells of every line again. *)
Theorem C76_table : forall c n uT uP props ls, plain_sep c -> c <> nl -> free c uT -> free nl uT -> free c uP -> free nl uP ->
  Forall (fun p => (free c (fst p) /\ free nl (fst p)) /\ free c (snd p) /\ free nl (snd p)) props -> Forall (line_ok c n) ls ->
  exists rows, all_some (map (fun l => csv_row (S n) [c] (l_sym l) (l_T l) (l_P l) (l_vals l)) ls) = Some rows /\
  read c (file_text (csv_header [c] uT uP props :: rows)) =
  (txt "Symbol" :: (txt "T(" ++ uT ++ [")"]) :: (txt "P(" ++ uP ++ [")"]) :: map (fun p => fst p ++ ["("] ++ snd p ++ [")"]) props) ::
  map (fun l => clean c (l_sym l) :: l_T l :: l_P l :: l_vals l) ls.
Proof. exact table_read. Qed.
Print Assumptions C76_table.
(** In particular with the default units and a comma, a semicolon, a tab or a blank. *)
Theorem C76_default : forall c n uT uP props ls, In c [","; ";"; "009"; " "] -> In ("temperature"%string, uT) defaultPropertyUnits -> In ("pressure"%string, uP) defaultPropertyUnits ->
  incl props defaultPropertyUnits -> Forall (line_ok c n) ls ->
  let tprops := map (fun p => (txt (fst p), txt (snd p))) props in
  exists rows, all_some (map (fun l => csv_row (S n) [c] (l_sym l) (l_T l) (l_P l) (l_vals l)) ls) = Some rows /\
  read c (file_text (csv_header [c] (txt uT) (txt uP) tprops :: rows)) =
  (txt "Symbol" :: (txt "T(" ++ txt uT ++ [")"]) :: (txt "P(" ++ txt uP ++ [")"]) :: map (fun p => fst p ++ ["("] ++ snd p ++ [")"]) tprops) ::
  map (fun l => clean c (l_sym l) :: l_T l :: l_P l :: l_vals l) ls.
Proof. exact default_table. Qed.
Print Assumptions C76_default.
Example C76_table_example : line_ok "," 9 (mkLine (txt "Fe,Mg@") (txt "298.1") (txt "100000.0") [txt "-5.3"; txt "NaN"]) /\
  csv_row 10 [","] (txt "Fe,Mg@") (txt "298.1") (txt "100000.0") [txt "-5.3"; txt "NaN"] = Some (txt "Fe_Mg@,298.1,100000.0,-5.3,NaN") /\
  csv_header [","] (txt "K") (txt "Pa") [(txt "volume", txt "J/bar")] = txt "Symbol,T(K),P(Pa),volume(J/bar)".
Proof. split; [|split; reflexivity]. split; [cbn; lia|]. split; [now apply free_b|]. repeat (constructor; [split; now apply free_b|]). constructor. Qed.
(** The transposed output. *)
Theorem C76_transposed : forall c, plain_sep c ->
  (forall uT uP syms n, free c uT -> free c uP -> Forall (fun s => length s <= n) syms ->
   exists h, csv_header_t (S n) [c] uT uP syms = Some h /\ split c h = txt "Property" :: (txt "T(" ++ uT ++ [")"]) :: (txt "P(" ++ uP ++ [")"]) :: map (clean c) syms) /\
  (forall prop unit T P vals n, free c unit -> free c T -> free c P -> Forall (free c) vals -> length prop <= n ->
   exists row, csv_row_t (S n) [c] prop unit T P vals = Some row /\ split c row = (clean c prop ++ ["("] ++ unit ++ [")"]) :: T :: P :: vals).
Proof. intros c H. split; intros; [now apply header_t_read|now apply row_t_read]. Qed.
Print Assumptions C76_transposed.
Example C76_transposed_example : csv_header_t 9 [";"] (txt "degC") (txt "bar") [txt "H2O@"; txt "a;b"] = Some (txt "Property;T(degC);P(bar);H2O@;a_b") /\
  csv_row_t 9 [";"] (txt "volume") (txt "J/bar") (txt "25.0") (txt "1.0") [txt "1.8"; txt "2"] = Some (txt "volume(J/bar);25.0;1.0;1.8;2").
Proof. split; reflexivity. Qed.
(** An empty separator: the loop never ends, whatever the symbol. *)
Theorem C76_empty_refuted : forall fuel sym T P vals, csv_row fuel [] sym T P vals = None.
Proof. exact endless. Qed.
Print Assumptions C76_empty_refuted.
(** The separator '_' cuts symbols. *)
Theorem C76_underscore_refuted : forall T P vals, free "_" T -> free "_" P -> Forall (free "_") vals ->
  exists row, csv_row 9 ["_"] (txt "a_b") T P vals = Some row /\ split "_" row = txt "a" :: txt "b" :: T :: P :: vals.
Proof. exact underscore. Qed.
Print Assumptions C76_underscore_refuted.
(** Two symbols can give the same line; a separator of two characters can be found one character too early; a new line in a symbol breaks the table. *)
Theorem C76_collision_refuted : forall T P vals, csv_row 9 [","] (txt "a,b") T P vals = csv_row 9 [","] (txt "a_b") T P vals.
Proof. exact collision. Qed.
Print Assumptions C76_collision_refuted.
Theorem C76_two_characters_refuted : forall T P vals, exists row rest, csv_row 9 (txt ";;") (txt "x;") T P vals = Some row /\ row = txt "x" ++ txt ";;" ++ rest /\
  csv_row 9 (txt ";;") (txt "x;") T P vals <> csv_row 9 (txt ";;") (txt "x") T P vals.
Proof. exact two_chars. Qed.
Print Assumptions C76_two_characters_refuted.
Theorem C76_new_line_refuted : forall T P, free "," T -> free nl T -> free "," P -> free nl P ->
  exists row, csv_row 9 [","] (txt "a" ++ [nl] ++ txt "b") T P [] = Some row /\ read "," (file_text [row]) = [[txt "a"]; [txt "b"; T; P]].
Proof. exact new_line. Qed.
Print Assumptions C76_new_line_refuted.

Open Scope string_scope.
(** C77: setPropertyUnit on a known name changes that name only; on an unknown name it throws. *)
Theorem C77_one : forall (V : Type) (m : smap V) k v,
  (In k (keys m) -> exists m', setPropertyUnit m k v = Ok m' /\ keys m' = keys m /\ at_ m' k = Ok v /\ forall k', k' <> k -> at_ m' k' = at_ m k') /\
  (~ In k (keys m) -> setPropertyUnit m k v = Throws).
Proof. intros V m k v. split; [apply one_ok|apply one_missing]. Qed.
Print Assumptions C77_one.
(** setPropertiesUnits with known names and enough units: each name gets the last unit given for it, the others keep theirs. *)
Theorem C77_many : forall (V : Type) ks vs (m : smap V), Forall (fun k => In k (keys m)) ks -> length ks <= length vs ->
  snd (setPropertiesUnits m ks vs) = Ok tt /\ forall k, at_ (fst (setPropertiesUnits m ks vs)) k = match last_for ks vs k with Some v => Ok v | None => at_ m k end.
Proof. exact many_ok. Qed.
Print Assumptions C77_many.
Example C77_many_example : let r := setPropertiesUnits defaultPropertyUnits ["enthalpy"; "temperature"; "enthalpy"] ["kJ/mol"; "degC"; "cal/mol"] in
  snd r = Ok tt /\ at_ (fst r) "enthalpy" = Ok "cal/mol" /\ at_ (fst r) "temperature" = Ok "degC" /\ at_ (fst r) "pressure" = Ok "Pa".
Proof. repeat split. Qed.
(** Fewer units than names: a read past the end of the vector. *)
Theorem C77_short_refuted : forall (V : Type) ks vs (m : smap V), Forall (fun k => In k (keys m)) ks -> length vs < length ks -> snd (setPropertiesUnits m ks vs) = Undefined.
Proof. exact many_short. Qed.
Print Assumptions C77_short_refuted.
(** An unknown name in the middle: the names before it are already changed when the exception comes. *)
Theorem C77_all_or_nothing_refuted : exists (m : smap string) ks vs, snd (setPropertiesUnits m ks vs) = Throws /\ at_ (fst (setPropertiesUnits m ks vs)) "enthalpy" <> at_ m "enthalpy" /\ m = defaultPropertyUnits /\ length ks = length vs.
Proof. exact not_atomic. Qed.
Print Assumptions C77_all_or_nothing_refuted.
(** Whatever was set name by name before, also with exceptions in between, calculating and printing known properties finds every unit. *)
Theorem C77_history_partial : forall (h : list (setting string)) props, Forall keeps h -> incl props (keys defaultPropertyUnits) -> lookups (fold_left apply h defaultPropertyUnits) props = Ok tt.
Proof. exact history_lookups. Qed.
Print Assumptions C77_history_partial.
Example C77_history_example : let h := [One "enthalpy" "kJ/mol"; One "density" "g/cm3"; Many ["logKr"; "bornZ"; "volume"] ["1"; "1"; "cm3/mol"]] in
  Forall keeps h /\ at_ (fold_left apply h defaultPropertyUnits) "enthalpy" = Ok "kJ/mol" /\ at_ (fold_left apply h defaultPropertyUnits) "volume" = Ok "J/bar".
Proof. repeat split; repeat constructor. Qed.
(** The names offered for substances and reactions are the ones of the table, each with a default unit of its dimension and default digits, and a batch asked for any of them answers with that property. *)
Theorem C77_offered : forall what table, In (what, table) [("substance", select_subst); ("reaction", select_react)] -> exists l, scanProperties what = Ok l /\
  (forall n, In n (map fst l) <-> In (n, what) defaultPropertyNames) /\
  (forall n u, In (n, u) l -> at_ defaultPropertyUnits n = Ok u /\ (exists d, at_ defaultPropertyDigits n = Ok d) /\ exists e, In (e, u) dim_ends /\ exists pre, n = append pre e) /\
  forall (W : Type) (field : string -> W) props, incl props (map fst l) -> selectResults table field props = map (fun n => field (meant n)) props.
Proof. exact offered_all. Qed.
Print Assumptions C77_offered.
Example C77_offered_example : incl ["volume"; "entropy"; "volume"] ["entropy"; "volume"] /\ selectResults select_subst (fun f => f) ["volume"; "entropy"; "volume"] = ["volume"; "entropy"; "volume"] /\
  selectResults select_react (fun f => f) ["logKr"; "no such name"; "lnKr"] = ["log_equilibrium_constant"; "ln_equilibrium_constant"].
Proof. split; [intros x H; cbn in *; tauto|]. split; reflexivity. Qed.
(** The names of the solvent properties are in the table but have no default unit: listing them throws. *)
Theorem C77_solvent_refuted : scanProperties "solvent" = Throws /\ (forall n, In (n, "solvent") defaultPropertyNames -> at_ defaultPropertyUnits n = Throws /\ forall u, setPropertyUnit defaultPropertyUnits n u = Throws) /\ In ("density", "solvent") defaultPropertyNames.
Proof. exact solvent_names. Qed.
Print Assumptions C77_solvent_refuted.
(** setUnits replaces the table: a batch that had units for a property may have none for the temperature afterwards. *)
Theorem C77_replace_refuted : exists m : smap string, lookups defaultPropertyUnits ["enthalpy"] = Ok tt /\ lookups (setUnits defaultPropertyUnits m) ["enthalpy"] = Throws /\ at_ m "enthalpy" = Ok "kJ/mol".
Proof. exact replaced_table. Qed.
Print Assumptions C77_replace_refuted.
(** toDouble gives the value in the default unit: it is the printed number only where the conversion changes nothing.  Without a result it reads outside. *)
Theorem C77_to_double_refuted : (forall (W U : Type) (convert : W -> U -> U -> W) from to prop v row rows w, printed convert from to prop v = Ok w ->
    toDouble ((v :: row) :: rows) = Ok v /\ (toDouble ((v :: row) :: rows) = printed convert from to prop v <-> w = v)) /\
  (forall W : Type, toDouble (@nil (list W)) = Undefined /\ forall rows, toDouble (@nil W :: rows) = Undefined).
Proof. split; [exact raw_value|exact no_result]. Qed.
Print Assumptions C77_to_double_refuted.

(** C78: files opened, written and closed in turn have the header and then the rows, the last use of a name counting. *)
Theorem C78_sessions_partial : forall header ss n, files (crun header (flat_map session ss) fresh) n = expected header ss n.
Proof. exact protocol. Qed.
Print Assumptions C78_sessions_partial.
Example C78_sessions_example : expected (txt "h") [("a", [txt "1"; txt "2"]); ("b", [txt "3"]); ("a", [txt "4"])] "a" = Some [txt "h"; txt "4"] /\
  expected (txt "h") [("a", [txt "1"; txt "2"]); ("b", [txt "3"]); ("a", [txt "4"])] "b" = Some [txt "h"; txt "3"].
Proof. split; reflexivity. Qed.
(** A second open without a close: no row of the second file is written anywhere. *)
Theorem C78_reopen_refuted : forall header a b rows rows' ss, b <> a ->
  let c := crun header (flat_map session ss ++ COpen a :: map CWrite rows ++ COpen b :: map CWrite rows' ++ [CClose]) fresh in
  files c a = Some (content header rows) /\ files c b = expected header ss b.
Proof. exact reopen_loses. Qed.
Print Assumptions C78_reopen_refuted.
(** A row before the first open: the file opened afterwards has no header. *)
Theorem C78_early_refuted : forall header a r rows, files (crun header (CWrite r :: COpen a :: map CWrite rows ++ [CClose]) fresh) a = Some rows.
Proof. exact early_write. Qed.
Print Assumptions C78_early_refuted.
(** The rows of the first two files have as many cells as their headers; the electro file repeats bornX, so every later cell is one column too far right. *)
Theorem C78_columns : (forall cells : list text, length cells = length row_thermo -> Forall (free ","%char) cells -> length (split "," (join [","%char] cells)) = length (split "," (txt head_thermo))) /\
  (forall cells : list text, length cells = length row_solvent -> Forall (free ","%char) cells -> length (split "," (join [","%char] cells)) = length (split "," (txt head_solvent))).
Proof. split; [exact columns_thermo|exact columns_solvent]. Qed.
Print Assumptions C78_columns.
(** and each cell is under a header that names it. *)
Theorem C78_column_names : forall head row, In (head, row) [(head_thermo, row_thermo); (head_solvent, row_solvent)] -> forall i h p, nth_error (split "," (txt head)) i = Some (txt h) -> nth_error row i = Some p -> In (h, p) cell_means.
Proof. exact column_names. Qed.
Print Assumptions C78_column_names.
Example C78_column_names_example : nth_error (split "," (txt head_solvent)) 4 = Some (txt "Rho_dT((kg/m3)/K)") /\ nth_error row_solvent 4 = Some "densityT"%string.
Proof. split; reflexivity. Qed.
Theorem C78_electro_refuted : length (split "," (txt head_electro)) = length electro_labels /\ length row_electro = 16 /\
  (forall i, i < 7 -> nth_error row_electro i = nth_error electro_labels i) /\
  (forall i, 7 <= i < 15 -> nth_error row_electro i <> nth_error electro_labels i /\ nth_error row_electro (S i) = nth_error electro_labels i).
Proof. exact columns_electro. Qed.
Print Assumptions C78_electro_refuted.
