(** C106: the files of a property grid.  Statements only; proofs are in CsvGridPf.v.  *)
From Coq Require Import String Ascii List Bool Arith Lia Reals Lra.
From Verif Require Import BatchModel BatchSpec BatchWit CsvModel CsvSpec CsvPf CsvGrid CsvGridPf.
Import ListNotations.
Open Scope list_scope.
Open Scope nat_scope.
Open Scope char_scope.

(** C106: from the calculation to the disk.  One file per property, named property_filename; no other file changes.  Cut at the separator, its first line has the columns,
    the others symbol, row value and, under each column, what the engine answers there. *)
Theorem C106_files : forall V ask toT toP fromP c n b uT uP colf rowf val dirs filename symbols names ts ps f, NoDup ts -> NoDup ps -> ts <> [] -> ps <> [] -> symbols <> [] -> NoDup names ->
  quiet V ask toT toP fromP symbols (gridPairs b ts ps) -> known V ask toT toP symbols names (gridPairs b ts ps) ->
  plain_sep c -> c <> nl -> free c uT -> free nl uT -> free c uP -> free nl uP -> (forall x, free c (colf x) /\ free nl (colf x)) -> (forall x, free c (rowf x) /\ free nl (rowf x)) ->
  (forall p v, free c (val p v) /\ free nl (val p v)) -> Forall (fun s => free nl (txt s) /\ length (txt s) <= n) symbols ->
  dirs [] = true -> ~ In "/" filename -> Forall (fun p => ~ In "/" (txt p)) names ->
  let rows := if b then ts else ps in let cols := if b then ps else ts in
  exists t' res log f', calculate V ask toT toP fromP true symbols names (addGrid b ts ps) = Some (t', res, log) /\
    toCSVPropertyGrid V (S n) true b [c] uT uP colf rowf val dirs filename names symbols t' res f = Some f' /\
    (forall m, ~ In m (map (grid_name filename) names) -> f' m = f m) /\
    forall p, In p names -> exists file lines, f' (grid_name filename p) = Some file /\
      read c file = (txt "Symbol" :: (if b then txt "T(" ++ uT ++ txt ")_P(" ++ uP ++ [")"] else txt "P(" ++ uP ++ txt ")_T(" ++ uT ++ [")"]) :: map colf cols) :: lines /\
      Forall2 (fun sr line => exists vs, line = clean c (txt (fst sr)) :: rowf (snd sr) :: map (val p) vs /\
        Forall2 (fun x v => is_value V ask toT toP (fst sr) (if b then snd sr else x) (if b then x else snd sr) p v) cols vs) (flat_map (fun s => map (fun r => (s, r)) rows) symbols) lines.
Proof. exact grid_disk. Qed.
Print Assumptions C106_files.
Example C106_files_case : let name := txt "grid.csv" in
  quiet R sat_ask idR idR idR ["quartz"; "water"]%string (gridPairs true [10; 20]%R [1; 2]%R) /\ known R sat_ask idR idR ["quartz"; "water"]%string ["gibbs_energy"%string] (gridPairs true [10; 20]%R [1; 2]%R) /\
  plain_sep "," /\ "," <> nl /\ Forall (fun s => free nl (txt s) /\ length (txt s) <= 9) ["quartz"; "water"]%string /\ ~ In "/" name /\ grid_name name "gibbs_energy" = txt "gibbs_energy_grid.csv" /\
  grid_header true [","] (txt "degC") (txt "bar") [txt "1"; txt "2"] = txt "Symbol,T(degC)_P(bar),1,2".
Proof.
  cbv zeta. split; [exact (proj2 grid_hypotheses)|]. split; [apply sat_known|]. split; [reflexivity|]. split; [discriminate|].
  split; [repeat (constructor; [split; [now apply free_b|cbn; lia]|]); constructor|]. split; [now apply free_b|]. split; reflexivity.
Qed.
(** A name with a directory: the property goes before the directory, and with the directory asked for and the current one nothing is written and nothing reported. *)
Theorem C106_path_refuted : forall V fuel tpFirst b sep uT uP colf rowf val dirs filename names symbols t res f f', In "/" filename -> (forall d, dirs d = true <-> d = [] \/ d = dir_of filename) ->
  toCSVPropertyGrid V fuel tpFirst b sep uT uP colf rowf val dirs filename names symbols t res f = Some f' -> f' = f.
Proof. exact grid_path. Qed.
Print Assumptions C106_path_refuted.
Example C106_path_case : dir_of (txt "/tmp/grid.csv") = txt "/tmp/" /\ dir_of (grid_name (txt "/tmp/grid.csv") "entropy") = txt "entropy_/tmp/" /\
  exists f', toCSVPropertyGrid R 9 true true [","] (txt "K") (txt "Pa") (fun _ => txt "1") (fun _ => txt "1") (fun _ _ => txt "2") (fun _ => false) (txt "/tmp/grid.csv") ["entropy"%string] [] noTP [] (fun _ => None) = Some f'.
Proof. split; [reflexivity|]. split; [reflexivity|]. eexists. reflexivity. Qed.
(** With the loop over symbols first every file has the columns and a sentence instead of values. *)
Theorem C106_loop_refuted : forall V fuel b sep uT uP colf rowf val symbols t res res' idx p,
  grid_text V fuel false b sep uT uP colf rowf val symbols t res idx p = Some (grid_header b sep uT uP (map colf (if b then Ps t else Ts t)) ++ [endl] ++ message) /\
  grid_text V fuel false b sep uT uP colf rowf val symbols t res idx p = grid_text V fuel false b sep uT uP colf rowf val symbols t res' idx p.
Proof. exact grid_message. Qed.
Print Assumptions C106_loop_refuted.
