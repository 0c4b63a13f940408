(** Model of ThermoFun::Database (Database.cpp).  Definitions only. *)
From Coq Require Import String List Bool Arith.
Import ListNotations.
Open Scope string_scope.

(** std::map<std::string, V>: association list sorted by [String.ltb] (bytes compared as unsigned
    char, as std::char_traits<char> does). *)
Definition smap (V : Type) := list (string * V).
Definition sltb (a b : string) : bool := match String.compare a b with Lt => true | _ => false end.

(** std::map::find *)
Fixpoint mfind {V} (k : string) (m : smap V) : option V :=
  match m with
  | [] => None
  | (k', v) :: m' => match String.compare k k' with Eq => Some v | Lt => None | Gt => mfind k m' end
  end.
(** std::map::operator[] followed by assignment *)
Fixpoint mset {V} (k : string) (v : V) (m : smap V) : smap V :=
  match m with
  | [] => [(k, v)]
  | (k', v') :: m' => match String.compare k k' with
                      | Eq => (k, v) :: m' | Lt => (k, v) :: m | Gt => (k', v') :: mset k v m' end
  end.
(** std::map::insert: an existing entry is kept *)
Definition minsert {V} (k : string) (v : V) (m : smap V) : smap V :=
  match mfind k m with Some _ => m | None => mset k v m end.
(** std::map::count *)
Definition mcount {V} (k : string) (m : smap V) : nat := match mfind k m with Some _ => 1 | None => 0 end.
(** a std::map built from any list of pairs, as a caller of addMapX would *)
Definition mbuild {V} (l : list (string * V)) : smap V := fold_right (fun p m => mset (fst p) (snd p) m) [] l.

(** outcome of a call: value, json::exception, any other exception *)
Inductive outc (A : Type) : Type := Ok (a : A) | JsonEx | OtherEx.
Arguments Ok {A}. Arguments JsonEx {A}. Arguments OtherEx {A}.

Section Db.
(** E, S, R: element, substance, reaction records; D: ChemicalFun::DBElements; J: parsed json. *)
Variables E S R D J : Type.
Variable symE : E -> string.
Variable symS : S -> string.
Variable symR : R -> string.
(** Database.cpp:203-212, 220-224, 233-237: default records of the accessors.  The element
    default may come from the formula-parser data. *)
Variable blankE : D -> string -> E.
Variable blankS : string -> S.
Variable blankR : string -> R.
(** Database.cpp:72-77 with Element.cpp:195-211: enter an element in the formula-parser data;
    this also fills in a missing valence of the stored record. *)
Variable toKey : E -> E.
Variable addDB : E -> D -> D.
(** ParseJsonToData.cpp parseSubstance / parseReaction / parseElement and nlohmann json *)
Variable parseE : J -> outc E.
Variable parseS : J -> outc S.
Variable parseR : J -> outc R.
Variable labelOf : J -> outc (option string).  (* "_label", Database.cpp:289-291 *)
Variable propsOf : J -> J.                     (* "properties", Database.cpp:284-288,293 *)
Variable jparse : string -> option J.          (* json::parse *)

(** Database.cpp:27-43 (conventions left out: only stored and returned) *)
Record db : Type := mkDb { d_el : smap E; d_su : smap S; d_re : smap R; d_all : D }.
Definition with_el (d : db) x := mkDb x (d_su d) (d_re d) (d_all d).
Definition with_su (d : db) x := mkDb (d_el d) x (d_re d) (d_all d).
Definition with_re (d : db) x := mkDb (d_el d) (d_su d) x (d_all d).
Definition with_all (d : db) x := mkDb (d_el d) (d_su d) (d_re d) x.

(** Database.cpp:79-85 setDBElements on a copy of the map: the stored records keep their valence *)
Definition setDBElements (d : db) : db := with_all d (fold_left (fun a p => addDB (snd p) a) (d_el d) (d_all d)).
(** Database.cpp:72-77 on the stored element under key k *)
Definition setDBElement (k : string) (d : db) : db :=
  match mfind k (d_el d) with
  | Some e => with_all (with_el d (mset k (toKey e) (d_el d))) (addDB e (d_all d))
  | None => d
  end.

(** Database.cpp:95-144 *)
Definition addElement (e : E) (d : db) : db := setDBElement (symE e) (with_el d (minsert (symE e) e (d_el d))).
Definition setElement (e : E) (d : db) : db := setDBElement (symE e) (with_el d (mset (symE e) e (d_el d))).
Definition addSubstance (s : S) (d : db) : db := with_su d (minsert (symS s) s (d_su d)).
Definition setSubstance (s : S) (d : db) : db := with_su d (mset (symS s) s (d_su d)).
Definition addReaction (r : R) (d : db) : db := with_re d (minsert (symR r) r (d_re d)).
Definition setReaction (r : R) (d : db) : db := with_re d (mset (symR r) r (d_re d)).
Definition addMapElements (m : smap E) (d : db) : db := setDBElements (with_el d m).
Definition addMapSubstances (m : smap S) (d : db) : db := with_su d m.
Definition addMapReactions (m : smap R) (d : db) : db := with_re d m.

(** Database.cpp:176-198: throws for an unknown symbol *)
Definition getElement (k : string) (d : db) : outc E := match mfind k (d_el d) with Some e => Ok e | None => OtherEx end.
Definition getSubstance (k : string) (d : db) : outc S := match mfind k (d_su d) with Some e => Ok e | None => OtherEx end.
Definition getReaction (k : string) (d : db) : outc R := match mfind k (d_re d) with Some e => Ok e | None => OtherEx end.

(** Database.cpp:200-240: accessors returning a reference; [f] is what the caller does to the
    record through it *)
Definition element (k : string) (f : E -> E) (d : db) : db :=
  let m := match mfind k (d_el d) with Some _ => d_el d | None => mset k (blankE (d_all d) k) (d_el d) end in
  match mfind k m with Some e => with_el d (mset k (f e) m) | None => with_el d m end.
Definition substance (k : string) (f : S -> S) (d : db) : db :=
  let m := match mfind k (d_su d) with Some _ => d_su d | None => mset k (blankS k) (d_su d) end in
  match mfind k m with Some e => with_su d (mset k (f e) m) | None => with_su d m end.
Definition reaction (k : string) (f : R -> R) (d : db) : db :=
  let m := match mfind k (d_re d) with Some _ => d_re d | None => mset k (blankR k) (d_re d) end in
  match mfind k m with Some e => with_re d (mset k (f e) m) | None => with_re d m end.

(** Database.cpp:146-174, 257-270, 566-594 *)
Definition values {V} (m : smap V) : list V := map snd m.
Definition getElements (d : db) := values (d_el d).
Definition getSubstances (d : db) := values (d_su d).
Definition getReactions (d : db) := values (d_re d).
Definition getElementsList (d : db) := map fst (d_el d).
Definition getSubstancesList (d : db) := map fst (d_su d).
Definition getReactionsList (d : db) := map fst (d_re d).
Definition numberOfElements (d : db) := length (d_el d).
Definition numberOfSubstances (d : db) := length (d_su d).
Definition numberOfReactions (d : db) := length (d_re d).
Definition containsElement (k : string) (d : db) := negb (Nat.eqb (mcount k (d_el d)) 0).
Definition containsSubstance (k : string) (d : db) := negb (Nat.eqb (mcount k (d_su d)) 0).
Definition containsReaction (k : string) (d : db) := negb (Nat.eqb (mcount k (d_re d)) 0).

(** Database.cpp:282-323 *)
Definition addRecord (j : J) (label : string) (d : db) : db * outc unit :=
  match labelOf j with
  | JsonEx => (d, JsonEx) | OtherEx => (d, OtherEx)
  | Ok lo =>
    let l := match lo with Some x => x | None => label end in
    let p := propsOf j in
    if String.eqb l "substance" then
      match parseS p with Ok s => (with_su d (mset (symS s) s (d_su d)), Ok tt) | JsonEx => (d, JsonEx) | OtherEx => (d, OtherEx) end
    else if String.eqb l "reaction" then
      match parseR p with Ok s => (with_re d (mset (symR s) s (d_re d)), Ok tt) | JsonEx => (d, JsonEx) | OtherEx => (d, OtherEx) end
    else if String.eqb l "element" then
      match parseE p with Ok s => (with_el d (mset (symE s) s (d_el d)), Ok tt) | JsonEx => (d, JsonEx) | OtherEx => (d, OtherEx) end
    else (d, OtherEx)
  end.

(** Database.cpp:325-331: the loop stops at the first exception *)
Fixpoint addRecords (js : list J) (label : string) (d : db) : db * outc unit :=
  match js with
  | [] => (d, Ok tt)
  | j :: js' => match addRecord j label d with (d', Ok _) => addRecords js' label d' | r => r end
  end.
(** a catch (json::exception&) that only logs: Database.cpp:366-369, 384-387 *)
Definition swallow (r : db * outc unit) : db * outc unit :=
  match r with (d, JsonEx) => (d, Ok tt) | _ => r end.
(** Database.cpp:379-383 *)
Fixpoint loadStrings (l : list string) (label : string) (d : db) : db * outc unit :=
  match l with
  | [] => (d, Ok tt)
  | s :: l' => match jparse s with
               | None => (d, JsonEx)
               | Some j => match addRecord j label d with (d', Ok _) => loadStrings l' label d' | r => r end
               end
  end.
(** Database.cpp:373-388: the first string is parsed once more in front *)
Definition fromJSONs (l : list string) (label : string) (d : db) : db * outc unit :=
  swallow match l with
          | [] => (d, Ok tt)
          | s :: _ => match jparse s with None => (d, JsonEx) | Some _ => loadStrings l label d end
          end.
(** Database.cpp:421-427 (also 413-419, with fromFile) *)
Definition appendData (l : list string) (label : string) (d : db) : db * outc unit :=
  match fromJSONs l label d with
  | (d', Ok _) => (if Nat.eqb (length (d_el d)) (length (d_el d')) then d' else setDBElements d', Ok tt)
  | r => r
  end.

(** a parsed database file: Database.cpp:354-365 *)
Record doc : Type := mkDoc { k_elements : option (list J); k_substances : option (list J);
                             k_reactions : option (list J); k_array : option (list J) }.
Definition andThen (r : db * outc unit) (f : db -> db * outc unit) : db * outc unit :=
  match r with (d, Ok _) => f d | _ => r end.
Definition section_ (x : option (list J)) (label : string) (d : db) : db * outc unit :=
  match x with Some js => addRecords js label d | None => (d, Ok tt) end.
Definition fromDoc (k : doc) (d : db) : db * outc unit :=
  swallow (andThen (section_ (k_elements k) "element" d) (fun d1 =>
           andThen (section_ (k_substances k) "substance" d1) (fun d2 =>
           andThen (section_ (k_reactions k) "reaction" d2) (fun d3 =>
           section_ (k_array k) "unknown label" d3)))).
(** Database.cpp:413-419 after the text has been read and parsed (341-352) *)
Definition appendFile (k : doc) (d : db) : db * outc unit :=
  match fromDoc k d with
  | (d', Ok _) => (if Nat.eqb (length (d_el d)) (length (d_el d')) then d' else setDBElements d', Ok tt)
  | r => r
  end.

(** the mutating public members *)
Inductive dbop : Type :=
| AddE (e : E) | SetE (e : E) | AddS (s : S) | SetS (s : S) | AddR (r : R) | SetR (r : R)
| MapE (l : list (string * E)) | MapS (l : list (string * S)) | MapR (l : list (string * R))
| EditE (k : string) (f : E -> E) | EditS (k : string) (f : S -> S) | EditR (k : string) (f : R -> R)
| Append (l : list string) (label : string) | AppendF (k : doc).
Definition dbstep (o : dbop) (d : db) : db :=
  match o with
  | AddE e => addElement e d | SetE e => setElement e d
  | AddS s => addSubstance s d | SetS s => setSubstance s d
  | AddR r => addReaction r d | SetR r => setReaction r d
  | MapE l => addMapElements (mbuild l) d | MapS l => addMapSubstances (mbuild l) d | MapR l => addMapReactions (mbuild l) d
  | EditE k f => element k f d | EditS k f => substance k f d | EditR k f => reaction k f d
  | Append l lb => fst (appendData l lb d)
  | AppendF k => fst (appendFile k d)
  end.
Definition dbrun (l : list dbop) (d : db) : db := fold_left (fun d o => dbstep o d) l d.
(** Database.cpp:391-393 *)
Definition emptyDb (a : D) : db := mkDb [] [] [] a.
End Db.
