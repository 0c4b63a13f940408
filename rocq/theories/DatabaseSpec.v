(** Abstract meaning of a database: three finite maps given as functions. *)
From Coq Require Import String List Bool.
From Verif Require Import DatabaseModel.
Import ListNotations.
Open Scope string_scope.

Definition amap (V : Type) := string -> option V.
Definition aset {V} (k : string) (v : V) (m : amap V) : amap V := fun x => if String.eqb x k then Some v else m x.
Definition aadd {V} (k : string) (v : V) (m : amap V) : amap V := match m k with Some _ => m | None => aset k v m end.
Definition aedit {V} (k : string) (b : V) (f : V -> V) (m : amap V) : amap V :=
  aset k (f (match m k with Some v => v | None => b end)) m.
(** the first pair of a list with a key *)
Fixpoint afirst {V} (l : list (string * V)) : amap V :=
  match l with [] => fun _ => None | (k, v) :: l' => aset k v (afirst l') end.

(** what one record text contributes *)
Inductive item (E S R : Type) : Type := IE (e : E) | IS (s : S) | IR (r : R).
Arguments IE {E S R}. Arguments IS {E S R}. Arguments IR {E S R}.

(** the records in front of the first one that fails *)
Fixpoint goodPrefix {A B} (f : A -> outc B) (l : list A) : list B :=
  match l with
  | [] => []
  | a :: l' => match f a with Ok b => b :: goodPrefix f l' | _ => [] end
  end.
(** how loading a list ends: at the first failure *)
Fixpoint firstFailure {A B} (f : A -> outc B) (l : list A) : outc unit :=
  match l with
  | [] => Ok tt
  | a :: l' => match f a with Ok _ => firstFailure f l' | JsonEx => JsonEx | OtherEx => OtherEx end
  end.
(** the last value with a key in a list of values: last writer wins *)
Fixpoint aload {V} (sym : V -> string) (l : list V) (m : amap V) : amap V :=
  match l with [] => m | v :: l' => aload sym l' (aset (sym v) v m) end.

Section Spec.
Variables E S R D J : Type.
Variable symE : E -> string.
Variable symS : S -> string.
Variable symR : R -> string.
Variable blankS : string -> S.
Variable blankR : string -> R.
Variable parseE : J -> outc E.
Variable parseS : J -> outc S.
Variable parseR : J -> outc R.
Variable labelOf : J -> outc (option string).
Variable propsOf : J -> J.
Variable jparse : string -> option J.

Definition omap {A B} (f : A -> B) (o : outc A) : outc B := match o with Ok a => Ok (f a) | JsonEx => JsonEx | OtherEx => OtherEx end.
(** decoding a record under a default label *)
Definition decodeAs (l : string) (p : J) : outc (item E S R) :=
  if String.eqb l "substance" then omap IS (parseS p)
  else if String.eqb l "reaction" then omap IR (parseR p)
  else if String.eqb l "element" then omap IE (parseE p) else OtherEx.
Definition decode (label : string) (j : J) : outc (item E S R) :=
  match labelOf j with
  | Ok (Some x) => decodeAs x (propsOf j)
  | Ok None => decodeAs label (propsOf j)
  | JsonEx => JsonEx | OtherEx => OtherEx
  end.
Definition decodeText (label : string) (s : string) : outc (item E S R) :=
  match jparse s with None => JsonEx | Some j => decode label j end.

Definition subs (l : list (item E S R)) : list S := flat_map (fun i => match i with IS s => [s] | _ => [] end) l.
Definition reas (l : list (item E S R)) : list R := flat_map (fun i => match i with IR s => [s] | _ => [] end) l.
Definition elts (l : list (item E S R)) : list E := flat_map (fun i => match i with IE s => [s] | _ => [] end) l.

(** the record lists of a database file in loading order, each with its default label *)
Definition docRecords (k : doc J) : list (string * J) :=
  let sec l x := match x with Some js => map (fun j => (l, j)) js | None => [] end in
  sec "element" (k_elements J k) ++ sec "substance" (k_substances J k) ++ sec "reaction" (k_reactions J k) ++
  sec "unknown label" (k_array J k).

(** substances and reactions: effect of an operation on the abstract map *)
Definition aopS (o : dbop E S R J) (m : amap S) : amap S :=
  match o with
  | AddS _ _ _ _ s => aadd (symS s) s m
  | SetS _ _ _ _ s => aset (symS s) s m
  | MapS _ _ _ _ l => afirst l
  | EditS _ _ _ _ k f => aedit k (blankS k) f m
  | Append _ _ _ _ l lb => aload symS (subs (goodPrefix (decodeText lb) l)) m
  | AppendF _ _ _ _ k => aload symS (subs (goodPrefix (fun x => decode (fst x) (snd x)) (docRecords k))) m
  | _ => m
  end.
Definition aopR (o : dbop E S R J) (m : amap R) : amap R :=
  match o with
  | AddR _ _ _ _ s => aadd (symR s) s m
  | SetR _ _ _ _ s => aset (symR s) s m
  | MapR _ _ _ _ l => afirst l
  | EditR _ _ _ _ k f => aedit k (blankR k) f m
  | Append _ _ _ _ l lb => aload symR (reas (goodPrefix (decodeText lb) l)) m
  | AppendF _ _ _ _ k => aload symR (reas (goodPrefix (fun x => decode (fst x) (snd x)) (docRecords k))) m
  | _ => m
  end.
(** elements: [toKey] fills in the valence of an added or set record; a blank record comes from
    the formula-parser data, here any function *)
Variable toKey : E -> E.
Definition aopE (blank : string -> E) (o : dbop E S R J) (m : amap E) : amap E :=
  match o with
  | AddE _ _ _ _ s => aset (symE s) (toKey (match m (symE s) with Some x => x | None => s end)) m
  | SetE _ _ _ _ s => aset (symE s) (toKey s) m
  | MapE _ _ _ _ l => afirst l
  | EditE _ _ _ _ k f => aedit k (blank k) f m
  | Append _ _ _ _ l lb => aload symE (elts (goodPrefix (decodeText lb) l)) m
  | AppendF _ _ _ _ k => aload symE (elts (goodPrefix (fun x => decode (fst x) (snd x)) (docRecords k))) m
  | _ => m
  end.
End Spec.
