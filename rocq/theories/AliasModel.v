(** Handles, copies and sharing.

    The classes of the library hold their data behind a pointer (pimpl).  What a copy shares with its
    source is decided by three things: the copy constructor, the assignment operator, and what the
    copied Impl holds itself (maps of further handles, closures over [this], shared caches).  This
    file models memory as cells addressed by numbers, with the operations of the classes exactly as
    they are written:

    - Element.h/Element.cpp 45-84, Substance.cpp 84-107, Reaction.cpp 149-172: copy constructor
      [pimpl(new Impl( *other.pimpl))], [operator=(T other)] by value, moving the pointer;
    - Database.cpp 391-411: the same, where Database::Impl (24-43) holds maps of Substance etc.;
    - ThermoEngine.cpp 61-127, 846-854: copy constructor [pimpl(new Impl( *other.pimpl))] where Impl
      holds four std::function members; the closures capture [this] and, through memoize
      (OptimizationUtils.h 11-23), a shared pointer to the cache.  There is no user-written
      assignment operator (ThermoEngine.h 60-177): the generated one copies the shared pointer;
    - ThermoBatch.h 96-155: no copy constructor, no assignment: both copy the shared pointer;
    - OutputBatch.cpp 13-28: Output keeps a copy of the ThermoBatch that made it.

    Simplifications: one map of substances stands for the three maps of a database; std::map is an
    association list kept in insertion order; an Impl cell is never reused (the numbers of freed cells
    stay unused), so that reading a freed cell is recognisable; the key of the cache is the key of the
    call (that the real key holds a reference to the pressure is the subject of RefMemoModel); the
    bound of the cache (memoizeN) is left out (it only forgets results). *)
From Coq Require Import List Bool Arith String.
Import ListNotations.

Definition upd {A : Type} (f : nat -> A) (x : nat) (v : A) : nat -> A := fun y => if Nat.eqb y x then v else f y.

(** ** Substances and databases *)
Section Handles.
Context {S : Type}.

(** the entries of a database Impl: symbol and the cell of the substance *)
Definition entries := list (string * nat).
Record mem := mkMem { sh : nat -> S; sn : nat; dh : nat -> entries; dn : nat; sv : nat -> option nat; dv : nat -> option nat }.

Inductive dop :=
| SNew (x : nat) (v : S)                        (* Substance x; with its data set *)
| SCopy (x y : nat)                             (* Substance x(y) *)
| SAssign (x y : nat)                           (* x = y *)
| SMut (x : nat) (f : S -> S)                   (* x.setSomething(...) *)
| DNew (d : nat)                                (* Database d *)
| DCopy (d e : nat)                             (* Database d(e) *)
| DAssign (d e : nat)                           (* d = e *)
| DAdd (d : nat) (k : string) (x : nat)         (* d.addSubstance(x), k = x.symbol() *)
| DSet (d : nat) (k : string) (x : nat)         (* d.setSubstance(x) *)
| DMut (d : nat) (k : string) (f : S -> S)      (* d.substance(k).setSomething(...) *)
| DGet (x d : nat) (k : string).                (* Substance x(d.getSubstance(k)) *)

Fixpoint find (k : string) (l : entries) : option nat :=
  match l with [] => None | (k', a) :: r => if String.eqb k' k then Some a else find k r end.
Fixpoint repl (k : string) (a : nat) (l : entries) : entries :=
  match l with [] => [] | (k', b) :: r => if String.eqb k' k then (k', a) :: r else (k', b) :: repl k a r end.

(** new Impl( *other.pimpl): a new cell with the same contents (Substance.cpp 96-98) *)
Definition salloc (m : mem) (v : S) : mem * nat :=
  (mkMem (upd (sh m) (sn m) v) (Datatypes.S (sn m)) (dh m) (dn m) (sv m) (dv m), sn m).
Definition scopy (m : mem) (a : nat) : mem * nat := salloc m (sh m a).
(** the copy of a map copies each of its substances *)
Fixpoint copy_entries (m : mem) (l : entries) : mem * entries :=
  match l with
  | [] => (m, [])
  | (k, a) :: r => let '(m1, b) := scopy m a in let '(m2, r') := copy_entries m1 r in (m2, (k, b) :: r')
  end.
(** Database.cpp 403-405 *)
Definition dcopy (m : mem) (a : nat) : mem * nat :=
  let '(m1, l) := copy_entries m (dh m a) in
  (mkMem (sh m1) (sn m1) (upd (dh m1) (dn m1) l) (Datatypes.S (dn m1)) (sv m1) (dv m1), dn m1).

Definition set_sv (m : mem) (x : nat) (a : option nat) : mem := mkMem (sh m) (sn m) (dh m) (dn m) (upd (sv m) x a) (dv m).
Definition set_dv (m : mem) (x : nat) (a : option nat) : mem := mkMem (sh m) (sn m) (dh m) (dn m) (sv m) (upd (dv m) x a).
Definition set_dh (m : mem) (x : nat) (l : entries) : mem := mkMem (sh m) (sn m) (upd (dh m) x l) (dn m) (sv m) (dv m).
Definition set_sh (m : mem) (x : nat) (v : S) : mem := mkMem (upd (sh m) x v) (sn m) (dh m) (dn m) (sv m) (dv m).

(** None: the program names a variable that does not exist, or asks for a record that is not there (the library throws) *)
Definition dstep (o : dop) (m : mem) : option mem :=
  match o with
  | SNew x v => let '(m1, a) := salloc m v in Some (set_sv m1 x (Some a))
  | SCopy x y => match sv m y with None => None | Some b => let '(m1, a) := scopy m b in Some (set_sv m1 x (Some a)) end
  (* operator=(Substance other): the parameter is a copy; its pointer is moved into x (Substance.cpp 103-107) *)
  | SAssign x y => match sv m x, sv m y with Some _, Some b => let '(m1, a) := scopy m b in Some (set_sv m1 x (Some a)) | _, _ => None end
  | SMut x f => match sv m x with None => None | Some a => Some (set_sh m a (f (sh m a))) end
  | DNew d => Some (set_dv (mkMem (sh m) (sn m) (upd (dh m) (dn m) []) (Datatypes.S (dn m)) (sv m) (dv m)) d (Some (dn m)))
  | DCopy d e => match dv m e with None => None | Some b => let '(m1, a) := dcopy m b in Some (set_dv m1 d (Some a)) end
  (* Database.cpp 407-411 *)
  | DAssign d e => match dv m d, dv m e with Some _, Some b => let '(m1, a) := dcopy m b in Some (set_dv m1 d (Some a)) | _, _ => None end
  (* Database.cpp 105-108: map.insert({symbol, substance}) copies the record, and keeps the old one when the symbol is there *)
  | DAdd d k x => match dv m d, sv m x with
    | Some a, Some b => match find k (dh m a) with
      | Some _ => Some m
      | None => let '(m1, c) := scopy m b in Some (set_dh m1 a ((k, c) :: dh m1 a)) end
    | _, _ => None end
  (* Database.cpp 110-114: map[symbol] = substance, Substance::operator=; 273-280 only warns *)
  | DSet d k x => match dv m d, sv m x with
    | Some a, Some b => let '(m1, c) := scopy m b in
      match find k (dh m a) with
      | Some _ => Some (set_dh m1 a (repl k c (dh m1 a)))
      | None => Some (set_dh m1 a ((k, c) :: dh m1 a)) end
    | _, _ => None end
  (* Database.cpp 509-512: a reference into the map *)
  | DMut d k f => match dv m d with
    | Some a => match find k (dh m a) with Some b => Some (set_sh m b (f (sh m b))) | None => None end
    | None => None end
  | DGet x d k => match dv m d with
    | Some a => match find k (dh m a) with Some b => let '(m1, c) := scopy m b in Some (set_sv m1 x (Some c)) | None => None end
    | None => None end
  end.
Fixpoint drun (h : list dop) (m : mem) : option mem :=
  match h with [] => Some m | o :: r => match dstep o m with None => None | Some m1 => drun r m1 end end.
Definition mem0 (v : S) : mem := mkMem (fun _ => v) 0 (fun _ => []) 0 (fun _ => None) (fun _ => None).

(** What the getters show: the data of a substance, the records of a database. *)
Definition see_s (m : mem) (x : nat) : option S := option_map (sh m) (sv m x).
Definition see_d (m : mem) (d : nat) : option (list (string * S)) := option_map (fun a => map (fun p => (fst p, sh m (snd p))) (dh m a)) (dv m d).

(** The same programs where every variable simply is its value: no memory, nothing to share. *)
Record vals := mkVals { vs : nat -> option S; vd : nat -> option (list (string * S)) }.
Fixpoint vfind (k : string) (l : list (string * S)) : option S :=
  match l with [] => None | (k', a) :: r => if String.eqb k' k then Some a else vfind k r end.
Fixpoint vrepl (k : string) (v : S) (l : list (string * S)) : list (string * S) :=
  match l with [] => [] | (k', b) :: r => if String.eqb k' k then (k', v) :: r else (k', b) :: vrepl k v r end.
Definition vstep (o : dop) (m : vals) : option vals :=
  match o with
  | SNew x v => Some (mkVals (upd (vs m) x (Some v)) (vd m))
  | SCopy x y => match vs m y with Some v => Some (mkVals (upd (vs m) x (Some v)) (vd m)) | None => None end
  | SAssign x y => match vs m x, vs m y with Some _, Some v => Some (mkVals (upd (vs m) x (Some v)) (vd m)) | _, _ => None end
  | SMut x f => match vs m x with Some v => Some (mkVals (upd (vs m) x (Some (f v))) (vd m)) | None => None end
  | DNew d => Some (mkVals (vs m) (upd (vd m) d (Some [])))
  | DCopy d e => match vd m e with Some l => Some (mkVals (vs m) (upd (vd m) d (Some l))) | None => None end
  | DAssign d e => match vd m d, vd m e with Some _, Some l => Some (mkVals (vs m) (upd (vd m) d (Some l))) | _, _ => None end
  | DAdd d k x => match vd m d, vs m x with
    | Some l, Some v => match vfind k l with Some _ => Some m | None => Some (mkVals (vs m) (upd (vd m) d (Some ((k, v) :: l)))) end
    | _, _ => None end
  | DSet d k x => match vd m d, vs m x with
    | Some l, Some v => match vfind k l with Some _ => Some (mkVals (vs m) (upd (vd m) d (Some (vrepl k v l)))) | None => Some (mkVals (vs m) (upd (vd m) d (Some ((k, v) :: l)))) end
    | _, _ => None end
  | DMut d k f => match vd m d with
    | Some l => match vfind k l with Some v => Some (mkVals (vs m) (upd (vd m) d (Some (vrepl k (f v) l)))) | None => None end
    | None => None end
  | DGet x d k => match vd m d with
    | Some l => match vfind k l with Some v => Some (mkVals (upd (vs m) x (Some v)) (vd m)) | None => None end
    | None => None end
  end.
Fixpoint vrun (h : list dop) (m : vals) : option vals :=
  match h with [] => Some m | o :: r => match vstep o m with None => None | Some m1 => vrun r m1 end end.
Definition vals0 : vals := mkVals (fun _ => None) (fun _ => None).
End Handles.
Arguments mem : clear implicits.
Arguments vals : clear implicits.
Arguments dop : clear implicits.

(** ** Engines *)
Section Engines.
Context {Data Pref Key Val : Type}.
Variable keq : Key -> Key -> bool.

(** A calculation: it may ask for the result of another one by symbol (through the std::function members: lines 271-331, 598, 615, 706-716, 812), and ends with a value. *)
Inductive comp := Ret (v : Val) | Ask (k : Key) (c : Val -> comp).
Variable calc : Data -> Pref -> Key -> comp.

(** ThermoEngine::Impl (61-78): database, preferences, and the closures: the captured [this] and the captured cache *)
Record eimpl := mkImpl { e_data : Data; e_pref : Pref; e_this : nat; e_cache : nat }.
Record est := mkEst { eh : nat -> eimpl; en : nat; ca : nat -> list (Key * Val); cn : nat; ev : nat -> option nat; live : list nat }.

Inductive eop :=
| ENew (x : nat) (d : Data) (p : Pref)     (* ThermoEngine x(database) *)
| ECopy (x y : nat)                        (* ThermoEngine x(y) *)
| EAssign (x y : nat)                      (* x = y *)
| EKill (x : nat)                          (* end of the life of x *)
| EPref (x : nat) (f : Pref -> Pref)       (* x.setSolventSymbol(...), x.preferences() *)
| EData (x : nat) (f : Data -> Data)       (* x.appendData(...) *)
| ECall (x : nat) (k : Key)                (* x.thermoPropertiesSubstance(T, P, symbol) *)
| EObj (x : nat) (k : Key).                (* x.thermoPropertiesSubstance(T, P, record) *)

(** what a call does: it returns a value, or runs on a cell that is gone, or does not come to an end *)
Inductive outc := OVal (v : Val) | OUB | OLoop.

Fixpoint look (k : Key) (l : list (Key * Val)) : option Val :=
  match l with [] => None | (k', v) :: r => if keq k' k then Some v else look k r end.
Definition set_ca (s : est) (c : nat) (l : list (Key * Val)) : est := mkEst (eh s) (en s) (upd (ca s) c l) (cn s) (ev s) (live s).
(** an Impl lives as long as a variable points to it (std::shared_ptr) *)
Definition alive (s : est) (a : nat) : bool := existsb (fun x => match ev s x with Some b => Nat.eqb b a | None => false end) (live s).

(** the closure of the Impl at [a]: look in the cache; otherwise run the calculation of the captured [this], store, return (OptimizationUtils.h 11-23, ThermoEngine.cpp 91-127) *)
Section Run.
Variable rec : nat -> Key -> est -> outc * est.
Fixpoint exec (a : nat) (c : comp) (s : est) : outc * est :=
  match c with
  | Ret v => (OVal v, s)
  | Ask k c' => match rec a k s with (OVal v, s1) => exec a (c' v) s1 | r => r end
  end.
End Run.
Fixpoint closure (fuel : nat) (a : nat) (k : Key) (s : est) : outc * est :=
  match look k (ca s (e_cache (eh s a))) with
  | Some v => (OVal v, s)
  | None => match fuel with
    | O => (OLoop, s)
    | Datatypes.S n =>
      let t := e_this (eh s a) in
      if alive s t
      then match exec (closure n) t (calc (e_data (eh s t)) (e_pref (eh s t)) k) s with
           | (OVal v, s1) => (OVal v, set_ca s1 (e_cache (eh s a)) ((k, v) :: ca s1 (e_cache (eh s a))))
           | r => r end
      else (OUB, s)
    end
  end.
(** a call with a record runs in the Impl of the variable itself (871-884) *)
Definition direct (fuel : nat) (a : nat) (k : Key) (s : est) : outc * est :=
  exec (closure fuel) a (calc (e_data (eh s a)) (e_pref (eh s a)) k) s.

Definition set_ev (s : est) (x : nat) (a : option nat) : est :=
  mkEst (eh s) (en s) (ca s) (cn s) (upd (ev s) x a) (if existsb (Nat.eqb x) (live s) then live s else x :: live s).
Definition set_eh (s : est) (a : nat) (i : eimpl) : est := mkEst (upd (eh s) a i) (en s) (ca s) (cn s) (ev s) (live s).
Definition ealloc (s : est) (i : eimpl) : est * nat := (mkEst (upd (eh s) (en s) i) (Datatypes.S (en s)) (ca s) (cn s) (ev s) (live s), en s).

Definition estep (fuel : nat) (o : eop) (s : est) : option (option outc * est) :=
  match o with
  (* 84-89, 846-849: closures over the new Impl, a new cache *)
  | ENew x d p =>
    let s1 := mkEst (eh s) (en s) (upd (ca s) (cn s) []) (Datatypes.S (cn s)) (ev s) (live s) in
    let '(s2, a) := ealloc s1 (mkImpl d p (en s) (cn s)) in Some (None, set_ev s2 x (Some a))
  (* 851-854: every member is copied, the closures with what they captured *)
  | ECopy x y => match ev s y with None => None | Some b => let '(s1, a) := ealloc s (eh s b) in Some (None, set_ev s1 x (Some a)) end
  (* generated by the compiler *)
  | EAssign x y => match ev s x, ev s y with Some _, Some b => Some (None, set_ev s x (Some b)) | _, _ => None end
  | EKill x => match ev s x with None => None | Some _ => Some (None, set_ev s x None) end
  (* 907-910, 916-923 *)
  | EPref x f => match ev s x with None => None | Some a => Some (None, set_eh s a (let i := eh s a in mkImpl (e_data i) (f (e_pref i)) (e_this i) (e_cache i))) end
  (* 930-938 *)
  | EData x f => match ev s x with None => None | Some a => Some (None, set_eh s a (let i := eh s a in mkImpl (f (e_data i)) (e_pref i) (e_this i) (e_cache i))) end
  (* 856-869, 887-890 *)
  | ECall x k => match ev s x with None => None | Some a => let '(r, s1) := closure fuel a k s in Some (Some r, s1) end
  | EObj x k => match ev s x with None => None | Some a => let '(r, s1) := direct fuel a k s in Some (Some r, s1) end
  end.
Fixpoint erun (fuel : nat) (h : list eop) (s : est) : option est :=
  match h with [] => Some s | o :: r => match estep fuel o s with None => None | Some (_, s1) => erun fuel r s1 end end.
Definition est0 (i : eimpl) : est := mkEst (fun _ => i) 0 (fun _ => []) 0 (fun _ => None) [].
End Engines.
Arguments comp : clear implicits.
Arguments eimpl : clear implicits.
Arguments est : clear implicits.
Arguments eop : clear implicits.
Arguments outc : clear implicits.

(** ** Batches and their outputs *)
Section Batches.
Context {R : Type}.
Record bst := mkBst { bh : nat -> R; bn : nat; bv : nat -> option nat; ov : nat -> option nat }.
Inductive bop :=
| BNew (b : nat) (r : R)                (* ThermoBatch b(...) *)
| BCopy (b c : nat)                     (* ThermoBatch b(c), b = c: the shared pointer is copied *)
| BCalc (o b : nat) (f : R -> R)        (* Output o = b.thermoProperties...(...): ThermoBatch.cpp 352-508 *)
| OCopy (o p : nat).                    (* Output o(p), o = p *)
Definition bstep (x : bop) (s : bst) : option bst :=
  match x with
  | BNew b r => Some (mkBst (upd (bh s) (bn s) r) (Datatypes.S (bn s)) (upd (bv s) b (Some (bn s))) (ov s))
  | BCopy b c => match bv s c with None => None | Some a => Some (mkBst (bh s) (bn s) (upd (bv s) b (Some a)) (ov s)) end
  | BCalc o b f => match bv s b with None => None | Some a => Some (mkBst (upd (bh s) a (f (bh s a))) (bn s) (bv s) (upd (ov s) o (Some a))) end
  | OCopy o p => match ov s p with None => None | Some a => Some (mkBst (bh s) (bn s) (bv s) (upd (ov s) o (Some a))) end
  end.
Fixpoint brun (h : list bop) (s : bst) : option bst :=
  match h with [] => Some s | o :: r => match bstep o s with None => None | Some s1 => brun r s1 end end.
Definition bst0 (r : R) : bst := mkBst (fun _ => r) 0 (fun _ => None) (fun _ => None).
(** what Output::toCSV and results() of the kept batch show: OutputBatch.cpp 46-120 read through pimpl->api.pimpl *)
Definition see_o (s : bst) (o : nat) : option R := option_map (bh s) (ov s o).
Definition see_b (s : bst) (b : nat) : option R := option_map (bh s) (bv s b).
End Batches.
Arguments bst : clear implicits.
Arguments bop : clear implicits.
