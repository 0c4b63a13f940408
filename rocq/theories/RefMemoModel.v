(** Memoisation of functions that take their pressure by reference.

    ThermoEngine.cpp:49-59 declares the wrapped functions as
    [Ret(double, double, double&, string)]; OptimizationUtils.h:14,57 keys the cache by
    [std::tuple<double, double, double&, string>], i.e. the third component of a stored
    key is a reference to the caller's variable; ThermoEngine.cpp:856-859 calls
    [fn(T, P, P, symbol)].

    Simplifications: the map is searched linearly (a std::map inspects a subset of the
    keys, and requires that stored keys do not change order; both only matter when a
    referenced variable changes or dies); one cached function instead of four; the cache
    bound is not reached. *)
From Coq Require Import List Bool.
Import ListNotations.

Section RefMemo.
Variables D Sy V : Type.                         (* doubles, symbols, results *)
Variable Deq : forall a b : D, {a = b} + {a <> b}.
Variable Seq : forall a b : Sy, {a = b} + {a <> b}.

(** the wrapped computation: result for (T, P, symbol), and the value it leaves in P
    (ThermoModelsSolvent.cpp: P == 0 is replaced by the saturation pressure) *)
Variable g : D -> D -> Sy -> V.
Variable wb : D -> D -> D.

Definition loc := nat.
Definition mem := loc -> option D.               (* None: no object lives there *)
Definition upd (m : mem) (l : loc) (v : option D) : mem :=
  fun l' => if Nat.eqb l' l then v else m l'.

Record key := mkKey { kT : D; kP : D; kRef : loc; kSym : Sy }.

Inductive res (A : Type) := Ok (a : A) | UB.
Arguments Ok {A}. Arguments UB {A}.

(** equality of a stored key and a probe, left to right; the third component is read
    through the stored reference *)
Definition key_eq (m : mem) (k probe : key) : res bool :=
  if Deq (kT k) (kT probe) then
    if Deq (kP k) (kP probe) then
      match m (kRef k), m (kRef probe) with
      | Some a, Some b => if Deq a b then
                            if Seq (kSym k) (kSym probe) then Ok true else Ok false
                          else Ok false
      | _, _ => UB
      end
    else Ok false
  else Ok false.

Fixpoint rfind (m : mem) (probe : key) (c : list (key * V)) : res (option V) :=
  match c with
  | [] => Ok None
  | (k, v) :: c' => match key_eq m k probe with
                    | UB => UB
                    | Ok true => Ok (Some v)
                    | Ok false => rfind m probe c'
                    end
  end.

Inductive op := Write (l : loc) (v : D) | Free (l : loc) | Call (T : D) (l : loc) (s : Sy).

Record st := mkSt { smem : mem; scache : list (key * V) }.

(** one operation with memoisation on; the output of a call is its result *)
Definition memo_step (s : st) (o : op) : res (st * option V) :=
  match o with
  | Write l v => Ok (mkSt (upd (smem s) l (Some v)) (scache s), None)
  | Free l => Ok (mkSt (upd (smem s) l None) (scache s), None)
  | Call T l sy =>
      match smem s l with
      | None => UB
      | Some p =>
          let probe := mkKey T p l sy in
          match rfind (smem s) probe (scache s) with
          | UB => UB
          | Ok (Some v) => Ok (s, Some v)
          | Ok None => let v := g T p sy in
                       Ok (mkSt (upd (smem s) l (Some (wb T p))) ((probe, v) :: scache s), Some v)
          end
      end
  end.

(** one operation with memoisation off *)
Definition plain_step (m : mem) (o : op) : res (mem * option V) :=
  match o with
  | Write l v => Ok (upd m l (Some v), None)
  | Free l => Ok (upd m l None, None)
  | Call T l sy => match m l with
                   | None => UB
                   | Some p => Ok (upd m l (Some (wb T p)), Some (g T p sy))
                   end
  end.

Fixpoint memo_run (s : st) (os : list op) : res (st * list (option V)) :=
  match os with
  | [] => Ok (s, [])
  | o :: os' => match memo_step s o with
                | UB => UB
                | Ok (s1, v) => match memo_run s1 os' with
                                | UB => UB
                                | Ok (s2, vs) => Ok (s2, v :: vs)
                                end
                end
  end.
Fixpoint plain_run (m : mem) (os : list op) : res (mem * list (option V)) :=
  match os with
  | [] => Ok (m, [])
  | o :: os' => match plain_step m o with
                | UB => UB
                | Ok (m1, v) => match plain_run m1 os' with
                                | UB => UB
                                | Ok (m2, vs) => Ok (m2, v :: vs)
                                end
                end
  end.
End RefMemo.
Arguments Ok {A}. Arguments UB {A}.
Arguments mkKey {D Sy}. Arguments Write {D Sy}. Arguments Free {D Sy}. Arguments Call {D Sy}.
Arguments mkSt {D Sy V}. Arguments smem {D Sy V}. Arguments scache {D Sy V}.
