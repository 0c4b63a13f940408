(** Vocabulary for the engine properties, independent of how the engine computes. *)
From Coq Require Import Reals String List Bool ZArith.
From Verif Require Import ThermoScalarModel EngineModel.
Import ListNotations.
Open Scope R_scope.

(** the sum over the species of a reaction of coefficient times some number *)
Fixpoint weighted (l : list (string * R)) (xs : list R) : R :=
  match l, xs with
  | (_, c) :: l', x :: xs' => c * x + weighted l' xs'
  | _, _ => 0
  end.
(** the same over all species but [self] *)
Fixpoint weighted_others (self : string) (l : list (string * R)) (xs : list R) : R :=
  match l with
  | [] => 0
  | (x, c) :: l' =>
      if String.eqb x self then weighted_others self l' xs
      else match xs with v :: xs' => c * v + weighted_others self l' xs' | [] => 0 end
  end.

(** [answers ask l e ts e']: asking for the species of [l] one after the other, starting in
    state [e], returns the list [ts] and leaves state [e'] *)
Inductive answers (ask : string -> M TPS) : list string -> est -> list TPS -> est -> Prop :=
| ans_nil : forall e, answers ask [] e [] e
| ans_cons : forall x l e t e1 ts e2,
    ask x e = (e1, Ret t) -> answers ask l e1 ts e2 -> answers ask (x :: l) e (t :: ts) e2.

Definition species (l : list (string * R)) : list string := map fst l.
Definition others (self : string) (l : list (string * R)) : list string :=
  filter (fun x => negb (String.eqb x self)) (map fst l).

Definition undefined (x : TS) : Prop := fst (sta x) = notdefined.

(** the eight properties of a substance, as projections *)
Definition props : list (TPS -> TS) := [G; A; U; H; S; V; Cp; Cv].

(** everything in a query that is the client's own setting or data *)
Definition same_settings (e e' : est) : Prop :=
  e_subs e' = e_subs e /\ e_reacs e' = e_reacs e /\ e_triple e' = e_triple e /\
  e_enable e' = e_enable e /\ e_fallback e' = e_fallback e /\
  e_water e' = e_water e /\ e_apparent e' = e_apparent e /\ e_wrapped e' = e_wrapped e.

(** records are stored under their own symbol (Database.cpp addSubstance / addReaction) *)
Definition keys_ok (l : list (string * Subst)) : Prop := forall k s, In (k, s) l -> s_symbol s = k.

(** The reference graph of a database: [needs a b] when calculating [a] asks for [b].
    [sol] is the preferred solvent, [eqn] what a reaction equation used as a symbol means. *)
Inductive node : Type := NS (sym : string) | NR (sym : string).
Definition cand (ss : list (string * Subst)) (sol w : string) : Prop :=
  w = sol \/ exists s, In (w, s) ss /\ s_class s = AQSOLVENT.
Inductive needs (eqn : string -> option Reac) (ss : list (string * Subst)) (rr : list (string * Reac))
  (sol : string) : node -> node -> Prop :=
| n_reaction : forall a s, assoc a ss = Some s -> isReacDC s = true -> s_reaction s <> ""%string ->
    needs eqn ss rr sol (NS a) (NR (s_reaction s))
| n_other : forall a s r b, assoc a ss = Some s -> isReacDC s = true ->
    assoc (s_reaction s) rr = Some r -> In b (others (s_symbol s) (r_reactants r)) ->
    needs eqn ss rr sol (NS a) (NS b)
| n_self : forall a s, assoc a ss = Some s -> s_reacdc s = true -> s_reaction s = ""%string ->
    needs eqn ss rr sol (NS a) (NS a)
| n_aki : forall a s w, assoc a ss = Some s -> isReacDC s = false -> s_mP s = CPM_AKI ->
    cand ss sol w -> needs eqn ss rr sol (NS a) (NS w)
| n_sum : forall a r b, (assoc a rr = Some r \/ (assoc a rr = None /\ eqn a = Some r)) ->
    isFromReactants r = true -> In b (species (r_reactants r)) ->
    needs eqn ss rr sol (NR a) (NS b).
(** no infinite chain of references from [a] *)
Definition grounded eqn ss rr sol : node -> Prop := Acc (fun b a => needs eqn ss rr sol a b).

(** the state holds this database and a solvent symbol that is the preferred one or a solvent *)
Definition on_db ss rr sol (e : est) : Prop :=
  e_subs e = ss /\ e_reacs e = rr /\ cand ss sol (e_solv e).
Definition hangs {X} (r : res X) : Prop := r = Fuel.

(** The settings and data a result may depend on. *)
Record config : Type := mkCfg
  { g_subs : list (string * Subst); g_reacs : list (string * Reac); g_triple : Triple;
    g_solv : string; g_fallback : bool; g_water : string; g_apparent : string }.
Definition has_config (c : config) (e : est) : Prop :=
  e_subs e = g_subs c /\ e_reacs e = g_reacs c /\ e_triple e = g_triple c /\ e_solv e = g_solv c /\
  e_fallback e = g_fallback c /\ e_water e = g_water c /\ e_apparent e = g_apparent c.
(** a fresh engine with these settings that calculates everything anew at each call *)
Definition uncached (c : config) : est :=
  mkE (g_subs c) (g_reacs c) (g_triple c) true (g_solv c) 0 (g_fallback c) false (g_water c) (g_apparent c)
      false [] [] [] [] 0.
(** a fresh engine with these settings *)
Definition fresh (c : config) : est :=
  mkE (g_subs c) (g_reacs c) (g_triple c) true (g_solv c) 0 (g_fallback c) false (g_water c) (g_apparent c)
      true [] [] [] [] 0.
(** no substance uses a gas pressure model (the only readers of the pressure-correction flag) *)
Definition no_gas_models (c : config) : Prop :=
  forall x s, assoc x (g_subs c) = Some s -> is_gasm (s_mP s) = false /\ s_mP s <> CPM_OFF.
(** the water models leave a given (non-zero) pressure as it is; zero asks for saturation *)
Definition keeps_pressure (mm : Models) : Prop :=
  (forall z s T P st x p, P <> 0 -> m_water mm z s T P st = Some (x, p) -> p = P) /\
  (forall z s T P st x p, P <> 0 -> m_ps mm z s T P st = Some (x, p) -> p = P) /\
  (forall z s T P ps st x p, P <> 0 -> m_eps mm z s T P ps st = Some (x, p) -> p = P).
Definition refP_given (c : config) : Prop :=
  forall x s, assoc x (g_subs c) = Some s -> s_refP s <> 0.
Inductive query : Type := AskS (T P : R) (sym : string) | AskR (T P : R) (sym : string).
Definition qP (q : query) : R := match q with AskS _ P _ | AskR _ P _ => P end.
Definition op_of (q : query) : op := match q with AskS T P x => QSubst T P x | AskR T P x => QReac T P x end.
Definition crashed (o : out) : Prop := o = OutS Fuel \/ o = OutR Fuel.
