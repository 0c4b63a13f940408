(** Model of ThermoFun/ThermoEngine.cpp (ThermoEngine::Impl and the public members).

    The engine is a state machine: a calculation reads and changes the [mutable]
    preferences and the caches, writes the caller's pressure through a reference, may
    throw (the changes made so far stay), and may recurse without end.  Recursion is
    bounded by a fuel argument; running out of fuel is the separate result [Fuel].

    Simplifications.  The individual equations of state are fields of [Models]
    (uninterpreted functions; they are modelled in their own files).  Caches are keyed
    by the values of T and P at the time of the call and never evict (eviction and keys
    holding references are modelled in MemoModel.v and RefMemoModel.v).  Arguments of one
    call are evaluated from left to right.  [double] is [R]. *)
From Coq Require Import Reals String Ascii List ZArith Bool.
From Verif Require Import ThermoScalarModel.
Import ListNotations.
Open Scope string_scope.
Open Scope R_scope.

(** ThermoProperties.h:19-44 *)
Record TPS : Type := mkTPS
  { G : TS; A : TS; U : TS; H : TS; S : TS; V : TS; Cp : TS; Cv : TS }.
Definition tps_default : TPS :=
  mkTPS ts_default ts_default ts_default ts_default ts_default ts_default ts_default ts_default.

(** ThermoProperties.h:48-79 *)
Record TPR : Type := mkTPR
  { lnK : TS; logK : TS; rG : TS; rA : TS; rU : TS; rH : TS; rS : TS; rV : TS; rCp : TS; rCv : TS }.
Definition tpr_default : TPR :=
  mkTPR ts_default ts_default ts_default ts_default ts_default ts_default ts_default ts_default
        ts_default ts_default.

(** GlobalVariables.h:58-81  WaterTripleProperties (the fields used by toSteamTables) *)
Record Triple : Type := mkTriple { Str : R; Gtr : R; Htr : R; Utr : R; Atr : R }.

(** GlobalVariables.h: R_CONSTANT, lg_to_ln, ln_to_lg, bar_to_Pa *)
Definition R_CONSTANT : R := 831451 / 100000.
Definition lg_to_ln : R := 2302585093 / 1000000000.
Definition ln_to_lg : R := 434294481 / 1000000000.
Definition bar_to_Pa : R := 100000.

(** SubstanceClass (the members the engine distinguishes) *)
Inductive Class : Set := AQSOLVENT | AQSOLUTE | GASFLUID | OTHERCLASS.
Definition is_solvent (c : Class) : bool := match c with AQSOLVENT => true | _ => false end.
Definition is_solute (c : Class) : bool := match c with AQSOLUTE => true | _ => false end.
Definition is_gasfluid (c : Class) : bool := match c with GASFLUID => true | _ => false end.

(** GlobalVariables.h:278-307, 349-378, 434-461: method codes; 0 is "not set" *)
Definition CTPM_CON : Z := 99.   Definition CTPM_CPT : Z := 100.  Definition CTPM_HKF : Z := 101.
Definition CTPM_REA : Z := 102.  Definition CTPM_WJNR : Z := 117. Definition CTPM_WJNG : Z := 118.
Definition CTPM_HKFR : Z := 119. Definition CTPM_WSV14 : Z := 120. Definition CTPM_WF97 : Z := 121.
Definition CTPM_HP98 : Z := 122. Definition CTPM_AN91 : Z := 123.
Definition CTM_CST : Z := 200. Definition CTM_CHP : Z := 201. Definition CTM_LGX : Z := 204.
Definition CTM_WAT : Z := 206. Definition CTM_LGK : Z := 208. Definition CTM_EK0 : Z := 209.
Definition CTM_EK1 : Z := 210. Definition CTM_EK2 : Z := 211. Definition CTM_EK3 : Z := 212.
Definition CTM_DKR : Z := 214. Definition CTM_MRB : Z := 216. Definition CTM_WAR : Z := 221.
Definition CTM_WWP : Z := 222. Definition CTM_WZD : Z := 223. Definition CTM_DMD : Z := 224.
Definition CPM_OFF : Z := 300. Definition CPM_NUL : Z := 301. Definition CPM_CON : Z := 305.
Definition CPM_VKE : Z := 306. Definition CPM_VBE : Z := 307. Definition CPM_VBM : Z := 308.
Definition CPM_CEH : Z := 309. Definition CPM_GAS : Z := 311. Definition CPM_PRSV : Z := 312.
Definition CPM_EMP : Z := 313. Definition CPM_SRK : Z := 314. Definition CPM_STP : Z := 315.
Definition CPM_PR78 : Z := 316. Definition CPM_CORK : Z := 317. Definition CPM_AKI : Z := 320.

(** Substance.cpp: the data members read by the engine *)
Record Subst : Type := mkSubst
  { s_symbol : string; s_eos : Z; s_mT : Z; s_mP : Z; s_class : Class; s_gas : bool;
    s_reacdc : bool; s_reaction : string; s_refT : R; s_refP : R; s_ref : TPS }.
(** Substance::setMethodGenEoS *)
Definition set_eos (s : Subst) (z : Z) : Subst :=
  mkSubst (s_symbol s) z (s_mT s) (s_mP s) (s_class s) (s_gas s) (s_reacdc s) (s_reaction s)
          (s_refT s) (s_refP s) (s_ref s).

(** Reaction.cpp: the data members read by the engine; the reactants are a map, here the
    list of its entries in key order *)
Record Reac : Type := mkReac
  { r_symbol : string; r_eos : Z; r_mT : Z; r_mP : Z; r_reactants : list (string * R);
    r_refP : R; r_ref : TPR }.

(** opaque results of the solvent models *)
Definition PS : Type := list TS.   (* PropertiesSolvent, fields in declaration order *)
Definition EPS : Type := list TS.  (* ElectroPropertiesSolvent *)

(** The equations of state, uninterpreted.  [None] is a thrown exception.  The water
    models receive the pressure by reference: they return the new pressure as well. *)
Record Models : Type := mkModels
  { m_cpt   : Subst -> R -> R -> option TPS;                     (* EmpiricalCpIntegration *)
    m_cst   : Subst -> R -> R -> option TPS;                     (* EntropyCpIntegration *)
    m_hkf   : Z -> Subst -> R -> R -> PS -> EPS -> option TPS;   (* SoluteHKFgems / reaktoro *)
    m_dens  : Z -> Subst -> R -> R -> PS -> PS -> option TPS;    (* HollandPowell98 / Anderson91 *)
    m_landau: Subst -> R -> R -> TPS -> option TPS;              (* HPLandau *)
    m_aki   : Subst -> R -> R -> TPS -> TPS -> TPS -> PS -> TPS -> TPS -> PS -> option TPS;
    m_woolley : Subst -> R -> R -> option TPS;                   (* WaterIdealGasWoolley *)
    m_min   : Z -> Subst -> R -> R -> TPS -> option TPS;         (* Murnaghan / Berman / BM *)
    m_gas   : Z -> Subst -> R -> R -> TPS -> bool -> option TPS; (* CORK PRSV CGF SRK PR78 STP *)
    m_water : Z -> Subst -> R -> R -> Z -> option (TPS * R);     (* thermoPropertiesSubstance *)
    m_ps    : Z -> Subst -> R -> R -> Z -> option (PS * R);      (* propertiesSolvent *)
    m_eps   : Z -> Subst -> R -> R -> PS -> Z -> option (EPS * R); (* electroPropertiesSolvent *)
    m_elent : Subst -> option R;                                 (* elementalEntropyFormula *)
    m_logK  : Reac -> R -> R -> Z -> option TPR;                 (* Reaction_LogK_fT *)
    m_rdens : Z -> Reac -> R -> R -> PS -> option TPR;           (* DM10 / FM / RB *)
    m_rvol  : Reac -> R -> R -> option TPR;                      (* Reaction_Vol_fT *)
    m_equation : string -> option Reac                           (* Reaction::fromEquation *)
  }.

Definition skey : Type := R * R * string.
Definition pkey : Type := R * R * string * Z.

(** ThermoEngine.cpp:61-78 (data members of Impl), ThermoEngine.h:24-39 (preferences and
    conventions), and the pressure variable the caller passed by reference.
    [e_enable] is the preference enable_memoize, [e_wrapped] what set_fn made of it. *)
Record est : Type := mkE
  { e_subs : list (string * Subst); e_reacs : list (string * Reac); e_triple : Triple;
    e_enable : bool; e_solv : string; e_state : Z; e_fallback : bool; e_applyP : bool;
    e_water : string; e_apparent : string;
    e_wrapped : bool;
    c_s : list (skey * TPS); c_r : list (skey * TPR);
    c_ps : list (pkey * PS); c_eps : list (pkey * EPS);
    pv : R }.

Definition with_solv (e : est) (x : string) : est :=
  mkE (e_subs e) (e_reacs e) (e_triple e) (e_enable e) x (e_state e) (e_fallback e) (e_applyP e)
      (e_water e) (e_apparent e) (e_wrapped e) (c_s e) (c_r e) (c_ps e) (c_eps e) (pv e).
Definition with_state (e : est) (x : Z) : est :=
  mkE (e_subs e) (e_reacs e) (e_triple e) (e_enable e) (e_solv e) x (e_fallback e) (e_applyP e)
      (e_water e) (e_apparent e) (e_wrapped e) (c_s e) (c_r e) (c_ps e) (c_eps e) (pv e).
Definition with_fallback (e : est) (x : bool) : est :=
  mkE (e_subs e) (e_reacs e) (e_triple e) (e_enable e) (e_solv e) (e_state e) x (e_applyP e)
      (e_water e) (e_apparent e) (e_wrapped e) (c_s e) (c_r e) (c_ps e) (c_eps e) (pv e).
Definition with_applyP (e : est) (x : bool) : est :=
  mkE (e_subs e) (e_reacs e) (e_triple e) (e_enable e) (e_solv e) (e_state e) (e_fallback e) x
      (e_water e) (e_apparent e) (e_wrapped e) (c_s e) (c_r e) (c_ps e) (c_eps e) (pv e).
Definition with_enable (e : est) (x : bool) : est :=
  mkE (e_subs e) (e_reacs e) (e_triple e) x (e_solv e) (e_state e) (e_fallback e) (e_applyP e)
      (e_water e) (e_apparent e) (e_wrapped e) (c_s e) (c_r e) (c_ps e) (c_eps e) (pv e).
Definition with_conv (e : est) (w a : string) : est :=
  mkE (e_subs e) (e_reacs e) (e_triple e) (e_enable e) (e_solv e) (e_state e) (e_fallback e)
      (e_applyP e) w a (e_wrapped e) (c_s e) (c_r e) (c_ps e) (c_eps e) (pv e).
Definition with_db (e : est) (ss : list (string * Subst)) (rr : list (string * Reac)) : est :=
  mkE ss rr (e_triple e) (e_enable e) (e_solv e) (e_state e) (e_fallback e) (e_applyP e)
      (e_water e) (e_apparent e) (e_wrapped e) (c_s e) (c_r e) (c_ps e) (c_eps e) (pv e).
Definition with_caches (e : est) cs cr cps ceps : est :=
  mkE (e_subs e) (e_reacs e) (e_triple e) (e_enable e) (e_solv e) (e_state e) (e_fallback e)
      (e_applyP e) (e_water e) (e_apparent e) (e_wrapped e) cs cr cps ceps (pv e).
Definition with_pv (e : est) (p : R) : est :=
  mkE (e_subs e) (e_reacs e) (e_triple e) (e_enable e) (e_solv e) (e_state e) (e_fallback e)
      (e_applyP e) (e_water e) (e_apparent e) (e_wrapped e) (c_s e) (c_r e) (c_ps e) (c_eps e) p.

(** result of a call *)
Inductive res (T : Type) : Type := Ret (x : T) | Throw | Fuel.
Arguments Ret {T}. Arguments Throw {T}. Arguments Fuel {T}.
Definition M (T : Type) : Type := est -> est * res T.
Definition ret {T} (x : T) : M T := fun e => (e, Ret x).
Definition throw {T} : M T := fun e => (e, Throw).
Definition fuelout {T} : M T := fun e => (e, Fuel).
Definition bind {T U} (m : M T) (f : T -> M U) : M U :=
  fun e => match m e with
           | (e', Ret x) => f x e'
           | (e', Throw) => (e', Throw)
           | (e', Fuel) => (e', Fuel)
           end.
Notation "'do' x <- m ; f" := (bind m (fun x => f)) (at level 200, x name, m at level 100, f at level 200).
Notation "m ;; f" := (bind m (fun _ => f)) (at level 199, right associativity).
Definition get : M est := fun e => (e, Ret e).
Definition upd (f : est -> est) : M unit := fun e => (f e, Ret tt).
Definition lift {T} (o : option T) : M T := match o with Some x => ret x | None => throw end.
(** run [m] on a local pressure variable *)
Definition with_local {T} (p : R) (m : M T) : M T :=
  fun e => let '(e', r) := m (with_pv e p) in (with_pv e' (pv e), r).

(** std::map::find on the list of entries *)
Fixpoint assoc {T} (k : string) (l : list (string * T)) : option T :=
  match l with
  | [] => None
  | (k', v) :: l' => if String.eqb k k' then Some v else assoc k l'
  end.
Definition req (x y : R) : bool := if Req_EM_T x y then true else false.
Definition skey_eqb (a b : skey) : bool :=
  match a, b with (t, p, s), (t', p', s') => req t t' && req p p' && String.eqb s s' end.
Definition pkey_eqb (a b : pkey) : bool :=
  match a, b with
  | (t, p, s, z), (t', p', s', z') => req t t' && req p p' && String.eqb s s' && Z.eqb z z'
  end.
Fixpoint lookup {K T} (eqb : K -> K -> bool) (k : K) (l : list (K * T)) : option T :=
  match l with
  | [] => None
  | (k', v) :: l' => if eqb k k' then Some v else lookup eqb k l'
  end.

(** Database.cpp getSubstance / getReaction: throw when the symbol is unknown *)
Definition getSubstance (sym : string) : M Subst := do e <- get; lift (assoc sym (e_subs e)).
Definition getReaction (sym : string) : M Reac := do e <- get; lift (assoc sym (e_reacs e)).

(** ThermoEngine.cpp:20-29  iequals *)
Definition tolower (c : ascii) : ascii :=
  let n := nat_of_ascii c in
  if Nat.leb 65 n && Nat.leb n 90 then ascii_of_nat (n + 32) else c.
Fixpoint iequals (a b : string) : bool :=
  match a, b with
  | EmptyString, EmptyString => true
  | String x a', String y b' => Ascii.eqb (tolower x) (tolower y) && iequals a' b'
  | _, _ => false
  end.

(** ThermoEngine.cpp:129-136 *)
Definition toSteamTables (t : TPS) (w : Triple) : TPS :=
  mkTPS (ip_sub_d (G t) (Gtr w)) (ip_sub_d (A t) (Atr w)) (ip_sub_d (U t) (Utr w))
        (ip_sub_d (H t) (Htr w)) (ip_sub_d (S t) (Str w)) (V t) (Cp t) (Cv t).
(** ThermoEngine.cpp:138-143 *)
Definition toBermanBrown (t : TPS) (Tr entropyElements : R) : TPS :=
  mkTPS (ip_sub_d (G t) (Tr * entropyElements)) (A t) (U t) (H t) (S t) (V t) (Cp t) (Cv t).

(** ThermoEngine.cpp:193-207 *)
Definition noMethods (s : Subst) : bool :=
  Z.eqb (s_eos s) 0 && Z.eqb (s_mP s) 0 && Z.eqb (s_mT s) 0.
Definition constVm (s : Subst) : bool :=
  Z.eqb (s_eos s) 0 && Z.eqb (s_mP s) CPM_CON && Z.eqb (s_mT s) 0.
Definition isReacDC (s : Subst) : bool := s_reacdc s || noMethods s || constVm s.
Definition isH2Ovapor (s : Subst) : bool := Z.eqb (s_eos s) CTPM_HKF && Z.eqb (s_mP s) CPM_GAS.
(** ThermoEngine.cpp:218-222: the last solvent in map order *)
Fixpoint last_solvent (l : list (string * Subst)) (d : string) : string :=
  match l with
  | [] => d
  | (k, s) :: l' => last_solvent l' (if is_solvent (s_class s) then k else d)
  end.
(** ThermoEngine.cpp:161-227 (the changes of the preferences; the WorkPreferences fields
    are recomputed where used) *)
Definition prefsSubstance (s : Subst) : M unit :=
  upd (fun e => with_state e (if s_gas s then 1 else 0)%Z) ;;
  upd (fun e => if is_solute (s_class s)
                then match assoc (e_solv e) (e_subs e) with
                     | Some _ => e
                     | None => with_solv e (last_solvent (e_subs e) (e_solv e))
                     end
                else e).

(** ThermoEngine.cpp:468-492 *)
Definition fb (t r : TS) : TS := if status_eqb (fst (sta t)) notdefined then r else t.
Definition fallback (on : bool) (t : TPS) (s : Subst) : TPS :=
  if on then
    let r := s_ref s in
    mkTPS (fb (G t) (G r)) (fb (A t) (A r)) (fb (U t) (U r)) (fb (H t) (H r))
          (fb (S t) (S r)) (fb (V t) (V r)) (fb (Cp t) (Cp r)) (fb (Cv t) (Cv r))
  else t.

(** ThermoModelsSubstance.cpp:741-758  ConMolVol *)
Definition conMolVol (s : Subst) (T P : R) (t : TPS) : TPS :=
  let tk := Temperature T in
  let p := ip_div_d (Pressure P) bar_to_Pa in
  let rv := V (s_ref s) in
  if status_eqb (fst (sta rv)) notdefined then t
  else
    let dV := ts_mul rv (ts_sub_d p (s_refP s / bar_to_Pa)) in
    let g := ip_add (G t) dV in
    let h := ip_add (H t) dV in
    let u := ts_sub h (ts_mul p rv) in
    mkTPS g (ts_sub u (ts_mul tk (S t))) u h (S t) rv (Cp t) (Cv t).
(** ThermoModelsSubstance.cpp:498-505 *)
Definition applyPressure (t : TPS) (tk p : TS) (pr : R) : TPS :=
  let dG := ts_mul (V t) (ts_sub_d p (pr / bar_to_Pa)) in
  let g := ip_add (G t) dG in
  let h := ip_add (H t) dG in
  let u := ts_sub h (ts_mul p (V t)) in
  mkTPS g (ts_sub u (ts_mul tk (S t))) u h (S t) (V t) (Cp t) (Cv t).
(** ThermoModelsSubstance.cpp:784-798  IdealGasLawVol *)
Definition idealGasVol (s : Subst) (T P : R) (t : TPS) (apply_p : bool) : TPS :=
  let tk := Temperature T in
  let p := ip_div_d (Pressure P) bar_to_Pa in
  let t' := if is_gasfluid (s_class s) && (if Rlt_dec 0 P then true else false)
            then mkTPS (G t) (A t) (U t) (H t) (S t) (ts_mul_d (ts_div tk p) R_CONSTANT) (Cp t) (Cv t)
            else t in
  if apply_p then applyPressure t' tk p (s_refP s) else t'.

Section Engine.
Context (mm : Models).

(** ThermoEngine.cpp:539-581 *)
Definition ps_method (s : Subst) : bool :=
  is_solvent (s_class s) &&
  (Z.eqb (s_mT s) CTM_WAT || Z.eqb (s_mT s) CTM_WAR || Z.eqb (s_mT s) CTM_WWP || Z.eqb (s_mT s) CTM_WZD).
Definition setstate (z : Z) : M unit :=
  if Z.ltb (-1) z && Z.ltb z 2 then upd (fun e => with_state e z) else ret tt.
Definition propertiesSolvent (T : R) (s : Subst) (state : Z) : M PS :=
  prefsSubstance s ;; setstate state ;;
  if ps_method s
  then do e <- get; do x <- lift (m_ps mm (s_mT s) s T (pv e) (e_state e));
       upd (fun e => with_pv e (snd x)) ;; ret (fst x)
  else ret [].
(** ThermoEngine.cpp:494-537 *)
Definition eps_method (s : Subst) : bool :=
  is_solvent (s_class s) &&
  (Z.eqb (s_eos s) CTPM_WJNR || Z.eqb (s_eos s) CTPM_WJNG || Z.eqb (s_eos s) CTPM_WSV14 || Z.eqb (s_eos s) CTPM_WF97).
Definition electroPropertiesSolvent (T : R) (s : Subst) (state : Z) : M EPS :=
  prefsSubstance s ;; setstate state ;;
  do e0 <- get; do ps <- propertiesSolvent T s (e_state e0);
  if eps_method s
  then do e <- get; do x <- lift (m_eps mm (s_eos s) s T (pv e) ps (e_state e));
       upd (fun e => with_pv e (snd x)) ;; ret (fst x)
  else ret [].

(** ThermoEngine.cpp:91-127 and OptimizationUtils.hpp: a wrapped function *)
Definition memoS (T : R) (sym : string) (m : M TPS) : M TPS :=
  do e <- get;
  if e_wrapped e then
    match lookup skey_eqb (T, pv e, sym) (c_s e) with
    | Some x => ret x
    | None => do x <- m; upd (fun e' => with_caches e' (((T, pv e, sym), x) :: c_s e') (c_r e') (c_ps e') (c_eps e')) ;; ret x
    end
  else m.
Definition memoR (T : R) (sym : string) (m : M TPR) : M TPR :=
  do e <- get;
  if e_wrapped e then
    match lookup skey_eqb (T, pv e, sym) (c_r e) with
    | Some x => ret x
    | None => do x <- m; upd (fun e' => with_caches e' (c_s e') (((T, pv e, sym), x) :: c_r e') (c_ps e') (c_eps e')) ;; ret x
    end
  else m.
Definition ps_fn (T : R) (sym : string) (state : Z) : M PS :=
  do e <- get;
  let m := do s <- getSubstance sym; propertiesSolvent T s state in
  if e_wrapped e then
    match lookup pkey_eqb (T, pv e, sym, state) (c_ps e) with
    | Some x => ret x
    | None => do x <- m; upd (fun e' => with_caches e' (c_s e') (c_r e') (((T, pv e, sym, state), x) :: c_ps e') (c_eps e')) ;; ret x
    end
  else m.
Definition eps_fn (T : R) (sym : string) (state : Z) : M EPS :=
  do e <- get;
  let m := do s <- getSubstance sym; electroPropertiesSolvent T s state in
  if e_wrapped e then
    match lookup pkey_eqb (T, pv e, sym, state) (c_eps e) with
    | Some x => ret x
    | None => do x <- m; upd (fun e' => with_caches e' (c_s e') (c_r e') (c_ps e') (((T, pv e, sym, state), x) :: c_eps e')) ;; ret x
    end
  else m.

(** ThermoEngine.cpp:257-296  switch (method_genEOS) *)
Definition genEOS (T : R) (s : Subst) : M TPS :=
  let z := s_eos s in
  if Z.eqb z CTPM_CON then ret (s_ref s)
  else if Z.eqb z CTPM_CPT then do e <- get; lift (m_cpt mm s T (pv e))
  else if Z.eqb z CTPM_HKF || Z.eqb z CTPM_HKFR then
    do e <- get; do ps <- ps_fn T (e_solv e) (-1);
    do e1 <- get; do eps <- eps_fn T (e_solv e1) (-1);
    do e2 <- get; lift (m_hkf mm z s T (pv e2) ps eps)
  else if Z.eqb z CTPM_HP98 || Z.eqb z CTPM_AN91 then
    do e <- get; do sv <- getSubstance (e_solv e);
    do psr <- with_local (s_refP sv) (ps_fn (s_refT sv) (e_solv e) (-1));
    do ps <- ps_fn T (e_solv e) (-1);
    do e2 <- get; lift (m_dens mm z s T (pv e2) psr ps)
  else ret tps_default.

(** ThermoEngine.cpp:299-316  switch (method_T) *)
Definition methT (T : R) (s : Subst) (t : TPS) : M TPS :=
  if Z.eqb (s_eos s) CTPM_CON then ret t
  else if Z.eqb (s_mT s) CTM_CHP then do e <- get; lift (m_landau mm s T (pv e) t)
  else if Z.eqb (s_mT s) CTM_CST && negb (Z.eqb (s_eos s) CTPM_CPT)
       then do e <- get; lift (m_cst mm s T (pv e))
  else ret t.

Definition is_min (z : Z) : bool := Z.eqb z CPM_CEH || Z.eqb z CPM_VBE || Z.eqb z CPM_VBM.
Definition is_gasm (z : Z) : bool :=
  Z.eqb z CPM_CORK || Z.eqb z CPM_PRSV || Z.eqb z CPM_EMP || Z.eqb z CPM_SRK || Z.eqb z CPM_PR78 || Z.eqb z CPM_STP.
(** ThermoEngine.cpp:319-392  switch (method_P); [rs] is thermo_properties_substance_fn *)
Definition methP (rs : R -> string -> M TPS) (T : R) (s : Subst) (t : TPS) : M TPS :=
  let z := s_mP s in
  if Z.eqb (s_eos s) CTPM_CON then ret t
  else if Z.eqb z CPM_AKI then
    do e <- get; do sv <- getSubstance (e_solv e);
    do w <- rs T (e_solv e);
    do e1 <- get; do wig <- lift (m_woolley mm sv T (pv e1));
    do ps <- ps_fn T (e_solv e) (-1);
    do wr <- with_local (s_refP sv) (rs (s_refT sv) (e_solv e));
    do wigr <- lift (m_woolley mm sv (s_refT sv) (s_refP sv));
    do psr <- with_local (s_refP sv) (ps_fn (s_refT sv) (e_solv e) (-1));
    do e2 <- get; lift (m_aki mm s T (pv e2) t w wig ps wr wigr psr)
  else if is_min z then do e <- get; lift (m_min mm z s T (pv e) t)
  else if is_gasm z then do e <- get; lift (m_gas mm z s T (pv e) t (e_applyP e))
  else if Z.eqb z CPM_OFF then do e <- get; ret (idealGasVol s T (pv e) t (e_applyP e))
  else if Z.eqb z CPM_CON then do e <- get; ret (conMolVol s T (pv e) t)
  else ret t.

Definition is_waterT (z : Z) : bool :=
  Z.eqb z CTM_WAT || Z.eqb z CTM_WAR || Z.eqb z CTM_WWP || Z.eqb z CTM_WZD.
(** ThermoEngine.cpp:397-439 *)
Definition waterSwitch (T : R) (s : Subst) : M TPS :=
  if Z.eqb (s_eos s) CTPM_CON then ret (s_ref s)
  else if is_waterT (s_mT s) then
    do e <- get; do x <- lift (m_water mm (s_mT s) s T (pv e) (e_state e));
    upd (fun e => with_pv e (snd x)) ;; ret (fst x)
  else if Z.eqb (s_eos s) CTPM_CPT then do e <- get; lift (m_cpt mm s T (pv e))
  else ret tps_default.

(** ThermoEngine.cpp:442-455 *)
Definition convention (s : Subst) (t : TPS) : M TPS :=
  do e <- get;
  if is_solvent (s_class s)
  then ret (if iequals (e_water e) "STEAM_TABLES" then toSteamTables t (e_triple e) else t)
  else if iequals (e_apparent e) "BERMAN_BROWN"
       then do ee <- lift (m_elent mm s); ret (toBermanBrown t (s_refT s) ee)
       else ret t.

(** ThermoEngine.cpp:252-456  the branch that evaluates a model *)
Definition direct (rs : R -> string -> M TPS) (T : R) (s : Subst) : M TPS :=
  do t <- (if is_solvent (s_class s) || isH2Ovapor s then waterSwitch T s
           else do a <- genEOS T s; do b <- methT T s a; methP rs T s b);
  convention s t.

(** ThermoEngine.cpp:616-623: subtract one reactant *)
Definition sub_reactant (t r : TPS) (c : R) : TPS :=
  let f (a b : TS) := ip_sub a (ts_mul_d b c) in
  mkTPS (f (G t) (G r)) (f (A t) (A r)) (f (U t) (U r)) (f (H t) (H r))
        (f (S t) (S r)) (f (V t) (V r)) (f (Cp t) (Cp r)) (f (Cv t) (Cv r)).
(** ThermoEngine.cpp:611-625 *)
Fixpoint sub_reactants (rs : R -> string -> M TPS) (T : R) (self : string)
         (l : list (string * R)) (t : TPS) : M TPS :=
  match l with
  | [] => ret t
  | (x, c) :: l' =>
      if String.eqb x self then sub_reactants rs T self l' t
      else do r <- rs T x; sub_reactants rs T self l' (sub_reactant t r c)
  end.
(** ThermoEngine.cpp:600-607 *)
Definition tps_of_tpr (r : TPR) : TPS :=
  mkTPS (rG r) (rA r) (rU r) (rH r) (rS r) (rV r) (rCp r) (rCv r).
(** ThermoEngine.cpp:627-634 *)
Definition div_all (t : TPS) (c : R) : TPS :=
  mkTPS (ts_div_d (G t) c) (ts_div_d (A t) c) (ts_div_d (U t) c) (ts_div_d (H t) c)
        (ts_div_d (S t) c) (ts_div_d (V t) c) (ts_div_d (Cp t) c) (ts_div_d (Cv t) c).
(** std::map::operator[] on the local copy of the reactants: 0 when absent *)
Definition coef (self : string) (l : list (string * R)) : R :=
  match assoc self l with Some c => c | None => 0 end.
(** ThermoEngine.cpp:583-655; [rr] is thermo_properties_reaction_fn, [ro] the member
    thermoPropertiesSubstance(T, P, Substance) *)
Definition reacDC (rs : R -> string -> M TPS) (rr : R -> string -> M TPR)
           (ro : R -> Subst -> M TPS) (T : R) (s : Subst) : M TPS :=
  upd (fun e => with_applyP e true) ;;
  if String.eqb (s_reaction s) "" then ro T (set_eos s CTPM_CON)
  else
    do r <- getReaction (s_reaction s);
    do tpr <- rr T (s_reaction s);
    do t <- sub_reactants rs T (s_symbol s) (r_reactants r) (tps_of_tpr tpr);
    let t1 := div_all t (coef (s_symbol s) (r_reactants r)) in
    upd (fun e => with_applyP e false) ;;
    if Z.eqb (s_mP s) CPM_CON && (Z.eqb (r_mP r) CPM_OFF || Z.eqb (r_mP r) 0)
    then do e <- get; ret (conMolVol s T (pv e) (fallback (e_fallback e) t1 s))
    else ret t1.

(** ThermoEngine.cpp:241-248 *)
Definition zeroTPS : TPS :=
  mkTPS (ts_assign 0) (ts_assign 0) (ts_assign 0) (ts_assign 0) (ts_assign 0) (ts_assign 0)
        (ts_assign 0) (ts_assign 0).
(** ThermoEngine.cpp:234-466 *)
Definition substBody (rs : R -> string -> M TPS) (rr : R -> string -> M TPR)
           (ro : R -> Subst -> M TPS) (T : R) (s : Subst) : M TPS :=
  prefsSubstance s ;;
  if String.eqb (s_symbol s) "H+" then ret zeroTPS
  else
    do t <- (if isReacDC s then reacDC rs rr ro T s else direct rs T s);
    do e <- get; ret (fallback (e_fallback e) t s).

(** Exception.cpp:107-113 *)
Definition set_msg (st : Status) (prop calc : string) (x : TS) : TS :=
  mkTS (val x) (ddt x) (ddp x) (err x)
       (fst (sta x), match st with notdefined => (snd (sta x) ++ prop ++ " not defined; ")%string | _ => calc end).
(** ThermoEngine.cpp:814-831: one reactant *)
Definition add_reactant (T : R) (msg name : string) (a : TPR) (t : TPS) (c : R) : TPR :=
  let g := ip_add (rG a) (ts_mul_d (G t) c) in
  let k := ts_div_d g (- (R_CONSTANT * T)) in
  let lk := ts_mul_d k ln_to_lg in
  let m (x : TS) (n : string) := set_msg (fst (sta x)) (n ++ " of component " ++ name) (msg ++ snd (sta x)) in
  mkTPR (m (G t) "G0" k) (m (G t) "G0" lk) (m (G t) "G0" g)
        (ts_mul_d (A t) c) (ts_mul_d (U t) c)
        (m (H t) "H0" (ip_add (rH a) (ts_mul_d (H t) c)))
        (m (S t) "S0" (ip_add (rS a) (ts_mul_d (S t) c)))
        (m (V t) "V0" (ip_add (rV a) (ts_mul_d (V t) c)))
        (m (Cp t) "Cp" (ip_add (rCp a) (ts_mul_d (Cp t) c)))
        (ts_mul_d (Cv t) c).
(** ThermoEngine.cpp:800-832 *)
Fixpoint add_reactants (rs : R -> string -> M TPS) (T : R) (rsym msg : string)
         (l : list (string * R)) (a : TPR) : M TPR :=
  match l with
  | [] => ret a
  | (x, c) :: l' =>
      do s <- getSubstance x;
      if noMethods s && String.eqb (s_reaction s) rsym then throw
      else do t <- rs T x; add_reactants rs T rsym msg l' (add_reactant T msg x a t c)
  end.
Definition zeroTPR : TPR :=
  mkTPR (ts_assign 0) (ts_assign 0) (ts_assign 0) (ts_assign 0) (ts_assign 0) (ts_assign 0)
        (ts_assign 0) (ts_assign 0) (ts_assign 0) (ts_assign 0).
(** ThermoEngine.cpp:782-836 *)
Definition fromReactants (rs : R -> string -> M TPS) (T : R) (r : Reac) : M TPR :=
  upd (fun e => with_applyP e true) ;;
  do t <- add_reactants rs T (r_symbol r)
            ("Calculated from the reaction components: " ++ r_symbol r ++ "; ")%string
            (r_reactants r) zeroTPR;
  upd (fun e => with_applyP e false) ;; ret t.

(** ThermoEngine.cpp:155 *)
Definition isFromReactants (r : Reac) : bool :=
  Z.eqb (r_eos r) 0 && Z.eqb (r_mP r) 0 && Z.eqb (r_mT r) 0.
Definition is_logK (z : Z) : bool :=
  Z.eqb z CTM_LGX || Z.eqb z CTM_LGK || Z.eqb z CTM_EK0 || Z.eqb z CTM_EK1 || Z.eqb z CTM_EK3 || Z.eqb z CTM_EK2.
(** ThermoEngine.cpp:739-756 *)
Definition reacConVol (r : Reac) (T P : R) (t : TPR) : TPR :=
  let Pref := r_refP r / 100000 in
  let P_ := P / 100000 in
  let VP := ts_mul_d (rV t) (P_ - Pref) in
  let g := ip_add (rG t) VP in
  let h := ip_add (rH t) VP in
  let lk := ip_sub (logK t) (ts_div_d (ts_div_d (ts_mul_d (rV (r_ref r)) (P_ - Pref)) (R_CONSTANT * T)) lg_to_ln) in
  let s := ts_div_d (ts_sub h g) T in
  let u := ts_sub h (d_mul_ts P_ (rV t)) in
  mkTPR (lnK t) lk g (ts_sub u (d_mul_ts T s)) u h s (rV t) (rCp t) (rCv t).
(** ThermoEngine.cpp:728-760  switch (method_P) *)
Definition reacP (T : R) (r : Reac) (t : TPR) : M TPR :=
  do e <- get;
  if Z.eqb (r_mP r) CPM_VKE || Z.eqb (r_mP r) CPM_VBE then lift (m_rvol mm r T (pv e))
  else if Z.eqb (r_mP r) CPM_NUL || Z.eqb (r_mP r) CPM_CON then ret (reacConVol r T (pv e) t)
  else ret t.
(** ThermoEngine.cpp:670-775 *)
Definition reacBody (rs : R -> string -> M TPS) (T : R) (r : Reac) : M TPR :=
  if isFromReactants r then fromReactants rs T r
  else if Z.eqb (r_eos r) CTPM_CON then ret (r_ref r)
  else
    let mT := if Z.eqb (r_eos r) CTPM_REA then CTM_LGK else r_mT r in
    if is_logK mT then
      do e <- get; do t <- lift (m_logK mm r T (pv e) mT); reacP T r t
    else if Z.eqb mT CTM_DMD || Z.eqb mT CTM_DKR then
      do e <- get; do ps <- ps_fn T (e_solv e) (-1);
      do e1 <- get; do t <- lift (m_rdens mm mT r T (pv e1) ps); reacP T r t
    else if Z.eqb mT CTM_MRB then
      do e <- get; do ps <- ps_fn T (e_solv e) (-1);
      do e1 <- get; lift (m_rdens mm mT r T (pv e1) ps)
    else reacP T r tpr_default.

(** contains "=" *)
Fixpoint has_eq (s : string) : bool :=
  match s with
  | EmptyString => false
  | String c s' => Ascii.eqb c "="%char || has_eq s'
  end.
(** ThermoEngine.cpp:657-668 *)
Definition reacSym (rs : R -> string -> M TPS) (T : R) (sym : string) : M TPR :=
  do e <- get;
  match assoc sym (e_reacs e) with
  | Some r => reacBody rs T r
  | None => if has_eq sym then do r <- lift (m_equation mm sym); reacBody rs T r else throw
  end.

(** The recursion: thermoPropertiesSubstance(T,P,Substance), thermo_properties_substance_fn
    and thermo_properties_reaction_fn (ThermoEngine.cpp:93-124, 229-232). *)
Fixpoint substObj (n : nat) (T : R) (s : Subst) {struct n} : M TPS :=
  match n with
  | O => fuelout
  | Datatypes.S k => substBody (substFn k) (reacFn k) (substObj k) T s
  end
with substFn (n : nat) (T : R) (sym : string) {struct n} : M TPS :=
  match n with
  | O => fuelout
  | Datatypes.S k => memoS T sym (do s <- getSubstance sym; substObj k T s)
  end
with reacFn (n : nat) (T : R) (sym : string) {struct n} : M TPR :=
  match n with
  | O => fuelout
  | Datatypes.S k => memoR T sym (reacSym (substFn k) T sym)
  end.

(** ThermoEngine.cpp:897-905  members taking a Reaction *)
Definition reacObj (n : nat) (T : R) (r : Reac) : M TPR := reacBody (substFn n) T r.
Definition reacFromReactants (n : nat) (T : R) (r : Reac) : M TPR := fromReactants (substFn n) T r.

(** ThermoEngine.cpp:80-89, ThermoEngine.h:24-39: a new engine on a database.  set_fn runs
    with the default preferences, so the functions are wrapped. *)
Definition new_engine (ss : list (string * Subst)) (rr : list (string * Reac)) (tr : Triple) : est :=
  mkE ss rr tr true "H2O@" 0 false false "GEOCHEMICAL" "BENSON_HELGESON" true [] [] [] [] 0.

(** a client call: the engine with the caller's pressure variable *)
Definition call {X} (m : M X) (P : R) (e : est) : est * res X := m (with_pv e P).

(** What a client does to one engine: calculations and changes of settings or data
    (ThermoEngine.h:58-130). *)
Inductive op : Type :=
| QSubst (T P : R) (sym : string)
| QReac (T P : R) (sym : string)
| SetSolvent (sym : string)
| SetState (z : Z)
| SetFallback (b : bool)
| SetEnable (b : bool)
| SetConv (w a : string)
| AppendSubst (s : Subst)      (* appendData with a substance record *)
| AppendReac (r : Reac).
Inductive out : Type := OutS (x : res TPS) | OutR (x : res TPR) | OutU.
(** overwrite or append an entry, std::map::operator[] = *)
Fixpoint put {X} (k : string) (v : X) (l : list (string * X)) : list (string * X) :=
  match l with
  | [] => [(k, v)]
  | (k', v') :: l' => if String.eqb k k' then (k, v) :: l' else (k', v') :: put k v l'
  end.
Definition step (n : nat) (e : est) (o : op) : est * out :=
  match o with
  | QSubst T P sym => let '(e', r) := call (substFn n T sym) P e in (e', OutS r)
  | QReac T P sym => let '(e', r) := call (reacFn n T sym) P e in (e', OutR r)
  | SetSolvent x => (with_solv e x, OutU)
  | SetState z => (with_state e z, OutU)
  | SetFallback b => (with_fallback e b, OutU)
  | SetEnable b => (with_enable e b, OutU)
  | SetConv w a => (with_conv e w a, OutU)
  | AppendSubst s => (with_db e (put (s_symbol s) s (e_subs e)) (e_reacs e), OutU)
  | AppendReac r => (with_db e (e_subs e) (put (r_symbol r) r (e_reacs e)), OutU)
  end.
Fixpoint run_ops (n : nat) (e : est) (l : list op) : est * list out :=
  match l with
  | [] => (e, [])
  | o :: l' => let '(e', r) := step n e o in
               let '(e'', rs) := run_ops n e' l' in (e'', r :: rs)
  end.
End Engine.
