(** Model of Common/ParseJsonToData.cpp: reading element, substance and reaction records from a
    parsed JSON document.  nlohmann::json is the inductive type below (object members in the order
    of iteration, keys distinct); unit conversion (Common/Units.cpp) is a parameter.  A [double]
    slot is an [option R]: None is an indeterminate (never written) value.  Definitions only. *)
From Coq Require Import List Bool Reals String Ascii ZArith.
From Verif Require Import UnitsModel.
Import ListNotations.
Open Scope R_scope.

Inductive json : Type := JNull | JBool (b : bool) | JNum (x : R) | JStr (s : string) | JArr (l : list json) | JObj (l : list (string * json)).

(** value; json::exception (caught by the parsers); another exception (not caught); undefined behaviour *)
Inductive jres (A : Type) : Type := JOk (a : A) | JExc | JStd | JUB.
Arguments JOk {A}. Arguments JExc {A}. Arguments JStd {A}. Arguments JUB {A}.
Definition jbind {A B : Type} (x : jres A) (f : A -> jres B) : jres B :=
  match x with JOk a => f a | JExc => JExc | JStd => JStd | JUB => JUB end.
Notation "'let*' x := a 'in' b" := (jbind a (fun x => b)) (at level 61, x pattern, a at next level, right associativity).

(** json::contains and operator[] after it; is_null; is_array; empty; elements of iteration *)
Fixpoint assoc (k : string) (l : list (string * json)) : option json :=
  match l with [] => None | (k', v) :: l' => if String.eqb k k' then Some v else assoc k l' end.
Definition field (j : json) (k : string) : option json := match j with JObj l => assoc k l | _ => None end.
Definition is_null (j : json) : bool := match j with JNull => true | _ => false end.
Definition given (j : json) (k : string) : option json :=   (* contains and not null *)
  match field j k with Some JNull => None | x => x end.
Definition is_empty (j : json) : bool := match j with JNull => true | JArr [] => true | JObj [] => true | _ => false end.
Definition elems (j : json) : list json :=
  match j with JNull => [] | JArr l => l | JObj l => map snd l | x => [x] end.

(** get<double>, get<std::string>, get<int>, get<std::vector<...>>: type_error otherwise *)
Definition get_double (j : json) : jres R := match j with JNum x => JOk x | _ => JExc end.
Definition get_string (j : json) : jres string := match j with JStr s => JOk s | _ => JExc end.
Definition trunc (x : R) : Z := if Rle_dec 0 x then Int_part x else (- Int_part (- x))%Z.
Definition get_int (j : json) : jres Z :=
  match j with JNum x => JOk (trunc x) | JBool b => JOk (if b then 1%Z else 0%Z) | _ => JExc end.
Fixpoint get_list {A : Type} (f : json -> jres A) (l : list json) : jres (list A) :=
  match l with [] => JOk [] | x :: l' => let* a := f x in let* r := get_list f l' in JOk (a :: r) end.

(** std::stoi: optional white space and sign, then digits; invalid_argument without digits.  Overflow is left out. *)
Definition digit (c : ascii) : option Z :=
  let n := Z.of_nat (nat_of_ascii c) in if (Z.leb 48 n && Z.leb n 57)%bool then Some (n - 48)%Z else None.
Fixpoint digits (s : string) (acc : option Z) : option Z :=
  match s with
  | EmptyString => acc
  | String c s' => match digit c with Some d => digits s' (Some (match acc with Some a => 10 * a + d | None => d end)%Z) | None => acc end
  end.
Definition is_space (c : ascii) : bool := let n := nat_of_ascii c in (Nat.eqb n 32 || (Nat.leb 9 n && Nat.leb n 13))%bool.
Fixpoint stoi (s : string) : option Z :=
  match s with
  | EmptyString => None
  | String c s' =>
      if is_space c then stoi s'
      else if Nat.eqb (nat_of_ascii c) 45 then option_map Z.opp (digits s' None)
      else if Nat.eqb (nat_of_ascii c) 43 then digits s' None else digits s None
  end.
Definition stoi_ (s : string) : jres Z := match stoi s with Some z => JOk z | None => JStd end.
(** x.begin().key(): invalid_iterator unless an object *)
Definition first_key (j : json) : jres string := match j with JObj ((k, _) :: _) => JOk k | JObj [] => JUB | _ => JExc end.

Section Parse.
(** units::convert; its exception is not a json::exception *)
Variable convert : R -> string -> string -> jres R.

(** readValueErrorUnit (72-103): value, error and whether the status is read *)
Definition first_of (e : json) (k : string) : option json :=
  match field e k with Some (JArr (x :: _)) => if is_null x then None else Some x | _ => None end.
Definition readValueErrorUnit (j : json) (prop : string) (val err : R) (unit : string) : jres (R * R * bool) :=
  match field j prop with
  | None => JOk (val, err, false)
  | Some e =>
      let* u := match first_of e "units" with Some x => get_string x | None => JOk unit end in
      let* vs := match first_of e "values" with Some x => let* d := get_double x in let* y := convert d u unit in JOk (y, true) | None => JOk (val, false) end in
      let* er := match first_of e "errors" with Some x => let* d := get_double x in convert d u unit | None => JOk err end in
      JOk (fst vs, er, snd vs)
  end.

(** convert_values_units (105-123) *)
Definition unit_at (l : list string) (i : nat) : string := nth i l EmptyString.
Definition pair_units (f t : string) : string * string :=
  let f1 := if String.eqb f "" then t else f in
  if (String.eqb f1 "" || String.eqb t "")%bool then ("1"%string, "1"%string) else (f1, t).
Fixpoint convert_values (vs : list R) (i : nat) (from to : list string) : jres (list R) :=
  match vs with
  | [] => JOk []
  | v :: vs' => let* y := convert v (fst (pair_units (unit_at from i) (unit_at to i))) (snd (pair_units (unit_at from i) (unit_at to i))) in
                let* r := convert_values vs' (S i) from to in JOk (y :: r)
  end.
(** read_values_units (125-148) *)
Definition read_values_units (j : json) (data : string) (values : list R) (to : list string) : jres (list R) :=
  match field j data with
  | None => JOk values
  | Some e =>
      let* from := match field e "units" with
                   | Some (JArr l) => let* u := get_list get_string l in
                       JOk (if (String.eqb data "eos_hkf_coeffs" && Nat.leb 3 (List.length u) && String.eqb (unit_at u 2) "(cal*K)/mol")%bool then to else u)
                   | _ => JOk to end in
      match field e "values" with Some (JArr l) => let* v := get_list get_double l in convert_values v 0 from to | _ => JOk values end
  end.
(** read_value_unit (150-176); x[0] on an empty constant array is undefined *)
Definition head_of (e : json) (k : string) : jres (option json) :=
  match field e k with
  | Some (JArr []) => JUB
  | Some (JArr (x :: _)) => JOk (if is_null x then None else Some x)
  | _ => JOk None
  end.
Definition read_value_unit (j : json) (data : string) (value : option R) (to : string) : jres (option R) :=
  match field j data with
  | None => JOk value
  | Some e =>
      let* h := head_of e "units" in
      let* u := match h with Some x => get_string x | None => JOk to end in
      let '(u1, k1) := if (String.eqb data "m_expansivity" && String.eqb u "kbar")%bool then ("1/K"%string, 100000) else (u, 1) in
      let '(u2, k2) := if (String.eqb data "m_compressibility" && String.eqb u1 "1e-05/K")%bool then ("kbar"%string, 1) else (u1, k1) in
      let* v := head_of e "values" in
      match v with Some x => let* d := get_double x in let* y := convert (d * k2) u2 to in JOk (Some y) | None => JOk value end
  end.

(** ThermoScalar part of a reference property: value, error, read or not *)
Definition rprop : Type := (R * R * bool)%type.
Definition unset : rprop := (0, 0, false).
Definition refProp (j : json) (k u : string) : jres rprop := readValueErrorUnit j k 0 0 u.
(** thermoRefPropSubst (410-427) *)
Record srefs : Type := mkSR { rCp : rprop; rG : rprop; rH : rprop; rS : rprop; rV : rprop }.
Definition no_refs : srefs := mkSR unset unset unset unset unset.
Definition thermoRefPropSubst (j : json) : jres srefs :=
  let* a := refProp j "sm_heat_capacity_p" "J/K/mol" in let* b := refProp j "sm_gibbs_energy" "J/mol" in let* c := refProp j "sm_enthalpy" "J/mol" in
  let* d := refProp j "sm_entropy_abs" "J/K/mol" in let* e := refProp j "sm_volume" "J/bar" in JOk (mkSR a b c d e).
(** thermoRefPropReac (429-448) *)
Record rrefs : Type := mkRR { rlK : rprop; rrCp : rprop; rrG : rprop; rrH : rprop; rrS : rprop; rrV : rprop }.
Definition thermoRefPropReac (j : json) : jres rrefs :=
  let* k := refProp j "logKr" "1" in let* a := refProp j "drsm_heat_capacity_p" "J/K/mol" in let* b := refProp j "drsm_gibbs_energy" "J/mol" in
  let* c := refProp j "drsm_enthalpy" "J/mol" in let* d := refProp j "drsm_entropy" "J/K/mol" in let* e := refProp j "drsm_volume" "J/bar" in
  JOk (mkRR k a b c d e).

(** getReactants (450-462): a later entry of the same symbol replaces an earlier one *)
Definition rmap := list (string * R).
Fixpoint rset (k : string) (v : R) (m : rmap) : rmap :=
  match m with [] => [(k, v)] | (k', v') :: m' => if String.eqb k k' then (k, v) :: m' else (k', v') :: rset k v m' end.
Fixpoint getReactants (l : list json) (m : rmap) : jres rmap :=
  match l with
  | [] => JOk m
  | j :: l' =>
      match given j "symbol", given j "coefficient" with
      | Some s, Some c => let* s' := get_string s in let* c' := get_double c in getReactants l' (rset s' c' m)
      | _, _ => getReactants l' m
      end
  end.

(** state with exceptions: what was set before an exception stays set *)
Definition M (S A : Type) : Type := S -> S * jres A.
Definition ret {S A : Type} (a : A) : M S A := fun s => (s, JOk a).
Definition lift {S A : Type} (x : jres A) : M S A := fun s => (s, x).
Definition upd {S : Type} (f : S -> S) : M S unit := fun s => (f s, JOk tt).
Definition bind {S A B : Type} (m : M S A) (f : A -> M S B) : M S B :=
  fun s => match m s with (s', JOk a) => f a s' | (s', JExc) => (s', JExc) | (s', JStd) => (s', JStd) | (s', JUB) => (s', JUB) end.
Definition seqM {S A B : Type} (m : M S A) (n : M S B) : M S B := bind m (fun _ => n).
(** if the member is given, convert it and set *)
Definition opt {S A : Type} (j : json) (k : string) (g : json -> jres A) (f : A -> S -> S) : M S unit :=
  match given j k with Some x => bind (lift (g x)) (fun a => upd (f a)) | None => ret tt end.
(** catch (json::exception): the record as far as it got *)
Definition caught {S : Type} (r : S * jres unit) : jres S :=
  match r with (s, JOk _) => JOk s | (s, JExc) => JOk s | (_, JStd) => JStd | (_, JUB) => JUB end.
Definition body (j : json) : json := match given j "properties" with Some p => p | None => j end.

(** Element: new Impl() sets everything to zero or empty (Element.cpp:8-47) *)
Record elem : Type := mkEl { e_name : string; e_symbol : string; e_number : Z; e_S : option R; e_Cp : option R; e_mass : option R; e_V : option R; e_class : Z; e_iso : Z }.
Definition elem0 : elem := mkEl "" "" 0 (Some 0) (Some 0) (Some 0) (Some 0) 0 0.
Definition key_int (x : json) : jres Z := let* k := first_key x in stoi_ k.
(** parseElement (464-519); [val] is one variable without initial value *)
Definition parseElementM (j : json) : M elem unit :=
  seqM (opt j "name" get_string (fun a e => mkEl a (e_symbol e) (e_number e) (e_S e) (e_Cp e) (e_mass e) (e_V e) (e_class e) (e_iso e)))
 (seqM (opt j "symbol" get_string (fun a e => mkEl (e_name e) a (e_number e) (e_S e) (e_Cp e) (e_mass e) (e_V e) (e_class e) (e_iso e)))
 (seqM (opt j "number" get_int (fun a e => mkEl (e_name e) (e_symbol e) a (e_S e) (e_Cp e) (e_mass e) (e_V e) (e_class e) (e_iso e)))
 (bind (lift (read_value_unit j "entropy" None "J/(mol*K)")) (fun v1 =>
  seqM (upd (fun e => mkEl (e_name e) (e_symbol e) (e_number e) v1 (e_Cp e) (e_mass e) (e_V e) (e_class e) (e_iso e)))
 (bind (lift (read_value_unit j "heat_capacity" v1 "J/(mol*K)")) (fun v2 =>
  seqM (upd (fun e => mkEl (e_name e) (e_symbol e) (e_number e) (e_S e) v2 (e_mass e) (e_V e) (e_class e) (e_iso e)))
 (bind (lift (read_value_unit j "atomic_mass" v2 "g/mol")) (fun v3 =>
  seqM (upd (fun e => mkEl (e_name e) (e_symbol e) (e_number e) (e_S e) (e_Cp e) v3 (e_V e) (e_class e) (e_iso e)))
 (bind (lift (read_value_unit j "volume" v3 "J/bar")) (fun v4 =>
  seqM (upd (fun e => mkEl (e_name e) (e_symbol e) (e_number e) (e_S e) (e_Cp e) (e_mass e) v4 (e_class e) (e_iso e)))
 (seqM (match field j "class_" with
        | None => ret tt
        | Some x => bind (lift (match x with JObj (_ :: _) => key_int x | _ => JOk 0%Z end))
            (fun a => upd (fun e => mkEl (e_name e) (e_symbol e) (e_number e) (e_S e) (e_Cp e) (e_mass e) (e_V e) a (e_iso e)))
        end)
 (opt j "isotope_mass" get_int (fun a e => mkEl (e_name e) (e_symbol e) (e_number e) (e_S e) (e_Cp e) (e_mass e) (e_V e) (e_class e) a))))))))))))).
Definition parseElement (j : json) : jres elem := caught (parseElementM (body j) elem0).

(** categories of methods and the codes of new_old_s_methodtype, new_old_r_methodtype
    (225-269, 197-223; GlobalVariables.h:514-564) *)
Inductive cat : Set := GenEoS | CorrT | CorrP.
Definition s_method (key : Z) : option (cat * Z) :=
  match key with
  | 0 => Some (GenEoS, 100) | 2 => Some (GenEoS, 101) | 3 => Some (GenEoS, 119) | 25 => Some (GenEoS, 117) | 26 => Some (GenEoS, 118)
  | 27 => Some (GenEoS, 120) | 28 => Some (GenEoS, 121)
  | 5 => Some (CorrT, 201) | 6 => Some (CorrT, 202) | 1 => Some (CorrT, 203) | 29 => Some (CorrT, 206) | 30 => Some (CorrT, 207)
  | 31 => Some (CorrT, 221) | 32 => Some (CorrT, 222) | 33 => Some (CorrT, 223) | 43 => Some (CorrT, 200)
  | 34 => Some (CorrP, 305) | 35 => Some (CorrP, 306) | 36 => Some (CorrP, 307) | 37 => Some (CorrP, 308) | 38 => Some (CorrP, 309)
  | 39 => Some (CorrP, 310) | 8 => Some (CorrP, 311) | 9 => Some (CorrP, 312) | 10 => Some (CorrP, 313) | 11 => Some (CorrP, 314)
  | 12 => Some (CorrP, 315) | 13 => Some (CorrP, 316) | 14 => Some (CorrP, 317) | 4 => Some (CorrP, 320) | 40 => Some (CorrP, 300)
  | _ => None
  end%Z.
Definition r_method (key : Z) : option (cat * Z) :=
  match key with
  | 11 => Some (GenEoS, 100) | 1 => Some (GenEoS, 105) | 0 => Some (GenEoS, 102) | 2 => Some (GenEoS, 104)
  | 3 => Some (CorrT, 208) | 4 => Some (CorrT, 209) | 5 => Some (CorrT, 210) | 6 => Some (CorrT, 211) | 7 => Some (CorrT, 212)
  | 8 => Some (CorrT, 213) | 9 => Some (CorrT, 214) | 10 => Some (CorrT, 216) | 14 => Some (CorrT, 224)
  | 12 => Some (CorrP, 306) | 13 => Some (CorrP, 305)
  | _ => None
  end%Z.
Record meths : Type := mkMe { mG : Z; mT : Z; mP : Z }.
Definition setM (x : option (cat * Z)) (m : meths) : meths :=
  match x with
  | Some (GenEoS, z) => mkMe z (mT m) (mP m) | Some (CorrT, z) => mkMe (mG m) z (mP m) | Some (CorrP, z) => mkMe (mG m) (mT m) z | None => m
  end.

(** ThermoParametersSubstance; the two doubles have no initial value *)
Record sparams : Type := mkPS { p_ak : list R; p_crit : list R; p_hkf : list R; p_int : list (list R); p_cp : list (list R); p_ph : list (list R);
  p_landau : list R; p_hp : list R; p_exp : option R; p_comp : option R }.
Definition sparams0 : sparams := mkPS [] [] [] [] [] [] [] [] None None.
Local Open Scope string_scope.
Definition u_ak := ["1"; "(cm^3)/g"; "(cm^3*K^0.5)/g"].
Definition u_crit := ["K"; "bar"; "1"; "1"].
Definition u_hkf := ["cal/(mol*bar)"; "cal/mol"; "(cal*K)/(mol*bar)"; "(cal*K)/mol"; "cal/(mol*K)"; "(cal*K)/mol"; "cal/mol"].
Definition u_cp := ["J/(mol*K)"; "J/(mol*K^2)"; "(J*K)/mol"; "J/(mol*K^0.5)"; "J/(mol*K^3)"; "J/(mol*K^4)"; "J/(mol*K^5)"; "(J*K^2)/mol"; "J/mol"; "J/(mol*K^1.5)"; "J/(mol*K)"].
Definition u_ph := ["K"; "J/(mol*K)"; "J/mol"; "J/bar"; "K/bar"].
(** the limits of one method (369-382) *)
Definition limit (j : json) (k : string) : jres (list R) :=
  match field j "limitsTP" with
  | Some l => match given l k with Some x => let* d := get_double x in JOk [d] | None => JOk [] end
  | None => JOk [] end.
Definition limits (j : json) : jres (list R) := let* lo := limit j "lowerT" in let* up := limit j "upperT" in JOk (lo ++ up)%list.
(** thermoParamSubst (358-393) *)
Definition push (x : list R) (l : list (list R)) : list (list R) := match x with [] => l | _ => l ++ [x] end.
Definition thermoParamSubst (j : json) (name : string) (ps : sparams) : jres sparams :=
  let* ak := read_values_units j "eos_akinfiev_diamond_coeffs" (p_ak ps) u_ak in
  let* cr := read_values_units j "eos_gas_crit_props" (p_crit ps) u_crit in
  let* hk := read_values_units j "eos_hkf_coeffs" (p_hkf ps) u_hkf in
  let* ints := if String.eqb name "cp_ft_equation" then let* l := limits j in JOk (p_int ps ++ [l])%list else JOk (p_int ps) in
  let* cp := read_values_units j "m_heat_capacity_ft_coeffs" [] u_cp in
  let* ph := read_values_units j "m_phase_trans_props" [] u_ph in
  let* la := read_values_units j "m_landau_phase_trans_props" (p_landau ps) ["degC"; "J/(mol*K)"; "J/bar"] in
  let* hp := read_values_units j "solute_holland_powell98_coeff" (p_hp ps) ["kJ/(mol*K^2)"] in
  JOk (mkPS ak cr hk ints (push cp (p_cp ps)) (push ph (p_ph ps)) la hp (p_exp ps) (p_comp ps)).

(** Substance: new Impl() sets everything to zero or empty but reference T and P (Substance.cpp:11-) *)
Record subst : Type := mkSu { s_name : string; s_symbol : string; s_formula : string; s_charge : Z; s_reaction : string; s_mass : option R;
  s_agg : Z; s_class : Z; s_lowT : R; s_upT : R; s_Tr : R; s_Pr : R; s_meth : meths; s_reacdc : bool; s_par : sparams; s_refs : srefs }.
Definition subst0 : subst := mkSu "" "" "" 0 "" (Some 0) 0 0 0 0 (29815 / 100) 100000 (mkMe 0 0 0) false
  (mkPS [] [] [] [] [] [] [] [] (Some 0) (Some 0)) no_refs.
Definition set_meth (f : meths -> meths) (s : subst) : subst :=
  mkSu (s_name s) (s_symbol s) (s_formula s) (s_charge s) (s_reaction s) (s_mass s) (s_agg s) (s_class s) (s_lowT s) (s_upT s) (s_Tr s) (s_Pr s) (f (s_meth s)) (s_reacdc s) (s_par s) (s_refs s).
(** a method entry that is looked at (313-317, 338-342): an object or array with a first member that is not null *)
Definition usable (m : json) : bool :=
  match m with JObj ((_, x) :: _) => negb (is_null x) | JArr (x :: _) => negb (is_null x) | _ => false end.
Definition first_value (m : json) : jres string := match m with JObj ((_, v) :: _) => get_string v | _ => JExc end.
Fixpoint methodsS (l : list json) (ps : sparams) : M subst sparams :=
  match l with
  | [] => ret ps
  | v :: l' =>
      match field v "method" with
      | Some m => if usable m
                  then bind (lift (key_int m)) (fun key => bind (lift (first_value m)) (fun name =>
                       seqM (upd (set_meth (setM (s_method key)))) (bind (lift (thermoParamSubst v name ps)) (fun ps' => methodsS l' ps'))))
                  else methodsS l' ps
      | None => methodsS l' ps
      end
  end.
(** getTPMethods (329-356) *)
Definition set_par (ps : sparams) (s : subst) : subst :=
  mkSu (s_name s) (s_symbol s) (s_formula s) (s_charge s) (s_reaction s) (s_mass s) (s_agg s) (s_class s) (s_lowT s) (s_upT s) (s_Tr s) (s_Pr s) (s_meth s) (s_reacdc s) ps (s_refs s).
Definition getTPMethodsS (j ms : json) : M subst unit :=
  bind (methodsS (elems ms) sparams0) (fun ps =>
  bind (lift (read_value_unit j "m_expansivity" (p_exp ps) "1/K")) (fun x =>
  bind (lift (read_value_unit j "m_compressibility" (p_comp ps) "kbar")) (fun c =>
  upd (set_par (mkPS (p_ak ps) (p_crit ps) (p_hkf ps) (p_int ps) (p_cp ps) (p_ph ps) (p_landau ps) (p_hp ps) x c))))).
(** parseSubstance (521-607) *)
Definition parseSubstanceM (j : json) : M subst unit :=
  seqM (opt j "name" get_string (fun a s => mkSu a (s_symbol s) (s_formula s) (s_charge s) (s_reaction s) (s_mass s) (s_agg s) (s_class s) (s_lowT s) (s_upT s) (s_Tr s) (s_Pr s) (s_meth s) (s_reacdc s) (s_par s) (s_refs s)))
 (seqM (opt j "symbol" get_string (fun a s => mkSu (s_name s) a (s_formula s) (s_charge s) (s_reaction s) (s_mass s) (s_agg s) (s_class s) (s_lowT s) (s_upT s) (s_Tr s) (s_Pr s) (s_meth s) (s_reacdc s) (s_par s) (s_refs s)))
 (seqM (opt j "formula" get_string (fun a s => mkSu (s_name s) (s_symbol s) a (s_charge s) (s_reaction s) (s_mass s) (s_agg s) (s_class s) (s_lowT s) (s_upT s) (s_Tr s) (s_Pr s) (s_meth s) (s_reacdc s) (s_par s) (s_refs s)))
 (seqM (opt j "formula_charge" get_int (fun a s => mkSu (s_name s) (s_symbol s) (s_formula s) a (s_reaction s) (s_mass s) (s_agg s) (s_class s) (s_lowT s) (s_upT s) (s_Tr s) (s_Pr s) (s_meth s) (s_reacdc s) (s_par s) (s_refs s)))
 (seqM (opt j "reaction" get_string (fun a s => mkSu (s_name s) (s_symbol s) (s_formula s) (s_charge s) a (s_mass s) (s_agg s) (s_class s) (s_lowT s) (s_upT s) (s_Tr s) (s_Pr s) (s_meth s) (s_reacdc s) (s_par s) (s_refs s)))
 (bind (lift (read_value_unit j "mass_per_mole" None "g/mol")) (fun v =>
  seqM (upd (fun s => mkSu (s_name s) (s_symbol s) (s_formula s) (s_charge s) (s_reaction s) v (s_agg s) (s_class s) (s_lowT s) (s_upT s) (s_Tr s) (s_Pr s) (s_meth s) (s_reacdc s) (s_par s) (s_refs s)))
 (seqM (match given j "aggregate_state" with
        | Some x => if is_empty x then ret tt else bind (lift (key_int x)) (fun a => upd (fun s => mkSu (s_name s) (s_symbol s) (s_formula s) (s_charge s) (s_reaction s) (s_mass s) a (s_class s) (s_lowT s) (s_upT s) (s_Tr s) (s_Pr s) (s_meth s) (s_reacdc s) (s_par s) (s_refs s)))
        | None => ret tt end)
 (seqM (match given j "class_" with
        | Some x => if is_empty x then ret tt else bind (lift (key_int x)) (fun a => upd (fun s => mkSu (s_name s) (s_symbol s) (s_formula s) (s_charge s) (s_reaction s) (s_mass s) (s_agg s) a (s_lowT s) (s_upT s) (s_Tr s) (s_Pr s) (s_meth s) (s_reacdc s) (s_par s) (s_refs s)))
        | None => ret tt end)
 (seqM (match given j "limitsTP" with
        | Some l => seqM (opt l "lowerT" get_double (fun a s => mkSu (s_name s) (s_symbol s) (s_formula s) (s_charge s) (s_reaction s) (s_mass s) (s_agg s) (s_class s) a (s_upT s) (s_Tr s) (s_Pr s) (s_meth s) (s_reacdc s) (s_par s) (s_refs s)))
                         (opt l "upperT" get_double (fun a s => mkSu (s_name s) (s_symbol s) (s_formula s) (s_charge s) (s_reaction s) (s_mass s) (s_agg s) (s_class s) (s_lowT s) a (s_Tr s) (s_Pr s) (s_meth s) (s_reacdc s) (s_par s) (s_refs s)))
        | None => ret tt end)
 (seqM (opt j "Tst" get_double (fun a s => mkSu (s_name s) (s_symbol s) (s_formula s) (s_charge s) (s_reaction s) (s_mass s) (s_agg s) (s_class s) (s_lowT s) (s_upT s) a (s_Pr s) (s_meth s) (s_reacdc s) (s_par s) (s_refs s)))
 (seqM (opt j "Pst" get_double (fun a s => mkSu (s_name s) (s_symbol s) (s_formula s) (s_charge s) (s_reaction s) (s_mass s) (s_agg s) (s_class s) (s_lowT s) (s_upT s) (s_Tr s) a (s_meth s) (s_reacdc s) (s_par s) (s_refs s)))
 (seqM (match given j "TPMethods" with Some ms => getTPMethodsS j ms | None => ret tt end)
 (seqM (match field j "TPMethods", given j "reaction" with
        | None, Some _ => upd (fun s => mkSu (s_name s) (s_symbol s) (s_formula s) (s_charge s) (s_reaction s) (s_mass s) (s_agg s) (s_class s) (s_lowT s) (s_upT s) (s_Tr s) (s_Pr s) (s_meth s) true (s_par s) (s_refs s))
        | _, _ => ret tt end)
 (bind (lift (thermoRefPropSubst j)) (fun r =>
  upd (fun s => mkSu (s_name s) (s_symbol s) (s_formula s) (s_charge s) (s_reaction s) (s_mass s) (s_agg s) (s_class s) (s_lowT s) (s_upT s) (s_Tr s) (s_Pr s) (s_meth s) (s_reacdc s) (s_par s) r)))))))))))))))).
Definition parseSubstance (j : json) : jres subst := caught (parseSubstanceM (body j) subst0).

(** thermoParamReac (395-408) *)
Record rparams : Type := mkPR { q_lk : list R; q_cp : list R; q_v : list R; q_rb : list R; q_fm : list R; q_dm : list R }.
Definition rparams0 : rparams := mkPR [] [] [] [] [] [].
Definition thermoParamReac (j : json) (pr : rparams) : jres rparams :=
  let* a := read_values_units j "logk_ft_coeffs" (q_lk pr) ["1"; "1/K"; "K"; "1"; "K^2"; "1/K^2"; "K^0.5"] in
  let* b := read_values_units j "dr_heat_capacity_ft_coeffs" (q_cp pr) ["J/(mol*K)"; "J/(mol*K^2)"; "(J*K)/mol"; "J/(mol*K^0.5)"; "J/(mol*K^3)"] in
  let* c := read_values_units j "dr_volume_fpt_coeffs" (q_v pr) ["1/K"; "1/K^2"; "1/K^3"; "1/bar"; "1/bar^2"] in
  let* d := read_values_units j "dr_ryzhenko_coeffs" (q_rb pr) ["1"; "1"; "1"] in
  let* e := read_values_units j "dr_marshall_franck_coeffs" (q_fm pr) ["1"; "K"; "K^2"; "K^3"; "1"; "K"; "K^2"] in
  let* f := read_values_units j "dr_dolejs_manning10_coeffs" (q_dm pr) ["kJ/mol"; "J/(mol*K)"; "J/(mol*K)"; "J/(mol*K^2)"; "J/(mol*K)"] in
  JOk (mkPR a b c d e f).
(** Reaction; the equation's reactants are read by fromEquation (see EquationModel) *)
Record reac : Type := mkRe { r_name : string; r_symbol : string; r_equation : string; r_reactants : rmap; r_lowT : R; r_upT : R; r_Tr : R; r_Pr : R;
  r_meth : meths; r_par : rparams; r_refs : option rrefs }.
Definition reac0 : reac := mkRe "" "" "" [] 0 0 (29815 / 100) 100000 (mkMe 0 0 0) rparams0 None.
Variable fromEquation : string -> rmap.
Definition set_rmeth (f : meths -> meths) (r : reac) : reac :=
  mkRe (r_name r) (r_symbol r) (r_equation r) (r_reactants r) (r_lowT r) (r_upT r) (r_Tr r) (r_Pr r) (f (r_meth r)) (r_par r) (r_refs r).
Fixpoint methodsR (l : list json) (pr : rparams) : M reac rparams :=
  match l with
  | [] => ret pr
  | v :: l' =>
      match field v "method" with
      | Some m => if usable m
                  then bind (lift (key_int m)) (fun key => bind (lift (first_value m)) (fun _ =>
                       seqM (upd (set_rmeth (setM (r_method key)))) (bind (lift (thermoParamReac v pr)) (fun pr' => methodsR l' pr'))))
                  else methodsR l' pr
      | None => methodsR l' pr
      end
  end.
(** parseReaction (609-676) with getTPMethods (305-327) *)
Definition parseReactionM (j : json) : M reac unit :=
  seqM (opt j "name" get_string (fun a r => mkRe a (r_symbol r) (r_equation r) (r_reactants r) (r_lowT r) (r_upT r) (r_Tr r) (r_Pr r) (r_meth r) (r_par r) (r_refs r)))
 (seqM (opt j "symbol" get_string (fun a r => mkRe (r_name r) a (r_equation r) (r_reactants r) (r_lowT r) (r_upT r) (r_Tr r) (r_Pr r) (r_meth r) (r_par r) (r_refs r)))
 (seqM (opt j "equation" get_string (fun a r => mkRe (r_name r) (r_symbol r) a (fromEquation a) (r_lowT r) (r_upT r) (r_Tr r) (r_Pr r) (r_meth r) (r_par r) (r_refs r)))
 (seqM (match given j "limitsTP" with
        | Some l => seqM (opt l "lowerT" get_double (fun a r => mkRe (r_name r) (r_symbol r) (r_equation r) (r_reactants r) a (r_upT r) (r_Tr r) (r_Pr r) (r_meth r) (r_par r) (r_refs r)))
                         (opt l "upperT" get_double (fun a r => mkRe (r_name r) (r_symbol r) (r_equation r) (r_reactants r) (r_lowT r) a (r_Tr r) (r_Pr r) (r_meth r) (r_par r) (r_refs r)))
        | None => ret tt end)
 (seqM (opt j "Tst" get_double (fun a r => mkRe (r_name r) (r_symbol r) (r_equation r) (r_reactants r) (r_lowT r) (r_upT r) a (r_Pr r) (r_meth r) (r_par r) (r_refs r)))
 (seqM (opt j "Pst" get_double (fun a r => mkRe (r_name r) (r_symbol r) (r_equation r) (r_reactants r) (r_lowT r) (r_upT r) (r_Tr r) a (r_meth r) (r_par r) (r_refs r)))
 (seqM (opt j "reactants" (fun x => getReactants (elems x) []) (fun a r => mkRe (r_name r) (r_symbol r) (r_equation r) a (r_lowT r) (r_upT r) (r_Tr r) (r_Pr r) (r_meth r) (r_par r) (r_refs r)))
 (seqM (match given j "TPMethods" with
        | Some ms => bind (methodsR (elems ms) rparams0) (fun p => upd (fun r => mkRe (r_name r) (r_symbol r) (r_equation r) (r_reactants r) (r_lowT r) (r_upT r) (r_Tr r) (r_Pr r) (r_meth r) p (r_refs r)))
        | None => ret tt end)
 (bind (lift (thermoRefPropReac j)) (fun x =>
  upd (fun r => mkRe (r_name r) (r_symbol r) (r_equation r) (r_reactants r) (r_lowT r) (r_upT r) (r_Tr r) (r_Pr r) (r_meth r) (r_par r) (Some x))))))))))).
Definition parseReaction (j : json) : jres reac := caught (parseReactionM (body j) reac0).
End Parse.

(** the conversion of Common/Units.cpp *)
Definition uconvert (x : R) (f t : string) : jres R :=
  match UnitsModel.convert x (list_ascii_of_string f) (list_ascii_of_string t) with UOk y => JOk y | UThrow => JStd | UUB => JUB end.
