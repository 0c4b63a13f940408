(** The calls of the water models: units, the pressure the caller passed by reference, refusals.  ThermoModelsSolvent.cpp 14-245, GlobalVariables.h 56-81.
    What the models compute from the state is a parameter ([body], [state_of], [out], [formula]); exceptions thrown by the near-critical
    equation (LVSeqn) are left out.  Kelvin and Pa.  Definitions only.  *)
From Coq Require Import Bool List Reals String.
From Verif Require Import GemsRun HgkSat HgkRoute.
Import ListNotations.
Open Scope string_scope.
Open Scope R_scope.

(** an exception or a result, and the pressure left in the variable of the caller *)
Inductive outcome (A : Type) : Type := Refused | Done (a : A).
Arguments Refused {A}. Arguments Done {A}.
Definition call (A : Type) : Type := outcome A * R.

(** waterTripleData, GlobalVariables.h 58-81: S, G, H, U, A in calories *)
Definition triple : Type := R * R * R * R * R.
Definition tripleData : list (string * triple) :=
  [("HKF_HGK_1974", (15132 / 1000, -56290, -68767, -67887, -55415));
   ("NEA_HGK", (151386 / 10000, -562799 / 10, -6876644 / 100, -679219 / 10, -5543449 / 100));
   ("NEA_IAPWS", (151374 / 10000, -562799 / 10, -6876676 / 100, -6792222 / 100, -5543449 / 100))].
(** waterTripleData.at(triple): [None] is std::out_of_range *)
Definition triple_at (s : string) : option triple := option_map snd (find (fun e => String.eqb (fst e) s) tripleData).

(** WaterHGK::propertiesSolvent and thermoPropertiesSubstance, 71-91.
    [route] is None when valid throws; then the pressure set_P chose is left, in bar.  [body] gets the triple point, the saturated flag, kelvin, bar,
    the near-critical flag and the state *)
Definition hgk_call {A : Type} (pf : R -> R) (body : triple -> bool -> R -> R -> bool -> nat -> A) (T P : R) (state : nat) (ref : string) : call A :=
  let Tc := T - 27315 / 100 in
  let Pb := P / 100000 in
  match triple_at ref with
  | None => (Refused, Pb)
  | Some w => match route pf Tc Pb with
              | None => (Refused, snd (set_P PsHGK (Tc + 27315 / 100) Pb))
              | Some (isat, Tk, P', l) => (Done (body w isat Tk P' l state), P' * 100000)
              end
  end.

(** WaterHGKreaktoro and WaterWP95reaktoro, 117-139 and 166-191: [psat] is waterSaturatedPressureWagnerPruss, [state_of] waterThermoStateHGK or
    waterThermoStateWagnerPruss, None when it throws.  The triple point is looked up after the pressure is written *)
Definition rea_call {W A : Type} (psat : R -> R) (state_of : R -> R -> nat -> option W) (out : R -> W -> triple -> A) (T P : R) (state : nat) (ref : string) : call A :=
  let p := if Req_EM_T P 0 then psat T else P in
  match state_of T p state with
  | None => (Refused, P)
  | Some w => match triple_at ref with None => (Refused, p) | Some t => (Done (out T w t), p) end
  end.

(** checkModelValidity, 17-45: the lower limit of temperature is commented out *)
Definition checkModelValidity (T P Tmax Tmin Pmax Pmin : R) : bool :=
  if Rlt_dec T 0 then false else if Rlt_dec Tmax T then false else if Rlt_dec Pmax P then false else if Rlt_dec P Pmin then false else true.
(** WaterZhangDuan2005, 216-244: the pressure is passed by value *)
Definition zd_call {A : Type} (formula : R -> R -> A) (T P : R) : call A :=
  if checkModelValidity T P (227315 / 100) (27315 / 100) (3 * 10 ^ 10) (10 ^ 8) then (Done (formula T (P / 100000)), P) else (Refused, P).

(** electroPropertiesSolvent of the engine with the solvent model WaterHGK and the dielectric model WaterJNgems: ThermoEngine.cpp 499-517, 555-559,
    ElectroModelsSolvent.cpp 87-96.  The second call gets the pressure the first has left, by value, and always the triple point NEA_HGK *)
Definition electro_hgk {A B : Type} (pf : R -> R) (body : triple -> bool -> R -> R -> bool -> nat -> A) (diel : triple -> bool -> R -> R -> bool -> nat -> B) (T P : R) (state : nat) : call (A * B) :=
  let x := hgk_call pf body T P state "NEA_HGK" in
  match fst x with
  | Refused => (Refused, snd x)
  | Done a => match fst (hgk_call pf diel T (snd x) state "NEA_HGK") with Refused => (Refused, snd x) | Done b => (Done (a, b), snd x) end
  end.
