(** Model of ThermoFun/Common/Units.cpp.  Definitions only.  Numbers are reals, unit factors
    rationals, powers are stored doubled (the table has the powers 0.5 and 1.5). *)
From Coq Require Import String Ascii List Bool Arith ZArith QArith Qreals Reals.
From Verif Require Import DatabaseModel EquationModel.
Import ListNotations.
Open Scope string_scope.

(** outcome of a call: a value, an exception, or undefined behaviour *)
Inductive ures (A : Type) : Type := UOk (a : A) | UThrow | UUB.
Arguments UOk {A}. Arguments UThrow {A}. Arguments UUB {A}.
Definition ubind {A B : Type} (x : ures A) (f : A -> ures B) : ures B :=
  match x with UOk a => f a | UThrow => UThrow | UUB => UUB end.

(** StringUnit (Units.cpp:63-68): factor, symbol, twice the power *)
Record sunit : Type := mkU { u_factor : Q; u_symbol : string; u_pow2 : Z }.
(** derivedUnitsMap (Units.cpp:97-403); the prefixes of lines 79-95 are written out *)
Definition derivedUnits : list (string * list sunit) := [
  ("1", [mkU (1 # 1) "1" (2)]);
  ("%%", [mkU (1 # 100) "1" (2)]);
  ("percent", [mkU (1 # 100) "1" (2)]);
  ("%%%%", [mkU (1 # 1000) "1" (2)]);
  ("permil", [mkU (1 # 1000) "1" (2)]);
  ("ppm", [mkU (1 # 1000000) "1" (2)]);
  ("ppb", [mkU (1 # 1000000000) "1" (2)]);
  ("g", [mkU (1 # 1) "g" (2)]);
  ("kg", [mkU (1000 # 1) "g" (2)]);
  ("mg", [mkU (1 # 1000) "g" (2)]);
  ("ug", [mkU (1 # 1000000) "g" (2)]);
  ("ng", [mkU (1 # 1000000000) "g" (2)]);
  ("tonne", [mkU (1000 # 1) "kg" (2)]);
  ("lb", [mkU (45359237 # 100000) "g" (2)]);
  ("amu", [mkU (1660538921 # 1000000000000000000000000000000000000) "kg" (2)]);
  ("ton", [mkU (2000 # 1) "lb" (2)]);
  ("gram", [mkU (1 # 1) "g" (2)]);
  ("grams", [mkU (1 # 1) "g" (2)]);
  ("kilogram", [mkU (1 # 1) "kg" (2)]);
  ("kilograms", [mkU (1 # 1) "kg" (2)]);
  ("lbm", [mkU (1 # 1) "lb" (2)]);
  ("m", [mkU (1 # 1) "m" (2)]);
  ("km", [mkU (1000 # 1) "m" (2)]);
  ("cm", [mkU (1 # 100) "m" (2)]);
  ("mm", [mkU (1 # 1000) "m" (2)]);
  ("um", [mkU (1 # 1000000) "m" (2)]);
  ("nm", [mkU (1 # 1000000000) "m" (2)]);
  ("Angstrom", [mkU (1 # 10000000000) "m" (2)]);
  ("in", [mkU (127 # 5) "mm" (2)]);
  ("mil", [mkU (1 # 1000) "in" (2)]);
  ("ft", [mkU (12 # 1) "in" (2)]);
  ("yd", [mkU (3 # 1) "ft" (2)]);
  ("mi", [mkU (5280 # 1) "ft" (2)]);
  ("nauticalmile", [mkU (1852 # 1) "m" (2)]);
  ("lightyear", [mkU (9460730472580800 # 1) "m" (2)]);
  ("au", [mkU (149597870700 # 1) "m" (2)]);
  ("feet", [mkU (1 # 1) "ft" (2)]);
  ("foot", [mkU (1 # 1) "ft" (2)]);
  ("inch", [mkU (1 # 1) "in" (2)]);
  ("inches", [mkU (1 # 1) "in" (2)]);
  ("meter", [mkU (1 # 1) "m" (2)]);
  ("meters", [mkU (1 # 1) "m" (2)]);
  ("mile", [mkU (1 # 1) "mi" (2)]);
  ("miles", [mkU (1 # 1) "mi" (2)]);
  ("yard", [mkU (1 # 1) "yd" (2)]);
  ("yards", [mkU (1 # 1) "yd" (2)]);
  ("s", [mkU (1 # 1) "s" (2)]);
  ("ms", [mkU (1 # 1000) "s" (2)]);
  ("us", [mkU (1 # 1000000) "s" (2)]);
  ("ns", [mkU (1 # 1000000000) "s" (2)]);
  ("minute", [mkU (60 # 1) "s" (2)]);
  ("hour", [mkU (3600 # 1) "s" (2)]);
  ("day", [mkU (24 # 1) "hour" (2)]);
  ("week", [mkU (7 # 1) "day" (2)]);
  ("month", [mkU (608737 # 20000) "day" (2)]);
  ("year", [mkU (1826211 # 5000) "day" (2)]);
  ("second", [mkU (1 # 1) "s" (2)]);
  ("seconds", [mkU (1 # 1) "s" (2)]);
  ("minutes", [mkU (1 # 1) "minute" (2)]);
  ("hours", [mkU (1 # 1) "hour" (2)]);
  ("days", [mkU (1 # 1) "day" (2)]);
  ("weeks", [mkU (1 # 1) "week" (2)]);
  ("months", [mkU (1 # 1) "month" (2)]);
  ("years", [mkU (1 # 1) "year" (2)]);
  ("A", [mkU (1 # 1) "A" (2)]);
  ("MA", [mkU (1000000 # 1) "A" (2)]);
  ("kA", [mkU (1000 # 1) "A" (2)]);
  ("mA", [mkU (1 # 1000) "A" (2)]);
  ("uA", [mkU (1 # 1000000) "A" (2)]);
  ("nA", [mkU (1 # 1000000000) "A" (2)]);
  ("pA", [mkU (1 # 1000000000000) "A" (2)]);
  ("ampere", [mkU (1 # 1) "A" (2)]);
  ("amperes", [mkU (1 # 1) "A" (2)]);
  ("mol", [mkU (1 # 1) "mol" (2)]);
  ("mmol", [mkU (1 # 1000) "mol" (2)]);
  ("umol", [mkU (1 # 1000000) "mol" (2)]);
  ("mole", [mkU (1 # 1) "mol" (2)]);
  ("moles", [mkU (1 # 1) "mol" (2)]);
  ("cd", [mkU (1 # 1) "cd" (2)]);
  ("candela", [mkU (1 # 1) "cd" (2)]);
  ("radian", [mkU (1 # 1) "radian" (2)]);
  ("mradian", [mkU (1 # 1000) "radian" (2)]);
  ("uradian", [mkU (1 # 1000000) "radian" (2)]);
  ("deg", [mkU (314159265359 # 18000000000000) "radian" (2)]);
  ("degree", [mkU (1 # 1) "deg" (2)]);
  ("degrees", [mkU (1 # 1) "deg" (2)]);
  ("sr", [mkU (1 # 1) "sr" (2)]);
  ("steradian", [mkU (1 # 1) "sr" (2)]);
  ("m2", [mkU (1 # 1) "m" (4)]);
  ("m^2", [mkU (1 # 1) "m" (4)]);
  ("mm2", [mkU (1 # 1) "mm" (4)]);
  ("mm^2", [mkU (1 # 1) "mm" (4)]);
  ("cm2", [mkU (1 # 1) "cm" (4)]);
  ("cm^2", [mkU (1 # 1) "cm" (4)]);
  ("in2", [mkU (1 # 1) "in" (4)]);
  ("in^2", [mkU (1 # 1) "in" (4)]);
  ("ft2", [mkU (1 # 1) "ft" (4)]);
  ("ft^2", [mkU (1 # 1) "ft" (4)]);
  ("hectare", [mkU (10000 # 1) "m2" (2)]);
  ("acre", [mkU (20234363 # 5000) "m2" (2)]);
  ("barn", [mkU (1 # 10000000000000000000000000000) "m2" (2)]);
  ("hectares", [mkU (1 # 1) "hectare" (2)]);
  ("acres", [mkU (1 # 1) "acre" (2)]);
  ("barns", [mkU (1 # 1) "barn" (2)]);
  ("m3", [mkU (1 # 1) "m" (6)]);
  ("m^3", [mkU (1 # 1) "m" (6)]);
  ("mm3", [mkU (1 # 1) "mm" (6)]);
  ("mm^3", [mkU (1 # 1) "mm" (6)]);
  ("cm3", [mkU (1 # 1) "cm" (6)]);
  ("cm^3", [mkU (1 # 1) "cm" (6)]);
  ("in3", [mkU (1 # 1) "in" (6)]);
  ("in^3", [mkU (1 # 1) "in" (6)]);
  ("ft3", [mkU (1 # 1) "ft" (6)]);
  ("ft^3", [mkU (1 # 1) "ft" (6)]);
  ("l", [mkU (1 # 1000) "m3" (2)]);
  ("ml", [mkU (1 # 1000) "l" (2)]);
  ("ul", [mkU (1 # 1000000) "l" (2)]);
  ("L", [mkU (1 # 1000) "m3" (2)]);
  ("mL", [mkU (1 # 1000) "L" (2)]);
  ("uL", [mkU (1 # 1000000) "L" (2)]);
  ("gal", [mkU (454609 # 100000) "l" (2)]);
  ("quart", [mkU (1 # 4) "gal" (2)]);
  ("cc", [mkU (1 # 1) "cm3" (2)]);
  ("gallon", [mkU (1 # 1) "gal" (2)]);
  ("gallons", [mkU (1 # 1) "gal" (2)]);
  ("liter", [mkU (1 # 1) "l" (2)]);
  ("liters", [mkU (1 # 1) "l" (2)]);
  ("mps", [mkU (1 # 1) "m" (2); mkU (1 # 1) "s" (-2)]);
  ("cmps", [mkU (1 # 1) "cm" (2); mkU (1 # 1) "s" (-2)]);
  ("mph", [mkU (1 # 1) "mile" (2); mkU (1 # 1) "hour" (-2)]);
  ("knot", [mkU (1 # 1) "nauticalmile" (2); mkU (1 # 1) "hour" (-2)]);
  ("fps", [mkU (1 # 1) "foot" (2); mkU (1 # 1) "s" (-2)]);
  ("mpss", [mkU (1 # 1) "mps" (2); mkU (1 # 1) "s" (-2)]);
  ("fpss", [mkU (1 # 1) "fps" (2); mkU (1 # 1) "s" (-2)]);
  ("gravity", [mkU (196133 # 20000) "mpss" (2)]);
  ("Hz", [mkU (1 # 1) "s" (-2)]);
  ("kHz", [mkU (1000 # 1) "Hz" (2)]);
  ("MHz", [mkU (1000000 # 1) "Hz" (2)]);
  ("GHz", [mkU (1000000000 # 1) "Hz" (2)]);
  ("rpm", [mkU (1 # 1) "minute" (-2)]);
  ("hertz", [mkU (1 # 1) "Hz" (2)]);
  ("gps", [mkU (1 # 1) "gal" (2); mkU (1 # 1) "s" (-2)]);
  ("gpm", [mkU (1 # 1) "gal" (2); mkU (1 # 1) "minute" (-2)]);
  ("gph", [mkU (1 # 1) "gal" (2); mkU (1 # 1) "hour" (-2)]);
  ("cfs", [mkU (1 # 1) "ft3" (2); mkU (1 # 1) "s" (-2)]);
  ("cfm", [mkU (1 # 1) "ft3" (2); mkU (1 # 1) "minute" (-2)]);
  ("lps", [mkU (1 # 1) "liter" (2); mkU (1 # 1) "s" (-2)]);
  ("lpm", [mkU (1 # 1) "liter" (2); mkU (1 # 1) "minute" (-2)]);
  ("N", [mkU (1 # 1) "kg" (2); mkU (1 # 1) "m" (2); mkU (1 # 1) "s" (-4)]);
  ("kN", [mkU (1000 # 1) "N" (2)]);
  ("lbf", [mkU (222411081 # 50000000) "N" (2)]);
  ("dyne", [mkU (1 # 100000) "N" (2)]);
  ("dynes", [mkU (1 # 1) "dyne" (2)]);
  ("newton", [mkU (1 # 1) "N" (2)]);
  ("newtons", [mkU (1 # 1) "N" (2)]);
  ("Pa", [mkU (1 # 1) "N" (2); mkU (1 # 1) "m2" (-2)]);
  ("kPa", [mkU (1000 # 1) "Pa" (2)]);
  ("MPa", [mkU (1000000 # 1) "Pa" (2)]);
  ("GPa", [mkU (1000000000 # 1) "Pa" (2)]);
  ("atm", [mkU (101325 # 1) "Pa" (2)]);
  ("mmHg", [mkU (13332239 # 100000) "Pa" (2)]);
  ("inHg", [mkU (16931943 # 5000) "Pa" (2)]);
  ("psi", [mkU (1 # 1) "lbf" (2); mkU (1 # 1) "in2" (-2)]);
  ("kpsi", [mkU (1000 # 1) "psi" (2)]);
  ("Mpsi", [mkU (1000000 # 1) "psi" (2)]);
  ("psf", [mkU (1 # 1) "lbf" (2); mkU (1 # 1) "ft2" (-2)]);
  ("bar", [mkU (100000 # 1) "Pa" (2)]);
  ("kbar", [mkU (1000 # 1) "bar" (2)]);
  ("torr", [mkU (2083162 # 15625) "Pa" (2)]);
  ("inH2O", [mkU (24908891 # 100000) "Pa" (2)]);
  ("ftH2O", [mkU (12 # 1) "inH2O" (2)]);
  ("pascal", [mkU (1 # 1) "Pa" (2)]);
  ("pascals", [mkU (1 # 1) "Pa" (2)]);
  ("J", [mkU (1 # 1) "N" (2); mkU (1 # 1) "m" (2)]);
  ("kJ", [mkU (1000 # 1) "J" (2)]);
  ("MJ", [mkU (1000000 # 1) "J" (2)]);
  ("erg", [mkU (1 # 1) "dyne" (2); mkU (1 # 1) "cm" (2)]);
  ("cal", [mkU (523 # 125) "J" (2)]);
  ("kcal", [mkU (1000 # 1) "cal" (2)]);
  ("eV", [mkU (160217657 # 1000000000000000000000000000) "J" (2)]);
  ("keV", [mkU (1000 # 1) "eV" (2)]);
  ("MeV", [mkU (1000000 # 1) "eV" (2)]);
  ("GeV", [mkU (1000000000 # 1) "eV" (2)]);
  ("btu", [mkU (21101117 # 20000) "J" (2)]);
  ("calorie", [mkU (1 # 1) "cal" (2)]);
  ("calories", [mkU (1 # 1) "cal" (2)]);
  ("joule", [mkU (1 # 1) "J" (2)]);
  ("joules", [mkU (1 # 1) "J" (2)]);
  ("W", [mkU (1 # 1) "J" (2); mkU (1 # 1) "s" (-2)]);
  ("watts", [mkU (1 # 1) "W" (2)]);
  ("C", [mkU (1 # 1) "A" (2); mkU (1 # 1) "s" (2)]);
  ("coulomb", [mkU (1 # 1) "C" (2)]);
  ("coulombs", [mkU (1 # 1) "C" (2)]);
  ("mC", [mkU (1 # 1000) "C" (2)]);
  ("V", [mkU (1 # 1) "J" (2); mkU (1 # 1) "C" (-2)]);
  ("volt", [mkU (1 # 1) "V" (2)]);
  ("volts", [mkU (1 # 1) "V" (2)]);
  ("mV", [mkU (1 # 1000) "V" (2)]);
  ("ohm", [mkU (1 # 1) "V" (2); mkU (1 # 1) "A" (-2)]);
  ("ohms", [mkU (1 # 1) "ohm" (2)]);
  ("S", [mkU (1 # 1) "ohm" (-2)]);
  ("siemens", [mkU (1 # 1) "S" (2)]);
  ("F", [mkU (1 # 1) "C" (2); mkU (1 # 1) "V" (-2)]);
  ("pF", [mkU (1 # 1000000000000) "F" (2)]);
  ("nF", [mkU (1 # 1000000000) "F" (2)]);
  ("uF", [mkU (1 # 1000000) "F" (2)]);
  ("mF", [mkU (1 # 1000) "F" (2)]);
  ("farad", [mkU (1 # 1) "F" (2)]);
  ("farads", [mkU (1 # 1) "F" (2)]);
  ("Wb", [mkU (1 # 1) "V" (2); mkU (1 # 1) "s" (2)]);
  ("weber", [mkU (1 # 1) "Wb" (2)]);
  ("webers", [mkU (1 # 1) "Wb" (2)]);
  ("T", [mkU (1 # 1) "Wb" (2); mkU (1 # 1) "m" (4)]);
  ("gauss", [mkU (1 # 10000) "T" (2)]);
  ("tesla", [mkU (1 # 1) "T" (2)]);
  ("teslas", [mkU (1 # 1) "T" (2)]);
  ("H", [mkU (1 # 1) "Wb" (2); mkU (1 # 1) "A" (-2)]);
  ("mH", [mkU (1 # 1000) "H" (2)]);
  ("uH", [mkU (1 # 1000000) "H" (2)]);
  ("henry", [mkU (1 # 1) "H" (2)]);
  ("molal", [mkU (1 # 1) "mol" (2); mkU (1 # 1) "kg" (-2)]);
  ("mmolal", [mkU (1 # 1000) "molal" (2)]);
  ("umolal", [mkU (1 # 1000000) "molal" (2)]);
  ("nmolal", [mkU (1 # 1000000000) "molal" (2)]);
  ("molar", [mkU (1 # 1) "mol" (2); mkU (1 # 1) "liter" (-2)]);
  ("mmolar", [mkU (1 # 1000) "molar" (2)]);
  ("umolar", [mkU (1 # 1000000) "molar" (2)]);
  ("nmolar", [mkU (1 # 1000000000) "molar" (2)]);
  ("eq", [mkU (1 # 1) "eq" (2)]);
  ("meq", [mkU (1 # 1000) "eq" (2)]);
  ("ueq", [mkU (1 # 1000000) "eq" (2)]);
  ("neq", [mkU (1 # 1000000000) "eq" (2)]);
  ("K^2", [mkU (1 # 1) "K" (4)]);
  ("K^3", [mkU (1 # 1) "K" (6)]);
  ("K^4", [mkU (1 # 1) "K" (8)]);
  ("K^5", [mkU (1 # 1) "K" (10)]);
  ("K^0.5", [mkU (1 # 1) "K" (1)]);
  ("K^1.5", [mkU (1 # 1) "K" (3)]);
  ("bar^2", [mkU (1 # 1) "K" (4)]);
  ("bar^3", [mkU (1 # 1) "K" (6)]);
  ("bar^4", [mkU (1 # 1) "K" (8)]);
  ("bar^5", [mkU (1 # 1) "K" (10)]);
  ("bar^0.5", [mkU (1 # 1) "K" (1)])
].
(** temperatureUnitsMap (Units.cpp:405-415): factor, translation, symbol *)
Definition temperatureUnits : list (string * (Q * Q * string)) := [
  ("K", (1, 0, "K")); ("degC", (1, -27315 # 100, "K")); ("degF", (18 # 10, 32, "degC")); ("degR", (1, 45967 # 100, "degF"));
  ("kelvin", (1, 0, "K")); ("celsius", (1, 0, "degC")); ("fahrenheit", (1, 0, "degF")); ("rankine", (1, 0, "degR"))]%Q.
Fixpoint look {A : Type} (k : string) (l : list (string * A)) : option A :=
  match l with [] => None | (k', v) :: l' => if String.eqb k k' then Some v else look k l' end.
Definition is_temp (s : string) : bool := match look s temperatureUnits with Some _ => true | None => false end.

Open Scope R_scope.
(** toKelvin (417-422); [None]: not in the table, or recursion deeper than the table *)
Fixpoint toKelvin (n : nat) (v : R) (from : string) : option R :=
  match n with
  | O => None
  | S k => if String.eqb from "K" then Some v
           else match look from temperatureUnits with
                | Some (f, t, s) => toKelvin k ((v - Q2R t) / Q2R f) s
                | None => None end
  end.
(** fromKelvin (424-429) *)
Fixpoint fromKelvin (n : nat) (v : R) (to : string) : option R :=
  match n with
  | O => None
  | S k => if String.eqb to "K" then Some v
           else match look to temperatureUnits with
                | Some (f, t, s) => match fromKelvin k v s with Some r => Some (Q2R f * r + Q2R t) | None => None end
                | None => None end
  end.
(** checkTemperatureUnit, convertTemperature (431-438, 449-455) *)
Definition convertTemperature (v : R) (from to : string) : ures R :=
  if is_temp from && is_temp to then
    match toKelvin 9 v from with
    | Some k => match fromKelvin 9 k to with Some r => UOk r | None => UUB end
    | None => UUB end
  else UThrow.

(** pow with a positive base and half-integer exponent *)
Definition powh (x : R) (p2 : Z) : R := Rpower x (IZR p2 / 2).
(** factor of a symbol (457-467) *)
Fixpoint factorS (n : nat) (s : string) : ures R :=
  match n with
  | O => UUB
  | S k =>
    if is_temp s then UOk 1
    else match look s derivedUnits with
    | None => UThrow
    | Some [] => UUB
    | Some (u :: us) =>
        if String.eqb (u_symbol u) s then UOk (powh (Q2R (u_factor u)) (u_pow2 u))
        else fold_left (fun acc w => ubind acc (fun res => ubind (factorS k (u_symbol w)) (fun f =>
                          UOk (res * (Q2R (u_factor w) * powh f (u_pow2 w)))))) (u :: us) (UOk 1)
    end
  end.
(** deep enough for every entry of the table *)
Definition fuel : nat := 24.
(** factor of a parsed unit (469-479): symbols with power +1 or -1, factor 1 *)
Fixpoint factorD (d : list (string * Z)) : ures R :=
  match d with
  | [] => UOk 1
  | (s, sg) :: d' => ubind (factorS fuel s) (fun f => ubind (factorD d') (fun r => UOk (1 * powh f (2 * sg) * r)))
  end.

(** dimension of a symbol (487-495); int powers, so power * multpower is cut towards zero *)
Definition at0 (s : string) (m : smap Z) : Z := match mfind s m with Some z => z | None => 0%Z end.
Fixpoint dimS (n : nat) (s : string) (mp : Z) (res : smap Z) : ures (smap Z) :=
  match n with
  | O => UUB
  | S k =>
    if is_temp s then UOk (mset s (at0 s res + mp)%Z res)
    else match look s derivedUnits with
    | None => UThrow
    | Some [] => UUB
    | Some (u :: us) =>
        if String.eqb (u_symbol u) s then UOk (mset s (Z.quot (2 * at0 s res + u_pow2 u * mp) 2) res)
        else fold_left (fun acc w => ubind acc (fun r => dimS k (u_symbol w) (Z.quot (u_pow2 w * mp) 2) r)) (u :: us) (UOk res)
    end
  end.
(** 497-502 *)
Fixpoint dimD (d : list (string * Z)) (res : smap Z) : ures (smap Z) :=
  match d with [] => UOk res | (s, sg) :: d' => ubind (dimS fuel s sg res) (fun r => dimD d' r) end.
(** removeZero (481-485), dimension (512-518) *)
Definition dimension (d : list (string * Z)) : ures (smap Z) :=
  ubind (dimD d []) (fun m => UOk (filter (fun kv => negb (Z.eqb (snd kv) 0)) m)).

(** Node (520-528); [Null] is nullptr *)
Inductive tree : Type := Leaf (s : text) | Op (c : ascii) (l r : tree) | Null.
(** findMatchedParenthesisFromRight (530-541) on the reversed text before the parenthesis: the
    text inside and the reversed text before the opening one *)
Fixpoint match_paren (level : Z) (r acc : text) : option (text * text) :=
  match r with
  | [] => None
  | c :: r' => let l1 := if ceq c ")" then (level + 1)%Z else level in
               let l2 := if ceq c "(" then (l1 - 1)%Z else l1 in
               if ceq c "(" && Z.eqb l2 (-1) then Some (acc, r') else match_paren l2 r' (c :: acc)
  end.
(** find_last_of("*/") on the reversed text: operator, text behind it, reversed text before it *)
Fixpoint split_op (r acc : text) : option (ascii * text * text) :=
  match r with
  | [] => None
  | c :: r' => if ceq c "*" || ceq c "/" then Some (c, acc, r') else split_op r' (c :: acc)
  end.
(** parseUnit (548-590); the argument is the reversed text up to and including pos *)
Fixpoint parseR (n : nat) (r : text) : ures tree :=
  match n with
  | O => UUB
  | S k =>
    match r with
    | [] => UOk Null
    | c :: r' =>
      if ceq c ")" then
        match match_paren 0 r' [] with
        | None => UThrow
        | Some (ins, op :: lrev) => ubind (parseR k lrev) (fun l => ubind (parseR k (rev ins)) (fun t => UOk (Op op l t)))
        | Some (ins, []) => parseR k (rev ins)
        end
      else match split_op r [] with
           | None => UOk (Leaf (rev r))
           | Some (op, rt, []) => UUB
           | Some (op, rt, rest) => ubind (parseR k rest) (fun l => UOk (Op op l (Leaf rt)))
           end
    end
  end.
(** parseUnit (592-608): the list of symbols with signs *)
Fixpoint flatten (t : tree) (sg : Z) : ures (list (string * Z)) :=
  match t with
  | Null => UUB
  | Leaf s => UOk [(string_of_list_ascii s, sg)]
  | Op c l r =>
      if ceq c "*" then ubind (flatten l sg) (fun a => ubind (flatten r sg) (fun b => UOk (a ++ b)%list))
      else if ceq c "/" then ubind (flatten l sg) (fun a => ubind (flatten r (- sg)) (fun b => UOk (a ++ b)%list))
      else UOk [(String c "", sg)]
  end.
(** parseUnit (610-616) *)
Definition parseUnit (s : text) : ures (list (string * Z)) := ubind (parseR (S (length s)) (rev s)) (fun t => flatten t 1).

Definition sm_eqb (a b : smap Z) : bool :=
  (fix go a b := match a, b with
     | [], [] => true
     | (k, v) :: a', (k', v') :: b' => String.eqb k k' && Z.eqb v v' && go a' b'
     | _, _ => false end) a b.
Definition str (s : text) : string := string_of_list_ascii s.
(** convert (618-637) *)
Definition convert (v : R) (from to : text) : ures R :=
  if is_temp (str from) && is_temp (str to) then convertTemperature v (str from) (str to)
  else ubind (parseUnit from) (fun f => ubind (parseUnit to) (fun t =>
       ubind (dimension f) (fun df => ubind (dimension t) (fun dt =>
       if sm_eqb df dt then ubind (factorD f) (fun a => ubind (factorD t) (fun b => UOk (v * a / b))) else UThrow)))).
(** convertible (639-646) *)
Definition convertible (from to : text) : ures bool :=
  if is_temp (str from) && is_temp (str to) then UOk true
  else ubind (parseUnit from) (fun f => ubind (parseUnit to) (fun t =>
       ubind (dimension f) (fun df => ubind (dimension t) (fun dt => UOk (sm_eqb df dt))))).
