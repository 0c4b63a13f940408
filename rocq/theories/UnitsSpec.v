(** Unit expressions and what the names of the units stand for, independent of Units.cpp. *)
From Coq Require Import String Ascii List Bool Arith ZArith QArith Reals.
From Verif Require Import EquationModel.
Import ListNotations.
Open Scope string_scope.

(** concrete syntax: atoms, products, quotients, parentheses *)
Inductive ux : Type := UA (s : text) | UMul (l r : ux) | UDiv (l r : ux) | UPar (e : ux).
Fixpoint ux_text (e : ux) : text :=
  match e with
  | UA s => s
  | UMul l r => ux_text l ++ "*"%char :: ux_text r
  | UDiv l r => ux_text l ++ "/"%char :: ux_text r
  | UPar e => "("%char :: ux_text e ++ [")"%char]
  end%list.
Definition plain (c : ascii) : bool := negb (ceq c "*" || ceq c "/" || ceq c "(" || ceq c ")").
(** the right operand of * and / is an atom or in parentheses: a/b*c is (a/b)*c *)
Definition primary (e : ux) : Prop := match e with UA _ => True | UPar _ => True | _ => False end.
Fixpoint ux_ok (e : ux) : Prop :=
  match e with
  | UA s => s <> [] /\ (forall c, In c s -> plain c = true)
  | UMul l r => ux_ok l /\ ux_ok r /\ primary r
  | UDiv l r => ux_ok l /\ ux_ok r /\ primary r
  | UPar e => ux_ok e
  end.
Definition name (s : text) : string := string_of_list_ascii s.
Fixpoint atoms (e : ux) : list string :=
  match e with UA s => [name s] | UMul l r => atoms l ++ atoms r | UDiv l r => atoms l ++ atoms r | UPar e => atoms e end%list.
(** meaning of an expression, given that of the atoms *)
Fixpoint uvalue (f : string -> R) (e : ux) : R :=
  match e with UA s => f (name s) | UMul l r => uvalue f l * uvalue f r | UDiv l r => uvalue f l / uvalue f r | UPar e => uvalue f e end%R.
Fixpoint uexpo (d : string -> string -> Z) (e : ux) (b : string) : Z :=
  match e with UA s => d (name s) b | UMul l r => uexpo d l b + uexpo d r b | UDiv l r => uexpo d l b - uexpo d r b | UPar e => uexpo d e b end%Z.

(** physical dimension of the named units: TWICE the exponents of gram, metre, second, ampere,
    mole, candela, kelvin, radian, steradian, equivalent *)
Definition quantities : list (list (string * Z) * list string) := [
  (* mass *) ([("g", 2)], ["g"; "kg"; "mg"; "ug"; "ng"; "tonne"; "lb"; "amu"; "ton"; "gram"; "grams"; "kilogram"; "kilograms"; "lbm"]);
  (* length *) ([("m", 2)], ["m"; "km"; "cm"; "mm"; "um"; "nm"; "Angstrom"; "in"; "mil"; "ft"; "yd"; "mi"; "nauticalmile"; "lightyear"; "au"; "feet"; "foot"; "inch"; "inches"; "meter"; "meters"; "mile"; "miles"; "yard"; "yards"]);
  (* time *) ([("s", 2)], ["s"; "ms"; "us"; "ns"; "minute"; "hour"; "day"; "week"; "month"; "year"; "second"; "seconds"; "minutes"; "hours"; "days"; "weeks"; "months"; "years"]);
  (* current *) ([("A", 2)], ["A"; "MA"; "kA"; "mA"; "uA"; "nA"; "pA"; "ampere"; "amperes"]);
  (* amount *) ([("mol", 2)], ["mol"; "mmol"; "umol"; "mole"; "moles"]);
  (* luminous *) ([("cd", 2)], ["cd"; "candela"]);
  (* angle *) ([("radian", 2)], ["radian"; "mradian"; "uradian"; "deg"; "degree"; "degrees"]);
  (* solid angle *) ([("sr", 2)], ["sr"; "steradian"]);
  (* area *) ([("m", 4)], ["m2"; "m^2"; "mm2"; "mm^2"; "cm2"; "cm^2"; "in2"; "in^2"; "ft2"; "ft^2"; "hectare"; "acre"; "barn"; "hectares"; "acres"; "barns"]);
  (* volume *) ([("m", 6)], ["m3"; "m^3"; "mm3"; "mm^3"; "cm3"; "cm^3"; "in3"; "in^3"; "ft3"; "ft^3"; "l"; "ml"; "ul"; "L"; "mL"; "uL"; "gal"; "quart"; "cc"; "gallon"; "gallons"; "liter"; "liters"]);
  (* velocity *) ([("m", 2); ("s", (-2))], ["mps"; "cmps"; "mph"; "knot"; "fps"]);
  (* acceleration *) ([("m", 2); ("s", (-4))], ["mpss"; "fpss"; "gravity"]);
  (* frequency *) ([("s", (-2))], ["Hz"; "kHz"; "MHz"; "GHz"; "rpm"; "hertz"]);
  (* flow *) ([("m", 6); ("s", (-2))], ["gps"; "gpm"; "gph"; "cfs"; "cfm"; "lps"; "lpm"]);
  (* force *) ([("g", 2); ("m", 2); ("s", (-4))], ["N"; "kN"; "lbf"; "dyne"; "dynes"; "newton"; "newtons"]);
  (* pressure *) ([("g", 2); ("m", (-2)); ("s", (-4))], ["Pa"; "kPa"; "MPa"; "GPa"; "atm"; "mmHg"; "inHg"; "psi"; "kpsi"; "Mpsi"; "psf"; "bar"; "kbar"; "torr"; "inH2O"; "ftH2O"; "pascal"; "pascals"]);
  (* energy *) ([("g", 2); ("m", 4); ("s", (-4))], ["J"; "kJ"; "MJ"; "erg"; "cal"; "kcal"; "eV"; "keV"; "MeV"; "GeV"; "btu"; "calorie"; "calories"; "joule"; "joules"]);
  (* power *) ([("g", 2); ("m", 4); ("s", (-6))], ["W"; "watts"]);
  (* charge *) ([("A", 2); ("s", 2)], ["C"; "coulomb"; "coulombs"; "mC"]);
  (* voltage *) ([("A", (-2)); ("g", 2); ("m", 4); ("s", (-6))], ["V"; "volt"; "volts"; "mV"]);
  (* resistance *) ([("A", (-4)); ("g", 2); ("m", 4); ("s", (-6))], ["ohm"; "ohms"]);
  (* conductance *) ([("A", 4); ("g", (-2)); ("m", (-4)); ("s", 6)], ["S"; "siemens"]);
  (* capacitance *) ([("A", 4); ("g", (-2)); ("m", (-4)); ("s", 8)], ["F"; "pF"; "nF"; "uF"; "mF"; "farad"; "farads"]);
  (* magnetic flux *) ([("A", (-2)); ("g", 2); ("m", 4); ("s", (-4))], ["Wb"; "weber"; "webers"]);
  (* magnetic flux density *) ([("A", (-2)); ("g", 2); ("s", (-4))], ["T"; "gauss"; "tesla"; "teslas"]);
  (* inductance *) ([("A", (-4)); ("g", 2); ("m", 4); ("s", (-4))], ["H"; "mH"; "uH"; "henry"]);
  (* molality *) ([("g", (-2)); ("mol", 2)], ["molal"; "mmolal"; "umolal"; "nmolal"]);
  (* molarity *) ([("m", (-6)); ("mol", 2)], ["molar"; "mmolar"; "umolar"; "nmolar"]);
  (* equivalents *) ([("eq", 2)], ["eq"; "meq"; "ueq"; "neq"]);
  (* no dimension *) ([], ["1"; "%%"; "percent"; "%%%%"; "permil"; "ppm"; "ppb"]);
  ([("K", 4)], ["K^2"]);
  ([("K", 6)], ["K^3"]);
  ([("K", 8)], ["K^4"]);
  ([("K", 10)], ["K^5"]);
  ([("K", 1)], ["K^0.5"]);
  ([("K", 3)], ["K^1.5"]);
  ([("g", 4); ("m", (-4)); ("s", (-8))], ["bar^2"]);
  ([("g", 6); ("m", (-6)); ("s", (-12))], ["bar^3"]);
  ([("g", 8); ("m", (-8)); ("s", (-16))], ["bar^4"]);
  ([("g", 10); ("m", (-10)); ("s", (-20))], ["bar^5"]);
  ([("g", 1); ("m", (-1)); ("s", (-2))], ["bar^0.5"]);
  ([("K", 2)], ["K"; "kelvin"; "degC"; "celsius"; "degF"; "fahrenheit"; "degR"; "rankine"])
]%Z.
Fixpoint expo_in (b : string) (l : list (string * Z)) : Z :=
  match l with [] => 0 | (k, z) :: l' => if String.eqb k b then z else expo_in b l' end%Z.
Definition mem (s : string) (l : list string) : bool := existsb (String.eqb s) l.
Fixpoint quantity_of (s : string) (q : list (list (string * Z) * list string)) : option (list (string * Z)) :=
  match q with [] => None | (d, ns) :: q' => if mem s ns then Some d else quantity_of s q' end.
(** twice the exponent of base unit [b] in the unit named [s] *)
Definition physical2 (s b : string) : Z := match quantity_of s quantities with Some d => expo_in b d | None => 0%Z end.
(** names for which the table disagrees with physics, see the refuted theorems *)
Definition odd_names : list string :=
  ["K^0.5"; "K^1.5"; "bar^2"; "bar^3"; "bar^4"; "bar^5"; "bar^0.5"; "T"; "gauss"; "tesla"; "teslas";
   "1"; "%%"; "percent"; "%%%%"; "permil"; "ppm"; "ppb";
   "kelvin"; "degC"; "celsius"; "degF"; "fahrenheit"; "degR"; "rankine"].
Definition known (s : string) : Prop := exists d ns, In (d, ns) quantities /\ In s ns.

(** values in g, m, s, A, mol of units with exact definitions (SI and trade conventions) *)
Definition exact_values : list (string * Q) := [
  ("kg", 1000 # 1); ("tonne", 1000000 # 1); ("mg", 1 # 1000); ("lb", 45359237 # 100000);
  ("km", 1000 # 1); ("cm", 1 # 100); ("mm", 1 # 1000); ("um", 1 # 1000000); ("nm", 1 # 1000000000); ("Angstrom", 1 # 10000000000);
  ("in", 254 # 10000); ("ft", 3048 # 10000); ("yd", 9144 # 10000); ("mi", 1609344 # 1000);
  ("minute", 60 # 1); ("hour", 3600 # 1); ("day", 86400 # 1); ("week", 604800 # 1); ("ms", 1 # 1000);
  ("mmol", 1 # 1000); ("umol", 1 # 1000000);
  ("m2", 1 # 1); ("cm2", 1 # 10000); ("cm^2", 1 # 10000); ("mm2", 1 # 1000000); ("hectare", 10000 # 1); ("barn", 1 # 10000000000000000000000000000);
  ("m3", 1 # 1); ("cm3", 1 # 1000000); ("cm^3", 1 # 1000000); ("mm3", 1 # 1000000000); ("cc", 1 # 1000000);
  ("l", 1 # 1000); ("L", 1 # 1000); ("ml", 1 # 1000000); ("mL", 1 # 1000000);
  ("Hz", 1 # 1); ("kHz", 1000 # 1); ("rpm", 1 # 60); ("knot", 1852 # 3600); ("gravity", 980665 # 100000);
  ("N", 1000 # 1); ("kN", 1000000 # 1); ("dyne", 1 # 100);
  ("Pa", 1000 # 1); ("kPa", 1000000 # 1); ("MPa", 1000000000 # 1); ("GPa", 1000000000000 # 1);
  ("bar", 100000000 # 1); ("kbar", 100000000000 # 1); ("atm", 101325000 # 1);
  ("J", 1000 # 1); ("kJ", 1000000 # 1); ("MJ", 1000000000 # 1); ("cal", 4184 # 1); ("kcal", 4184000 # 1); ("erg", 1 # 10000);
  ("W", 1000 # 1); ("C", 1 # 1); ("V", 1000 # 1); ("mV", 1 # 1); ("ohm", 1000 # 1); ("S", 1 # 1000); ("F", 1 # 1000); ("Wb", 1000 # 1); ("H", 1000 # 1);
  ("T", 1000 # 1); ("gauss", 1 # 10);
  ("molal", 1 # 1000); ("mmolal", 1 # 1000000); ("molar", 1000 # 1); ("mmolar", 1 # 1);
  ("percent", 1 # 100); ("ppm", 1 # 1000000); ("ppb", 1 # 1000000000);
  ("K^2", 1 # 1); ("K^3", 1 # 1); ("K^4", 1 # 1); ("K^5", 1 # 1)]%Q.
