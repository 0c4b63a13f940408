(** Model of ThermoFun/Common/ThermoScalar.hpp.

    [double] is modelled by [R].  Simplifications: rounding, NaN and infinities are not
    represented; a division by zero is Coq's (unspecified) [/ 0], so every theorem that
    needs the quotient carries the non-zero condition.  The output and comparison
    operators (lines 462-593) only look at [val] and are written inline where used. *)
From Coq Require Import Reals String.
Open Scope R_scope.

(** ThermoScalar.hpp:28-35  enum Status *)
Inductive Status : Set :=
  notdefined | read | calculated | assigned | initialized | outofbounds.

Definition status_eqb (a b : Status) : bool :=
  match a, b with
  | notdefined, notdefined | read, read | calculated, calculated
  | assigned, assigned | initialized, initialized | outofbounds, outofbounds => true
  | _, _ => false
  end.

(** ThermoScalar.hpp:42-59  the data members; [sta] is the pair (status, message) *)
Record TS : Type := mkTS
  { val : R; ddt : R; ddp : R; err : R; sta : Status * string }.

(** ThermoScalar.hpp:75-76  five-argument constructor: the error goes through fabs *)
Definition ctor5 (v dt dp e : R) (s : Status * string) : TS :=
  mkTS v dt dp (Rabs e) s.

(** ThermoScalar.hpp:62-68  default constructor and explicit ThermoScalarBase(double) *)
Definition ts_of_double (v : R) : TS := ctor5 v 0 0 0 (notdefined, EmptyString).
Definition ts_default : TS := ts_of_double 0.

(** ThermoScalar.hpp:96-104  operator=(double) *)
Definition ts_assign (v : R) : TS := mkTS v 0 0 0 (assigned, EmptyString).

(** ThermoScalar.hpp:240-251  class Temperature *)
Definition Temperature (v : R) : TS := ctor5 v 1 0 0 (assigned, EmptyString).
(** ThermoScalar.hpp:254-265  class Pressure *)
Definition Pressure (v : R) : TS := ctor5 v 0 1 0 (assigned, EmptyString).

(** ThermoScalar.hpp:268-275  status(l,r) *)
Definition status2 (l r : TS) : Status * string :=
  if (status_eqb (fst (sta l)) notdefined || status_eqb (fst (sta r)) notdefined)%bool
  then (notdefined, EmptyString) else (calculated, EmptyString).
(** ThermoScalar.hpp:276-283  status(l) *)
Definition status1 (l : TS) : Status * string :=
  if status_eqb (fst (sta l)) notdefined
  then (notdefined, EmptyString) else (calculated, EmptyString).

(** comparison of doubles with 0 *)
Definition is0 (x : R) : bool := if Req_EM_T x 0 then true else false.

(** ThermoScalar.hpp:293-297  TS + TS *)
Definition ts_add (l r : TS) : TS :=
  ctor5 (val l + val r) (ddt l + ddt r) (ddp l + ddp r)
        (sqrt (err l * err l + err r * err r)) (status2 l r).
(** ThermoScalar.hpp:299-303  double + TS *)
Definition d_add_ts (l : R) (r : TS) : TS :=
  ctor5 (l + val r) (ddt r) (ddp r) (err r) (status1 r).
(** ThermoScalar.hpp:305-309  TS + double *)
Definition ts_add_d (l : TS) (r : R) : TS := d_add_ts r l.
(** ThermoScalar.hpp:312-316  unary minus *)
Definition ts_neg (l : TS) : TS :=
  ctor5 (- val l) (- ddt l) (- ddp l) (sqrt (err l * err l)) (status1 l).
(** ThermoScalar.hpp:319-323  TS - TS *)
Definition ts_sub (l r : TS) : TS :=
  ctor5 (val l - val r) (ddt l - ddt r) (ddp l - ddp r)
        (sqrt (err l * err l + err r * err r)) (status2 l r).
(** ThermoScalar.hpp:326-330  TS - double *)
Definition ts_sub_d (l : TS) (r : R) : TS :=
  ctor5 (val l - r) (ddt l) (ddp l) (err l) (status1 l).
(** ThermoScalar.hpp:333-337  double - TS *)
Definition d_sub_ts (l : R) (r : TS) : TS :=
  ctor5 (l - val r) (- ddt r) (- ddp r) (err r) (status1 r).

(** the guarded squared relative error, ThermoScalar.hpp:343-347 and 374-378 *)
Definition relerr2 (x : TS) : R :=
  if is0 (val x) then 0 else err x / val x * err x / val x.

(** ThermoScalar.hpp:340-349  TS * TS *)
Definition ts_mul (l r : TS) : TS :=
  ctor5 (val l * val r) (val l * ddt r + ddt l * val r) (val l * ddp r + ddp l * val r)
        ((val l * val r) * sqrt (relerr2 l + relerr2 r)) (status2 l r).
(** ThermoScalar.hpp:352-359  double * TS *)
Definition d_mul_ts (l : R) (r : TS) : TS :=
  if is0 (val r)
  then ctor5 (l * val r) (l * ddt r) (l * ddp r) 0 (status1 r)
  else ctor5 (l * val r) (l * ddt r) (l * ddp r)
             ((l * val r) * sqrt (err r / val r * err r / val r)) (status1 r).
(** ThermoScalar.hpp:362-366  TS * double *)
Definition ts_mul_d (l : TS) (r : R) : TS := d_mul_ts r l.
(** ThermoScalar.hpp:369-380  TS / TS *)
Definition ts_div (l r : TS) : TS :=
  let tmp1 := 1 / val r in
  let tmp2 := tmp1 * tmp1 in
  ctor5 (tmp1 * val l) (tmp2 * (ddt l * val r - val l * ddt r))
        (tmp2 * (ddp l * val r - val l * ddp r))
        ((tmp1 * val l) * sqrt (relerr2 l + relerr2 r)) (status2 l r).
(** ThermoScalar.hpp:383-391  double / TS *)
Definition d_div_ts (l : R) (r : TS) : TS :=
  let tmp1 := 1 / val r in
  let tmp2 := - l * tmp1 * tmp1 in
  if is0 (val r)
  then ctor5 (tmp1 * l) (tmp2 * ddt r) (tmp2 * ddp r) 0 (status1 r)
  else ctor5 (tmp1 * l) (tmp2 * ddt r) (tmp2 * ddp r)
             ((tmp1 * val r) * sqrt (err r / val r * err r / val r)) (status1 r).
(** ThermoScalar.hpp:394-398  TS / double *)
Definition ts_div_d (l : TS) (r : R) : TS := d_mul_ts (1 / r) l.

(** ThermoScalar.hpp:401-409  sqrt *)
Definition ts_sqrt (l : TS) : TS :=
  let tmp1 := sqrt (val l) in
  let tmp2 := 1/2 * tmp1 / val l in
  if is0 (val l) then ctor5 tmp1 0 0 0 (status1 l)
  else ctor5 tmp1 (tmp2 * ddt l) (tmp2 * ddp l) (1/2 * (err l / val l)) (status1 l).

(** std::pow on reals (ISO C, 7.12.7.4): positive base any exponent; negative base only
    integer exponents; base 0.  Results that are NaN or infinite in C are given the
    arbitrary value 0 here and excluded by the domain conditions of the theorems. *)
Definition is_int (y : R) : bool := if Req_EM_T y (IZR (Int_part y)) then true else false.
Definition cpow (x y : R) : R :=
  if Rlt_dec 0 x then Rpower x y
  else if is_int y
       then match Int_part y with
            | Z0 => 1
            | Zpos n => x ^ Pos.to_nat n
            | Zneg n => / (x ^ Pos.to_nat n)
            end
       else 0.

(** ThermoScalar.hpp:412-420  pow(TS,double) *)
Definition ts_pow_d (l : TS) (power : R) : TS :=
  let tmp1 := cpow (val l) power in
  let tmp2 := power * tmp1 / val l in
  if is0 (val l) then ctor5 tmp1 0 0 0 (status1 l)
  else ctor5 tmp1 (tmp2 * ddt l) (tmp2 * ddp l) (Rabs power * (err l / val l)) (status1 l).
(** ThermoScalar.hpp:423-432  pow(TS,TS) *)
Definition ts_pow (l power : TS) : TS :=
  let logl := ln (val l) in
  let powl := cpow (val l) (val power) in
  let tmp := val power / val l in
  if is0 (val l)
  then ctor5 powl (powl * (logl * ddt power + 0)) (powl * (logl * ddp power + 0)) 0
             (status2 l power)
  else ctor5 powl (powl * (logl * ddt power + tmp * ddt l))
             (powl * (logl * ddp power + tmp * ddp l)) (powl * (err l / val l))
             (status2 l power).
(** ThermoScalar.hpp:435-440  exp *)
Definition ts_exp (l : TS) : TS :=
  let tmp := exp (val l) in
  ctor5 tmp (tmp * ddt l) (tmp * ddp l) (err l * tmp) (status1 l).
(** ThermoScalar.hpp:443-451  log *)
Definition ts_log (l : TS) : TS :=
  let tmp1 := ln (val l) in
  let tmp2 := 1 / val l in
  if is0 (val l) then ctor5 tmp1 0 0 0 (status1 l)
  else ctor5 tmp1 (tmp2 * ddt l) (tmp2 * ddp l) (434/1000 * (err l / val l)) (status1 l).
(** ThermoScalar.hpp:457  the literal used by log10 *)
Definition ln10_literal : R := 2302585092994046 / 1000000000000000.
(** ThermoScalar.hpp:454-459  log10 *)
Definition ts_log10 (l : TS) : TS := ts_div_d (ts_log l) ln10_literal.

(** in-place status update shared by the TS compound assignments, e.g. 115-118 *)
Definition status_ip (l r : TS) : Status * string := status2 l r.

(** ThermoScalar.hpp:107-121  += TS *)
Definition ip_add (x o : TS) : TS :=
  mkTS (val x + val o) (ddt x + ddt o) (ddp x + ddp o)
       (sqrt (err x * err x + err o * err o)) (status_ip x o).
(** ThermoScalar.hpp:124-138  -= TS *)
Definition ip_sub (x o : TS) : TS :=
  mkTS (val x - val o) (ddt x - ddt o) (ddp x - ddp o)
       (sqrt (err x * err x + err o * err o)) (status_ip x o).
(** ThermoScalar.hpp:141-159  *= TS ; the new [val] is used in the error, no fabs *)
Definition ip_mul (x o : TS) : TS :=
  let tmp_err := err x / val x in
  let v := val x * val o in
  mkTS v (ddt x * val o + val x * ddt o) (ddp x * val o + val x * ddp o)
       (if is0 (val o) then 0
        else v * sqrt (tmp_err * tmp_err + err o / val o * err o / val o))
       (status_ip x o).
(** ThermoScalar.hpp:162-182  /= TS *)
Definition ip_div (x o : TS) : TS :=
  let tmp1 := 1 / val o in
  let tmp2 := tmp1 * tmp1 in
  let tmp_err := err x / val x in
  let v := val x * tmp1 in
  mkTS v ((ddt x * val o - val x * ddt o) * tmp2) ((ddp x * val o - val x * ddp o) * tmp2)
       (if is0 (val o) then 0
        else v * sqrt (tmp_err * tmp_err + err o / val o * err o / val o))
       (status_ip x o).
(** ThermoScalar.hpp:185-189  += double : derivatives, error and status untouched *)
Definition ip_add_d (x : TS) (o : R) : TS := mkTS (val x + o) (ddt x) (ddp x) (err x) (sta x).
(** ThermoScalar.hpp:192-196  -= double *)
Definition ip_sub_d (x : TS) (o : R) : TS := mkTS (val x - o) (ddt x) (ddp x) (err x) (sta x).
(** ThermoScalar.hpp:199-210  *= double *)
Definition ip_mul_d (x : TS) (o : R) : TS :=
  let tmp_err := err x / val x * err x / val x in
  let v := val x * o in
  mkTS v (ddt x * o) (ddp x * o) (if is0 v then 0 else v * sqrt tmp_err) (sta x).
(** ThermoScalar.hpp:213-222  /= double *)
Definition ip_div_d (x : TS) (o : R) : TS :=
  let tmp_err := err x / val x * err x / val x in
  let y := ip_mul_d x (1 / o) in
  mkTS (val y) (ddt y) (ddp y) (if is0 (val y) then 0 else val y * sqrt tmp_err) (sta y).

(** Formulas built with the overloaded operators, as they are written in the model
    sources (ThermoModelsSubstance.cpp etc.).  [XExt] is any other ThermoScalar at hand:
    its value and the derivatives it carries are arbitrary functions of T and P. *)
Inductive texpr : Type :=
| XT | XP                              (* Temperature(T), Pressure(P) *)
| XAssign (c : R)                      (* ThermoScalar x = c *)
| XExt (f ft fp fe : R -> R -> R) (s : Status * string)
| XNeg (a : texpr) | XAdd (a b : texpr) | XSub (a b : texpr)
| XMul (a b : texpr) | XDiv (a b : texpr)
| XDAdd (c : R) (a : texpr) | XAddD (a : texpr) (c : R)
| XDSub (c : R) (a : texpr) | XSubD (a : texpr) (c : R)
| XDMul (c : R) (a : texpr) | XMulD (a : texpr) (c : R)
| XDDiv (c : R) (a : texpr) | XDivD (a : texpr) (c : R)
| XSqrt (a : texpr) | XPowD (a : texpr) (c : R) | XPow (a b : texpr)
| XExp (a : texpr) | XLog (a : texpr) | XLog10 (a : texpr).

(** Evaluation with the C++ operators. *)
Fixpoint teval (e : texpr) (t p : R) : TS :=
  match e with
  | XT => Temperature t
  | XP => Pressure p
  | XAssign c => ts_assign c
  | XExt f ft fp fe s => mkTS (f t p) (ft t p) (fp t p) (fe t p) s
  | XNeg a => ts_neg (teval a t p)
  | XAdd a b => ts_add (teval a t p) (teval b t p)
  | XSub a b => ts_sub (teval a t p) (teval b t p)
  | XMul a b => ts_mul (teval a t p) (teval b t p)
  | XDiv a b => ts_div (teval a t p) (teval b t p)
  | XDAdd c a => d_add_ts c (teval a t p)
  | XAddD a c => ts_add_d (teval a t p) c
  | XDSub c a => d_sub_ts c (teval a t p)
  | XSubD a c => ts_sub_d (teval a t p) c
  | XDMul c a => d_mul_ts c (teval a t p)
  | XMulD a c => ts_mul_d (teval a t p) c
  | XDDiv c a => d_div_ts c (teval a t p)
  | XDivD a c => ts_div_d (teval a t p) c
  | XSqrt a => ts_sqrt (teval a t p)
  | XPowD a c => ts_pow_d (teval a t p) c
  | XPow a b => ts_pow (teval a t p) (teval b t p)
  | XExp a => ts_exp (teval a t p)
  | XLog a => ts_log (teval a t p)
  | XLog10 a => ts_log10 (teval a t p)
  end.
