(** Birch-Murnaghan solids with the derivatives their ThermoScalars carry: Substances/Solids/SolidBMGottschalk.cpp 14-188.
    T in K, P in Pa.  A double handed to a parameter of type Temperature or Pressure is converted by the constructor of that type
    (ThermoScalar.hpp 247, 261), which sets the derivative to 1.  alpha and beta, which no property uses, and the bounds check are left out.  Definitions only.  *)
From Coq Require Import Bool List Reals.
From Verif Require Import ThermoScalarModel MineralModel CarryModel.
Open Scope R_scope.

Local Infix "+!" := ts_add (at level 50, left associativity).
Local Infix "-!" := ts_sub (at level 50, left associativity).
Local Infix "*!" := ts_mul (at level 40, left associativity).
Local Infix "/!" := ts_div (at level 40, left associativity).
Local Infix "+^" := d_add_ts (at level 50, left associativity).
Local Infix "-^" := d_sub_ts (at level 50, left associativity).
Local Infix "*^" := d_mul_ts (at level 40, left associativity).

(** BM_IntVol, 14-26 *)
Definition intA (k kp kpp : TS) : TS := 199 -^ 75 *^ kp +! 9 *^ kp *! kp +! 9 *^ kpp *! k.
Definition intB (k kp kpp x : TS) : TS :=
  -668 +^ kp *! (276 -^ 63 *^ x) +! 9 *^ kp *! kp *! (-4 +^ x) +! 9 *^ kpp *! k *! (-4 +^ x) +! 143 *^ x.
Definition intC (k kp kpp x : TS) : TS :=
  287 +^ kp *! kp *! (9 -^ 36 *^ x) +! 9 *^ kpp *! k *! (1 -^ 4 *^ x) -! 956 *^ x +! kp *! (-87 +^ 324 *^ x).
Definition pintTS (vt vpt k kp kpp : TS) : TS :=
  let x := ts_pow_d (vt /! vpt) (2 / 3) in
  (-3 *^ k *! vt *! (6 *^ intA k kp kpp *! vpt *! vt *! ts_pow_d (vt /! vpt) (1 / 3) +! vt *! vt *! intB k kp kpp x +! vpt *! vpt *! intC k kp kpp x)) /! (128 *^ vpt *! vpt).
Definition intTS (P Pref vt vpt k kp kpp : TS) : TS := ts_neg Pref *! vt +! P *! vpt -! pintTS vt vpt k kp kpp.

(** BM_Volume, 31-59 *)
Definition veqTS (P vt k kp kpp vv : TS) : TS :=
  let x1 := ts_sub_d (ts_pow_d (vt /! vv) (2 / 3)) 1 in
  (3 / 2) *^ k *! (1 +^ (3 / 4) *^ (ts_sub_d kp 4) *! x1 +! (3 / 8) *^ (143 / 9 -^ 7 *^ kp +! kp *! kp +! kpp *! k) *! x1 *! x1) *! x1 *! ts_pow_d (vt /! vv) (5 / 3) -! P.
Definition dveqTS (vt k kp kpp vv : TS) : TS :=
  let x := ts_pow_d (vt /! vv) (2 / 3) in
  (k *! vt *! (vt *! vt *! (4509 +^ kp *! kp *! (243 -^ 99 *^ x) +! 9 *^ kpp *! k *! (27 -^ 11 *^ x) +! 9 *^ kp *! (-207 +^ 77 *^ x) -! 1573 *^ x)
     -! 21 *^ intA k kp kpp *! vt *! ts_pow_d (vt /! vv) (1 / 3) *! vv +! 5 *^ (239 -^ 81 *^ kp +! 9 *^ kp *! kp +! 9 *^ kpp *! k) *! x *! vv *! vv)) /! (48 *^ vv *! vv *! vv *! vv).
Definition stepTS (P vt k kp kpp v : TS) : TS := v -! ts_div_d (veqTS P vt k kp kpp v /! dveqTS vt k kp kpp v) 2.
Fixpoint newtonTS (n : nat) (P vt k kp kpp : TS) (d : R) (v : TS) : TS :=
  if gtb (Rabs d) (/ 10 ^ 10)
  then match n with O => v | S n' => let v' := stepTS P vt k kp kpp v in newtonTS n' P vt k kp kpp (val v' - val v) v' end
  else v.
Definition volumeTS (P vt k kp kpp vstart : TS) : TS := newtonTS 50 P vt k kp kpp 1 vstart.

(** BirchMurnaghan, 65-146 *)
Section BM.
(** [Pref] in MPa, [v0] the reference volume in cm3 *)
Variables (b : bmpar) (Pref Tref : R) (v0 : TS).
(** the argument Tref is of type Temperature, 65 *)
Definition TrefTS : TS := Temperature Tref.
Definition kTS (T : TS) : TS := ts_assign (g_k b) +! ts_assign (g_d b) *! (T -! TrefTS).
Definition kpTS : TS := ts_assign (g_kp b).
Definition autoTS (T : TS) : TS := ts_neg ((35 / 9 +^ (3 -^ kpTS) *! (4 -^ kpTS)) /! kTS T).
Definition kppTS (T : TS) : TS := if bm_given b then ts_assign (g_kpp b) else autoTS T.
Definition kpp_incTS (T : TS) : TS := if bm_given b then ts_assign 0 else autoTS T.
Definition vtTS (T : TS) : TS :=
  v0 *! ts_exp (ts_assign (g_1 b) *! (T -! TrefTS) +! ts_div_d (ts_assign (g_2 b)) 2 *! (T *! T -! TrefTS *! TrefTS) +! ts_assign (g_3 b) *! (d_div_ts (-1) T +! d_div_ts 1 TrefTS)).
Variables (T P : TS).
Definition startTS : TS := vtTS T *! ts_exp (d_div_ts (-1) (kTS T) *! ts_sub_d P Pref).
Definition vvTS : TS := volumeTS P (vtTS T) (kTS T) kpTS (kppTS T) startTS.
Definition vincTS (T' : TS) : TS := volumeTS P (vtTS T') (kTS T') kpTS (kpp_incTS T') vvTS.
(** the argument Pref of BM_IntVol is of type Pressure, 14 *)
Definition gTS : TS := intTS P (Pressure Pref) (vtTS T) vvTS (kTS T) kpTS (kppTS T).
Definition gincTS (T' : TS) : TS := intTS P (Pressure Pref) (vtTS T') (vincTS T') (kTS T') kpTS (kpp_incTS T').
Definition TincTS : TS := ts_assign (1 / 10).
Definition sTS : TS := ts_div (gincTS (T +! TincTS) -! gincTS (T -! TincTS)) (2 *^ TincTS).
Definition hTS : TS := gTS +! T *! sTS.
End BM.

(** thermoPropertiesMinBMGottschalk, 150-188, once the coefficients are read: [Pst] in bar *)
Definition MPa (P : R) : TS := ip_mul_d (Pbar P) (1 / 10).
Definition gottschalkTS (b : bmpar) (vst : TS) (Tst Pst T P : R) (t : tprop) : tprop :=
  let Pr := 1 / 10 * Pst in let T_ := Temperature T in let v0 := ts_mul_d vst 10 in
  if neqb (val (MPa P) - Pr) 0 || neqb (T - Tst) 0
  then withUA (ip_add (tG t) (gTS b Pr Tst v0 T_ (MPa P))) (ip_add (tH t) (hTS b Pr Tst v0 T_ (MPa P))) (ip_add (tS t) (sTS b Pr Tst v0 T_ (MPa P)))
         (ip_add (tV t) (ts_add vst (ts_div_d (vvTS b Pr Tst v0 T_ (MPa P)) 10))) (tC t) T P
  else t.
