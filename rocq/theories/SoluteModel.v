(** Models of the aqueous solutes, over the values of the ThermoScalars:
      Substances/Solute/SoluteHKFreaktoro.cpp, SoluteHKFgems.cpp, SoluteADgems.cpp,
      SoluteHollandPowell98.cpp, SoluteAnderson91.cpp.
    Temperatures in K, pressures in bar (the wrappers of ThermoModelsSubstance.cpp:119-304 divide by
    bar_to_Pa), volumes in J/bar.  [Rpower] stands for pow with a positive base, [x^n] for pow with a
    whole exponent.  The water functions are arguments.  Status messages, logging, the size tests and
    the bounds check are left out.  Definitions only. *)
From Coq Require Import List Bool Reals.
From Verif Require Import MineralModel.
Open Scope R_scope.

(** GlobalVariables.h: cal_to_J, C_to_K *)
Definition cal : R := 4184 / 1000.
Definition C_K : R := 27315 / 100.

(** *** Shock's g function *)
(** PropertiesSolvent as far as it is read: density (kg/m3) and its derivatives (1/K, 1/Pa) *)
Record wet : Type := mkWet { d_ : R; d_T : R; d_P : R; d_TT : R; d_TP : R; d_PP : R }.
(** FunctionG *)
Record gfun : Type := mkG { g_ : R; g_T : R; g_P : R; g_TT : R; g_TP : R; g_PP : R }.
(** SoluteHKFreaktoro.cpp:230-245, the polynomials and their derivatives *)
Definition ag (c : R) : R := -2037662 / 1000000 + 5747 / 1000000 * c + - (6557892 / 1000000000000) * c * c.
Definition bg (c : R) : R := 6107361 / 1000000 + - (1074377 / 100000000) * c + 1268348 / 100000000000 * c * c.
Definition agT (c : R) : R := 5747 / 1000000 + 2 * - (6557892 / 1000000000000) * c.
Definition bgT (c : R) : R := - (1074377 / 100000000) + 2 * (1268348 / 100000000000) * c.
Definition agTT : R := 2 * - (6557892 / 1000000000000).
Definition bgTT : R := 2 * (1268348 / 100000000000).
(** 247-260, region I *)
Definition g_one (c : R) (w : wet) : gfun :=
  let r := d_ w / 1000 in
  let al := - d_T w / d_ w in let be := d_P w / d_ w in
  let alT := - d_TT w / d_ w + al * al in let alP := - d_TP w / d_ w - al * be in let beP := d_PP w / d_ w - be * be in
  let g := ag c * Rpower (1 - r) (bg c) in
  let gT := g * (agT c / ag c + bgT c * ln (1 - r) + r * al * bg c / (1 - r)) in
  let gP := - g * r * be * bg c / (1 - r) in
  mkG g gT gP
    (g * (agTT / ag c - (agT c / ag c) ^ 2 + bgTT * ln (1 - r) + r * al * bg c / (1 - r) * (2 * bgT c / bg c + alT / al - al - r * al / (1 - r))) + gT * gT / g)
    (gP * (bgT c / bg c - al - alP / be - r * al / (1 - r)) + gP * gT / g)
    (gP * (gP / g + be + beP / be + r * be / (1 - r))).
(** 263, the same text as SoluteHKFgems.cpp:229: inside region II *)
Definition rlt (x y : R) : bool := if Rlt_dec x y then true else false.
Definition rle (x y : R) : bool := if Rle_dec x y then true else false.
Definition region2 (c P : R) : bool :=
  (rlt 155 c && rlt c 355 && rlt P 1000) || (rle 355 c && rle 500 P && rlt P 1000) || (rle 355 c && rlt P 500).
(** 266-291 *)
Definition af1 : R := 3666660 / 100000.
Definition af2 : R := - (1504956 / 10000000000000000).
Definition af3 : R := 5017990 / 100000000000000000000.
Definition g_two (c P : R) (x : gfun) : gfun :=
  let a := (c - 155) / 300 in let a1 := Rpower a (48 / 10) in let a2 := a ^ 16 in
  let p := 1000 - P in let p1 := p ^ 3 in let p2 := p ^ 4 in
  let ft := a1 + af1 * a2 in let ftT := (48 / 10 * a1 + 16 * af1 * a2) / (300 * a) in let ftTT := (1824 / 100 * a1 + 240 * af1 * a2) / (300 * a) ^ 2 in
  let fp := af2 * p1 + af3 * p2 in let fpP := - (3 * af2 * p1 + 4 * af3 * p2) / (p * 100000) in let fpPP := (6 * af2 * p1 + 12 * af3 * p2) / (p * 100000) ^ 2 in
  mkG (g_ x - ft * fp) (g_T x - fp * ftT) (g_P x - ft * fpP) (g_TT x - fp * ftTT) (g_TP x - ftT * fpP) (g_PP x - ft * fpPP).
Definition g_zero : gfun := mkG 0 0 0 0 0 0.
(** functionG, 193-295; None stands for a division by zero (log(0) included) *)
Definition is_zero (x : R) : bool := if Req_EM_T x 0 then true else false.
Definition functionG (T P : R) (w : wet) : option gfun :=
  let c := T - C_K in
  if rlt 1000 (d_ w) then Some g_zero
  else if is_zero (1 - d_ w / 1000) || is_zero (d_T w) || is_zero (d_P w) then None
  else Some (if region2 c P then g_two c P (g_one c w) else g_one c w).

(** gShok2, SoluteHKFgems.cpp:151-251; alpha (1/K), beta (1/Pa) and d alpha/dT from the solvent; the
    argument is in Celsius; g_TP and g_PP are not set there.  None: the density is exactly 1 g/cm3 *)
Definition cC0 : R := 3666666 / 100000.
Definition cC1 : R := - (1504956 / 10000000000000000).
Definition cC2 : R := 5017997 / 100000000000000000000.
Definition s_one (c D al be daT : R) : gfun :=
  let pw := Rabs (1 - D) in let a := ag c in let b := bg c in
  let dgdD := - a * b * Rpower pw (b - 1) in
  let DT := - D * al in let DP := D * be in let DTT := - D * (daT - al ^ 2) in
  let Db := Rpower pw b in
  let DbT := - b * Rpower pw (b - 1) * DT + ln pw * Db * bgT c in
  let DbTT := - (b * Rpower pw (b - 1) * DTT + Rpower pw (b - 1) * DT * bgT c
                 + b * DT * (- (b - 1) * Rpower pw (b - 2) * DT + ln pw * Rpower pw (b - 1) * bgT c))
              + ln pw * Rpower pw b * bgTT - Rpower pw b * bgT c * DT / (1 - D) + ln pw * bgT c * DbT in
  mkG (a * Rpower pw b) (a * DbT + Db * agT c) (dgdD * DP) (a * DbTT + 2 * DbT * agT c + Db * agTT) 0 0.
Definition s_two (c P : R) (x : gfun) : gfun :=
  let t := (c - 155) / 300 in
  let ft := Rpower t (48 / 10) + cC0 * t ^ 16 in
  let ftT := 48 / 10 / 300 * Rpower t (38 / 10) + 16 / 300 * cC0 * t ^ 15 in
  let ftTT := 38 / 10 * (48 / 10) / (300 * 300) * Rpower t (28 / 10) + 15 * 16 / (300 * 300) * cC0 * t ^ 14 in
  let fp := cC1 * (1000 - P) ^ 3 + cC2 * (1000 - P) ^ 4 in
  let fpP := -3 * cC1 * (1000 - P) ^ 2 - 4 * cC2 * (1000 - P) ^ 3 in
  mkG (g_ x - ft * fp) (g_T x - fp * ftT) (g_P x - ft * fpP / 100000) (g_TT x - fp * ftTT) (g_TP x) (g_PP x).
Definition gShok2 (c P D al be daT : R) : option gfun :=
  if is_zero (1 - D) then None else Some (if region2 c P then s_two c P (s_one c D al be daT) else s_one c D al be daT).

(** *** effective Born coefficient *)
Record elec : Type := mkEl { o_w : R; o_T : R; o_P : R; o_TT : R }.
Definition eta : R := 166027.
(** 3.082 *)
Definition rH : R := 3082 / 1000.
(** SoluteHKFreaktoro.cpp:150-190; wTP and wPP are read by nobody *)
Definition re_ref (z wr : R) : R := z * z / (wr / eta + z / rH).
Definition omega_reak (z : R) (hplus : bool) (wr : R) (g : gfun) : elec :=
  if is_zero z || hplus then mkEl wr 0 0 0
  else
    let re := re_ref z wr + Rabs z * g_ g in
    let x1 := - eta * (Rabs (z * z * z) / (re * re) - z / (rH + g_ g) ^ 2) in
    let x2 := 2 * eta * (z * z * z * z / (re * re * re) - z / (rH + g_ g) ^ 3) in
    mkEl (eta * (z * z / re - z / (rH + g_ g))) (x1 * g_T g) (x1 * g_P g) (x1 * g_TT g + x2 * g_T g * g_T g).
(** omeg92, SoluteHKFgems.cpp:253-283, gref = 0 *)
Definition omega_gems (z wr : R) (g : gfun) : elec :=
  if is_zero z then mkEl wr 0 0 0
  else
    let re := z ^ 2 / (wr / eta + z / (rH + 0)) + Rabs z * g_ g in
    let z3 := Rabs (z ^ 3) / re ^ 2 - z / (rH + g_ g) ^ 2 in
    let z4 := Rabs (z ^ 4) / re ^ 3 - z / (rH + g_ g) ^ 3 in
    mkEl (eta * (z ^ 2 / re - z / (rH + g_ g))) (- eta * z3 * g_T g) (- eta * z3 * g_P g) (2 * eta * z4 * g_T g ^ 2 - eta * z3 * g_TT g).

(** *** HKF *)
Record hkf : Type := mkHKF { h1 : R; h2 : R; h3 : R; h4 : R; k1 : R; k2 : R; wr : R; hG : R; hH : R; hS : R }.
(** the Born functions of the solvent: Z = -1/eps, Y = dZ/dT, Q = dZ/dP (1/Pa), X = dY/dT *)
Record born : Type := mkBorn { bZ : R; bY : R; bQ : R; bX : R }.
Definition theta : R := 228.
Definition psi : R := 2600.
Definition Tr : R := 29815 / 100.
Definition Pr : R := 1.
(** SoluteHKFreaktoro.cpp:19-22 *)
Definition Zr1 : R := - (1278055636 / 100000000000).
Definition Yr1 : R := - (5795424563 / 100000000000000).
(** SoluteHKFgems.cpp:11-12 *)
Definition Zr2 : R := - (1278034682 / 100000000000).
Definition Yr2 : R := - (5798650444 / 100000000000000).
Definition logP (P : R) : R := ln ((psi + P) / (psi + Pr)).
(** the leading constant 0.4184004e2 of the volume *)
Definition vconst : R := 4184004 / 100000.
(** SoluteHKFreaktoro.cpp:69-138; the properties are multiplied by cal_to_J at the end, the volume by 0.1 *)
Definition hkf_reak (h : hkf) (T P : R) (e : elec) (b : born) : mprop :=
  let Gf := hG h / cal in let Hf := hH h / cal in let Sr := hS h / cal in
  let wP := o_P e * 100000 in let Q := bQ b * 100000 in let w := o_w e in let Z := bZ b in let Y := bY b in
  let V := vconst * (h1 h + h2 h / (psi + P) + (h3 h + h4 h / (psi + P)) / (T - theta) - w * Q - (Z + 1) * wP) in
  let G := Gf - Sr * (T - Tr) - k1 h * (T * ln (T / Tr) - T + Tr) + h1 h * (P - Pr) + h2 h * logP P
           - k2 h * ((1 / (T - theta) - 1 / (Tr - theta)) * (theta - T) / theta - T / (theta * theta) * ln (Tr / T * (T - theta) / (Tr - theta)))
           + 1 / (T - theta) * (h3 h * (P - Pr) + h4 h * logP P) - w * (Z + 1) + wr h * (Zr1 + 1) + wr h * Yr1 * (T - Tr) in
  let H := Hf + k1 h * (T - Tr) - k2 h * (1 / (T - theta) - 1 / (Tr - theta)) + h1 h * (P - Pr) + h2 h * logP P
           + (2 * T - theta) / (T - theta) ^ 2 * (h3 h * (P - Pr) + h4 h * logP P)
           - w * (Z + 1) + w * T * Y + T * (Z + 1) * o_T e + wr h * (Zr1 + 1) - wr h * Tr * Yr1 in
  let S := Sr + k1 h * ln (T / Tr) - k2 h / theta * (1 / (T - theta) - 1 / (Tr - theta) + ln (Tr / T * (T - theta) / (Tr - theta)) / theta)
           + 1 / (T - theta) ^ 2 * (h3 h * (P - Pr) + h4 h * logP P) + w * Y + (Z + 1) * o_T e - wr h * Yr1 in
  let C := k1 h + k2 h / (T - theta) ^ 2 - 2 * T / (T - theta) ^ 3 * (h3 h * (P - Pr) + h4 h * logP P)
           + w * T * bX b + 2 * T * Y * o_T e + T * (Z + 1) * o_TT e in
  let U := H - P * V in let A := U - T * S in
  mkMP (G * cal) (H * cal) (S * cal) (V * (1 / 10)) (C * cal) (U * cal) (A * cal).
(** SoluteHKFgems.cpp:54-134 *)
Definition hkf_gems (h : hkf) (T P : R) (e : elec) (b : born) : mprop :=
  let Gf := hG h / cal in let Hf := hH h / cal in let Sr := hS h / cal in
  let W := o_w e in let wT := o_T e in let wP := o_P e * 100000 in let Z := bZ b in let Y := bY b in let Q := bQ b * 100000 in
  let VQ := vconst * (- W * Q + (- Z - 1) * wP) in
  let V := vconst * (h1 h + h2 h / (psi + P) + h3 h / (T - theta) + h4 h / (psi + P) / (T - theta)) + VQ in
  let SY := W * Y - (- Z - 1) * wT - wr h * Yr2 in
  let S := Sr + k1 h * ln (T / Tr) - k2 h / theta * (1 / (T - theta) - 1 / (Tr - theta) + 1 / theta * ln (Tr * (T - theta) / T / (Tr - theta)))
           + (h3 h * (P - Pr) + h4 h * logP P) * (1 / (T - theta)) ^ 2 + SY in
  let CX := W * T * bX b + 2 * T * Y * wT + T * (Z + 1) * o_TT e in
  let C := k1 h + k2 h / (T - theta) ^ 2 - 2 * T / (T - theta) ^ 3 * (h3 h * (P - Pr) + h4 h * logP P) + CX in
  let HY := W * (- Z - 1) + W * T * Y - T * (- Z - 1) * wT - wr h * (- Zr2 - 1) - wr h * Tr * Yr2 in
  let H := Hf + k1 h * (T - Tr) - k2 h * (1 / (T - theta) - 1 / (Tr - theta)) + h1 h * (P - Pr) + h2 h * logP P
           + (h3 h * (P - Pr) + h4 h * logP P) * ((2 * T - theta) / (T - theta) ^ 2) + HY in
  let GZ := W * (- Z - 1) - wr h * (- Zr2 - 1) + wr h * Yr2 * (T - Tr) in
  let G := Gf - Sr * (T - Tr) - k1 h * (T * ln (T / Tr) - T + Tr) + h1 h * (P - Pr) + h2 h * logP P
           - k2 h * ((1 / (T - theta) - 1 / (Tr - theta)) * ((theta - T) / theta) - T / theta ^ 2 * ln (Tr * (T - theta) / (T * (Tr - theta))))
           + 1 / (T - theta) * (h3 h * (P - Pr) + h4 h * logP P) + GZ in
  let U := H - P * V in let A := U - T * S in
  mkMP (G * cal) (H * cal) (S * cal) (V * (1 / 10)) (C * cal) (U * cal) (A * cal).

(** *** Akinfiev and Diamond *)
(** SoluteADgems.cpp:107-158; xi, a, b; water minus ideal gas and density (g/cm3, 1/K, 1/bar) *)
Record adpar : Type := mkAD { a_xi : R; a_a : R; a_b : R }.
Record adwater : Type := mkAW { aw_G : R; aw_S : R; aw_C : R; ai_G : R; ai_S : R; ai_C : R; aw_rho : R; aw_al : R; aw_be : R; aw_daT : R }.
Definition RR : R := 831451 / 10000.
Definition Rj : R := 831451 / 100000.
Definition MW : R := 1801528 / 100000.
Definition p15 : R := Rpower 10 (15 / 10).
Record adinc : Type := mkInc { i_G : R; i_V : R; i_S : R; i_C : R; i_H : R }.
Definition ad_increments (p : adpar) (T : R) (w : adwater) : adinc :=
  let xi := a_xi p in let a := a_a p in let b := a_b p in let rho := aw_rho w in
  let fug := exp ((aw_G w - ai_G w) / (T * Rj)) in
  let vol := MW / rho in let rT := - aw_al w * rho in let rP := aw_be w * rho in let rTT := rho * (aw_al w ^ 2 - aw_daT w) in
  let Nw := 1000 / MW in
  let G := - Rj * T * ln Nw + (1 - xi) * Rj * T * ln fug + Rj * T * xi * ln (RR * T / MW * rho) + Rj * T * rho * (a + b * Rpower (1000 / T) (1 / 2)) in
  let derP := a * T * rP + b * p15 * Rpower T (1 / 2) * rP in
  let derT := a * (rho + T * rT) + b * (1 / 2 * p15 * Rpower T (- (1 / 2)) * rho + p15 * Rpower T (1 / 2) * rT) in
  let der2T := a * (2 * rT + T * rTT) + b * (- (1 / 4) * p15 * Rpower T (- (3 / 2)) * rho + p15 * Rpower T (- (1 / 2)) * rT + p15 * Rpower T (1 / 2) * rTT) in
  let V := (vol * (1 - xi) + xi * RR * T * (1 / rho) * rP + RR * derP) / 10 in
  let S := (1 - xi) * (aw_S w - ai_S w) + Rj * ln Nw - Rj * (xi + xi * ln (RR * T / MW) + xi * ln rho + xi * T * (1 / rho) * rT) - Rj * derT in
  let C := (1 - xi) * (aw_C w - ai_C w) - Rj * (xi + 2 * xi * T * (1 / rho) * rT - xi * T ^ 2 / rho ^ 2 * rT ^ 2 + xi * T ^ 2 / rho * rTT) - Rj * T * der2T in
  mkInc G V S C (G + T * S).
(** 51-100: [i0] are the increments at 298.15 K and 1 bar, [i] those at T and P, [t] the properties of the gas at T *)
Definition ad_solute (i0 i : adinc) (T P : R) (t : mprop) : mprop :=
  with_UA (mG t - i_G i0 + i_G i + i_S i0 * (T - Tr)) (mH t - i_H i0 + i_H i) (mS t - i_S i0 + i_S i) (i_V i) (mCp t + i_C i) T P.

(** *** density models *)
(** water at T, P and at the reference point: density (g/cm3), alpha, beta (1/bar), d alpha/dT; reference properties of the substance *)
Record dwater : Type := mkDW { w_rho : R; w_al : R; w_be : R; w_daT : R }.
Record dref : Type := mkDR { r_T : R; r_G : R; r_H : R; r_S : R; r_V : R; r_C : R }.
(** SoluteHollandPowell98.cpp:12-71 *)
Definition hp98 (r : dref) (b : R) (w0 w : dwater) (T P : R) : mprop :=
  let T' := if Rle_dec T 500 then T else 500 in
  let K := (r_C r - r_T r * b) / (r_T r * w_daT w0) in
  let inc := P * r_V r + b * (r_T r * T - r_T r ^ 2 / 2 - T ^ 2 / 2) + K * (w_al w0 * (T - r_T r) - w_be w0 * P + T / T' * ln (w_rho w / w_rho w0)) in
  let Gbb := r_H r - T * r_S r + inc in
  let G := r_G r - (T - r_T r) * r_S r + inc in
  let S := r_S r - b * (r_T r - T) - K * (w_al w0 - ln (w_rho w / w_rho w0) / T' - T / T' * w_al w) in
  let V := r_V r + K * (- w_be w0 + T / T' * w_be w) in
  let C := T * (b - (r_T r * b - r_C r) * (T * w_daT w) / (r_T r * w_daT w0 * T')) in
  with_UA G (Gbb + T * r_S r) S V C T P.
(** SoluteAnderson91.cpp:12-46 *)
Definition an91 (r : dref) (w0 w : dwater) (T P : R) : mprop :=
  let K := r_C r / (r_T r * w_daT w0) in
  let inc := K * (w_al w0 * (T - r_T r) + ln (w_rho w / w_rho w0)) in
  let Gbb := r_H r - T * r_S r + inc in
  let G := r_G r - r_S r * (T - r_T r) + inc in
  let S := r_S r - r_C r * (w_al w0 - w_al w) / (r_T r * w_daT w0) in
  let C := T * (r_C r * w_daT w) / (r_T r * w_daT w0) in
  with_UA G (Gbb + T * r_S r) S (r_V r) C T P.
