(** The aqueous species with the derivatives their ThermoScalars carry:
      Substances/Solute/SoluteHKFreaktoro.cpp:45-295, SoluteHKFgems.cpp:20-283, SoluteADgems.cpp:9-158,
      SoluteHollandPowell98.cpp:10-71, SoluteAnderson91.cpp:10-46; ThermoModelsSubstance.cpp:119-304 (the wrappers: the temperature in K,
      or in Celsius for HKFgems, and the pressure divided by 1e5).
    T in K, P in Pa.  Parameters, constants and values are those of SoluteModel.  Messages, size tests and the bounds check are left out.
    Definitions only. *)
From Coq Require Import Bool Reals String.
From Verif Require Import ThermoScalarModel MineralModel CarryModel SoluteModel.
Open Scope R_scope.

(** PropertiesSolvent as far as it is read *)
Record wetT : Type := mkWetT { xd : TS; xdT : TS; xdP : TS; xdTT : TS; xdTP : TS; xdPP : TS; xal : TS; xbe : TS; xdal : TS }.
(** FunctionG *)
Record gts : Type := mkGts { y_ : TS; y_T : TS; y_P : TS; y_TT : TS; y_TP : TS; y_PP : TS }.
(** ElectroPropertiesSubstance, ElectroPropertiesSolvent *)
Record elT : Type := mkElT { u_w : TS; u_T : TS; u_P : TS; u_TT : TS }.
Record bornT : Type := mkBornT { vZ : TS; vY : TS; vQ : TS; vX : TS }.

(** *** functionG, SoluteHKFreaktoro.cpp:193-295 *)
Section G.
Variables (T P : R).
(** 199 *)
Definition TdegC : TS := ts_sub_d (TK T) C_K.
(** 230-245 *)
Definition agS : TS := ts_add (d_add_ts (-2037662 / 1000000) (d_mul_ts (5747 / 1000000) TdegC)) (ts_mul (d_mul_ts (- (6557892 / 1000000000000)) TdegC) TdegC).
Definition bgS : TS := ts_add (d_add_ts (6107361 / 1000000) (d_mul_ts (- (1074377 / 100000000)) TdegC)) (ts_mul (d_mul_ts (1268348 / 100000000000) TdegC) TdegC).
Definition agTS : TS := d_add_ts (5747 / 1000000) (d_mul_ts (2 * - (6557892 / 1000000000000)) TdegC).
Definition bgTS : TS := d_add_ts (- (1074377 / 100000000)) (d_mul_ts (2 * (1268348 / 100000000000)) TdegC).
(** 247-260 *)
Definition g_oneTS (w : wetT) : gts :=
  let r := ts_div_d (xd w) 1000 in
  let al := ts_div (ts_neg (xdT w)) (xd w) in let be := ts_div (xdP w) (xd w) in
  let alT := ts_add (ts_div (ts_neg (xdTT w)) (xd w)) (ts_mul al al) in
  let alP := ts_sub (ts_div (ts_neg (xdTP w)) (xd w)) (ts_mul al be) in
  let beP := ts_sub (ts_div (xdPP w) (xd w)) (ts_mul be be) in
  let q := d_sub_ts 1 r in
  let g := ts_mul agS (ts_pow q bgS) in
  let gT := ts_mul g (ts_add (ts_add (ts_div agTS agS) (ts_mul bgTS (ts_log q))) (ts_div (ts_mul (ts_mul r al) bgS) q)) in
  let gP := ts_div (ts_mul (ts_mul (ts_mul (ts_neg g) r) be) bgS) q in
  mkGts g gT gP
    (ts_add (ts_mul g (ts_add (ts_add (ts_sub (d_div_ts agTT agS) (ts_pow_d (ts_div agTS agS) 2)) (d_mul_ts bgTT (ts_log q)))
       (ts_mul (ts_div (ts_mul (ts_mul r al) bgS) q) (ts_sub (ts_sub (ts_add (ts_div (d_mul_ts 2 bgTS) bgS) (ts_div alT al)) al) (ts_div (ts_mul r al) q)))))
       (ts_div (ts_mul gT gT) g))
    (ts_add (ts_mul gP (ts_sub (ts_sub (ts_sub (ts_div bgTS bgS) al) (ts_div alP be)) (ts_div (ts_mul r al) q))) (ts_div (ts_mul gP gT) g))
    (ts_mul gP (ts_add (ts_add (ts_add (ts_div gP g) be) (ts_div beP be)) (ts_div (ts_mul r be) q))).
(** 266-291 *)
Definition g_twoTS (x : gts) : gts :=
  let a := ts_div_d (ts_sub_d TdegC 155) 300 in let a1 := ts_pow_d a (48 / 10) in let a2 := ts_pow_d a 16 in
  let p := d_sub_ts 1000 (Pbar P) in let p1 := ts_pow_d p 3 in let p2 := ts_pow_d p 4 in
  let ft := ts_add a1 (d_mul_ts af1 a2) in
  let ftT := ts_div (ts_add (d_mul_ts (48 / 10) a1) (d_mul_ts (16 * af1) a2)) (d_mul_ts 300 a) in
  let ftTT := ts_div (ts_add (d_mul_ts (1824 / 100) a1) (d_mul_ts (240 * af1) a2)) (ts_pow_d (d_mul_ts 300 a) 2) in
  let fp := ts_add (d_mul_ts af2 p1) (d_mul_ts af3 p2) in
  let fpP := ts_div (ts_neg (ts_add (d_mul_ts (3 * af2) p1) (d_mul_ts (4 * af3) p2))) (ts_mul_d p 100000) in
  let fpPP := ts_div (ts_add (d_mul_ts (6 * af2) p1) (d_mul_ts (12 * af3) p2)) (ts_pow_d (ts_mul_d p 100000) 2) in
  mkGts (ip_sub (y_ x) (ts_mul ft fp)) (ip_sub (y_T x) (ts_mul fp ftT)) (ip_sub (y_P x) (ts_mul ft fpP))
    (ip_sub (y_TT x) (ts_mul fp ftTT)) (ip_sub (y_TP x) (ts_mul ftT fpP)) (ip_sub (y_PP x) (ts_mul ft fpPP)).
Definition g_zeroTS : gts := mkGts (ts_assign 0) (ts_assign 0) (ts_assign 0) (ts_assign 0) (ts_assign 0) (ts_assign 0).
(** 193-295; None: a division by zero *)
Definition functionGTS (w : wetT) : option gts :=
  if rlt 1000 (val (xd w)) then Some g_zeroTS
  else if is_zero (1 - val (xd w) / 1000) || is_zero (val (xdT w)) || is_zero (val (xdP w)) then None
  else Some (if region2 (val TdegC) (val (Pbar P)) then g_twoTS (g_oneTS w) else g_oneTS w).

(** *** gShok2, SoluteHKFgems.cpp:151-251: pw is fabs(1 - D.val) and the exponents are b.val, plain numbers *)
(** 195-196 *)
Definition aS : TS := ts_add (d_add_ts (-2037662 / 1000000) (d_mul_ts (5747 / 1000000) TdegC)) (d_mul_ts (- (6557892 / 1000000000000)) (ts_pow_d TdegC 2)).
Definition bS : TS := ts_add (d_add_ts (6107361 / 1000000) (d_mul_ts (- (1074377 / 100000000)) TdegC)) (d_mul_ts (1268348 / 100000000000) (ts_pow_d TdegC 2)).
(** 193-225 *)
Definition s_oneTS (w : wetT) : gts :=
  let D := ts_div_d (xd w) 1000 in let al := xal w in let be := xbe w in
  let pw := Rabs (1 - val D) in let bv := val bS in
  let dgdD := ts_mul_d (ts_mul (ts_neg aS) bS) (Rpower pw (bv - 1)) in
  let DT := ts_mul (ts_neg D) al in let DP := ts_mul D be in let DTT := ts_mul (ts_neg D) (ts_sub (xdal w) (ts_pow_d al 2)) in
  let Db := ts_assign (Rpower pw bv) in
  let DbT := ts_add (ts_mul (ts_mul_d (ts_neg bS) (Rpower pw (bv - 1))) DT) (ts_mul (d_mul_ts (ln pw) Db) bgTS) in
  let in1 := ts_add (ts_mul (ts_mul_d (ts_neg (ts_sub_d bS 1)) (Rpower pw (bv - 2))) DT) (d_mul_ts (ln pw * Rpower pw (bv - 1)) bgTS) in
  let DbTT := ts_add (ts_sub (ts_add
      (ts_neg (ts_add (ts_add (ts_mul (ts_mul_d bS (Rpower pw (bv - 1))) DTT) (ts_mul (d_mul_ts (Rpower pw (bv - 1)) DT) bgTS)) (ts_mul (ts_mul bS DT) in1)))
      (d_mul_ts (ln pw * Rpower pw bv) (ts_assign bgTT)))
      (ts_div (ts_mul (d_mul_ts (Rpower pw bv) bgTS) DT) (d_sub_ts 1 D)))
      (ts_mul (d_mul_ts (ln pw) bgTS) DbT) in
  mkGts (ts_mul_d aS (Rpower pw bv)) (ts_add (ts_mul aS DbT) (ts_mul Db agTS)) (ts_mul dgdD DP)
    (ts_add (ts_add (ts_mul aS DbTT) (ts_mul (d_mul_ts 2 DbT) agTS)) (ts_mul Db (ts_assign agTT))) (ts_assign 0) (ts_assign 0).
(** 229-248 *)
Definition s_twoTS (x : gts) : gts :=
  let t := ts_div_d (ts_sub_d TdegC 155) 300 in let p := d_sub_ts 1000 (Pbar P) in
  let ft := ts_add (ts_pow_d t (48 / 10)) (d_mul_ts cC0 (ts_pow_d t 16)) in
  let ftT := ts_add (d_mul_ts (48 / 10 / 300) (ts_pow_d t (38 / 10))) (d_mul_ts (16 / 300 * cC0) (ts_pow_d t 15)) in
  let ftTT := ts_add (d_mul_ts (38 / 10 * (48 / 10) / (300 * 300)) (ts_pow_d t (28 / 10))) (d_mul_ts (15 * 16 / (300 * 300) * cC0) (ts_pow_d t 14)) in
  let fp := ts_add (d_mul_ts cC1 (ts_pow_d p 3)) (d_mul_ts cC2 (ts_pow_d p 4)) in
  let fpP := ts_sub (d_mul_ts (-3 * cC1) (ts_pow_d p 2)) (d_mul_ts (4 * cC2) (ts_pow_d p 3)) in
  mkGts (ip_sub (y_ x) (ts_mul ft fp)) (ip_sub (y_T x) (ts_mul fp ftT)) (ip_sub (y_P x) (ts_div_d (ts_mul ft fpP) 100000))
    (ip_sub (y_TT x) (ts_mul fp ftTT)) (y_TP x) (y_PP x).
Definition gShok2TS (w : wetT) : option gts :=
  if is_zero (1 - val (xd w) / 1000) then None
  else Some (if region2 (val TdegC) (val (Pbar P)) then s_twoTS (s_oneTS w) else s_oneTS w).

(** *** the Born coefficient *)
(** speciesElectroStateHKF, SoluteHKFreaktoro.cpp:150-190 *)
Definition omega_reakTS (z : R) (hplus : bool) (wref : R) (g : gts) : elT :=
  if is_zero z || hplus then mkElT (ts_assign wref) (ts_assign 0) (ts_assign 0) (ts_assign 0)
  else
    let re := d_add_ts (re_ref z wref) (d_mul_ts (Rabs z) (y_ g)) in let rg := d_add_ts rH (y_ g) in
    let x1 := d_mul_ts (- eta) (ts_sub (d_div_ts (Rabs (z * z * z)) (ts_mul re re)) (d_div_ts z (ts_pow_d rg 2))) in
    let x2 := d_mul_ts (2 * eta) (ts_sub (d_div_ts (z * z * z * z) (ts_mul (ts_mul re re) re)) (d_div_ts z (ts_pow_d rg 3))) in
    mkElT (d_mul_ts eta (ts_sub (d_div_ts (z * z) re) (d_div_ts z rg))) (ts_mul x1 (y_T g)) (ts_mul x1 (y_P g))
      (ts_add (ts_mul x1 (y_TT g)) (ts_mul (ts_mul x2 (y_T g)) (y_T g))).
(** omeg92, SoluteHKFgems.cpp:253-283 *)
Definition omega_gemsTS (z wref : R) (g : gts) : elT :=
  if is_zero z then mkElT (ts_assign wref) (ts_assign 0) (ts_assign 0) (ts_assign 0)
  else
    let re := ts_add (ts_assign (z ^ 2 / (wref / eta + z / (rH + 0)))) (d_mul_ts (Rabs z) (y_ g)) in let rg := d_add_ts rH (y_ g) in
    let z3 := ts_sub (d_div_ts (Rabs (z ^ 3)) (ts_pow_d re 2)) (d_div_ts z (ts_pow_d rg 2)) in
    let z4 := ts_sub (d_div_ts (Rabs (z ^ 4)) (ts_pow_d re 3)) (d_div_ts z (ts_pow_d rg 3)) in
    mkElT (d_mul_ts eta (ts_sub (d_div_ts (z ^ 2) re) (d_div_ts z rg))) (ts_mul (d_mul_ts (- eta) z3) (y_T g)) (ts_mul (d_mul_ts (- eta) z3) (y_P g))
      (ts_sub (ts_mul (d_mul_ts (2 * eta) z4) (ts_pow_d (y_T g) 2)) (ts_mul (d_mul_ts eta z3) (y_TT g))).

(** *** HKF; rG, rHh, rS are the reference properties as read *)
Variables (rG rHh rS : TS).
Definition tmth : TS := ts_sub_d (TK T) theta.
Definition psP : TS := d_add_ts psi (Pbar P).
Definition lgP : TS := ts_log (ts_div_d psP (psi + Pr)).
Definition a34 (h : hkf) : TS := ts_add (d_mul_ts (h3 h) (ts_sub_d (Pbar P) Pr)) (d_mul_ts (h4 h) lgP).
Definition rec2 : TS := ts_sub_d (d_div_ts 1 tmth) (1 / (Tr - theta)).
Definition closeTS (V G H S Cp : TS) : tprop :=
  let U := ts_sub H (ts_mul (Pbar P) V) in let A := ts_sub U (ts_mul (TK T) S) in
  mkTP (ip_mul_d G cal) (ip_mul_d H cal) (ip_mul_d S cal) (ip_mul_d V (1 / 10)) (ip_mul_d Cp cal) (ip_mul_d U cal) (ip_mul_d A cal).
(** SoluteHKFreaktoro.cpp:69-138 *)
Definition hkf_reakTS (h : hkf) (e : elT) (b : bornT) : tprop :=
  let Gf := ts_div_d rG cal in let Hf := ts_div_d rHh cal in let Sr := ts_div_d rS cal in
  let w := u_w e in let wT := u_T e in let wP := ts_mul_d (u_P e) 100000 in let Z := vZ b in let Y := vY b in let Q := ts_mul_d (vQ b) 100000 in
  let Z1 := ts_add_d Z 1 in let L := TK T in let lT := ts_log (ts_div_d L Tr) in
  let lU := ts_log (ts_div_d (ts_mul (d_div_ts Tr L) tmth) (Tr - theta)) in
  let V := d_mul_ts vconst (ts_sub (ts_sub (ts_add (d_add_ts (h1 h) (d_div_ts (h2 h) psP)) (ts_div (d_add_ts (h3 h) (d_div_ts (h4 h) psP)) tmth)) (ts_mul w Q)) (ts_mul Z1 wP)) in
  let G := ts_add (ts_add_d (ts_sub (ts_add (ts_sub (ts_add (ts_add (ts_sub (ts_sub Gf (ts_mul Sr (ts_sub_d L Tr)))
             (d_mul_ts (k1 h) (ts_add_d (ts_sub (ts_mul L lT) L) Tr))) (d_mul_ts (h1 h) (ts_sub_d (Pbar P) Pr))) (d_mul_ts (h2 h) lgP))
             (d_mul_ts (k2 h) (ts_sub (ts_div_d (ts_mul rec2 (d_sub_ts theta L)) theta) (ts_mul (ts_div_d L (theta * theta)) lU))))
             (ts_mul (d_div_ts 1 tmth) (a34 h))) (ts_mul w Z1)) (wr h * (Zr1 + 1))) (d_mul_ts (wr h * Yr1) (ts_sub_d L Tr)) in
  let H := ts_sub_d (ts_add_d (ts_add (ts_add (ts_sub (ts_add (ts_add (ts_add (ts_sub (ts_add Hf (d_mul_ts (k1 h) (ts_sub_d L Tr))) (d_mul_ts (k2 h) rec2))
             (d_mul_ts (h1 h) (ts_sub_d (Pbar P) Pr))) (d_mul_ts (h2 h) lgP)) (ts_mul (ts_div (ts_sub_d (d_mul_ts 2 L) theta) (ts_pow_d tmth 2)) (a34 h)))
             (ts_mul w Z1)) (ts_mul (ts_mul w L) Y)) (ts_mul (ts_mul L Z1) wT)) (wr h * (Zr1 + 1))) (wr h * Tr * Yr1) in
  let S := ts_sub_d (ts_add (ts_add (ts_add (ts_sub (ts_add Sr (d_mul_ts (k1 h) lT)) (d_mul_ts (k2 h / theta) (ts_add rec2 (ts_div_d lU theta))))
             (ts_mul (d_div_ts 1 (ts_pow_d tmth 2)) (a34 h))) (ts_mul w Y)) (ts_mul Z1 wT)) (wr h * Yr1) in
  let C := ts_add (ts_add (ts_add (ts_sub (d_add_ts (k1 h) (d_div_ts (k2 h) (ts_pow_d tmth 2))) (ts_mul (ts_div (d_mul_ts 2 L) (ts_pow_d tmth 3)) (a34 h)))
             (ts_mul (ts_mul w L) (vX b))) (ts_mul (ts_mul (d_mul_ts 2 L) Y) wT)) (ts_mul (ts_mul L Z1) (u_TT e)) in
  closeTS V G H S C.
(** SoluteHKFgems.cpp:54-134; TK is Temperature(TC.val + C_to_K), 26 *)
Definition hkf_gemsTS (h : hkf) (e : elT) (b : bornT) : tprop :=
  let Gf := ts_div_d rG cal in let Hf := ts_div_d rHh cal in let Sr := ts_div_d rS cal in
  let W := u_w e in let wT := u_T e in let wP := ts_mul_d (u_P e) 100000 in let Z := vZ b in let Y := vY b in let Q := ts_mul_d (vQ b) 100000 in
  let mZ := ts_sub_d (ts_neg Z) 1 in let L := TK T in let lT := ts_log (ts_div_d L Tr) in
  let VQ := d_mul_ts vconst (ts_add (ts_mul (ts_neg W) Q) (ts_mul mZ wP)) in
  let V := ts_add (d_mul_ts vconst (ts_add (ts_add (d_add_ts (h1 h) (d_div_ts (h2 h) psP)) (d_div_ts (h3 h) tmth)) (ts_div (d_div_ts (h4 h) psP) tmth))) VQ in
  let SY := ts_sub_d (ts_sub (ts_mul W Y) (ts_mul mZ wT)) (wr h * Yr2) in
  let S := ts_add (ts_add (ts_sub (ts_add Sr (d_mul_ts (k1 h) lT))
             (d_mul_ts (k2 h / theta) (ts_add rec2 (d_mul_ts (1 / theta) (ts_log (ts_div_d (ts_div (d_mul_ts Tr tmth) L) (Tr - theta)))))))
             (ts_mul (a34 h) (ts_pow_d (d_div_ts 1 tmth) 2))) SY in
  let CX := ts_add (ts_add (ts_mul (ts_mul W L) (vX b)) (ts_mul (ts_mul (d_mul_ts 2 L) Y) wT)) (ts_mul (ts_mul L (ts_add_d Z 1)) (u_TT e)) in
  let C := ts_add (ts_sub (d_add_ts (k1 h) (d_div_ts (k2 h) (ts_pow_d tmth 2))) (ts_mul (ts_div (d_mul_ts 2 L) (ts_pow_d tmth 3)) (a34 h))) CX in
  let HY := ts_sub_d (ts_sub_d (ts_sub (ts_add (ts_mul W mZ) (ts_mul (ts_mul W L) Y)) (ts_mul (ts_mul L mZ) wT)) (wr h * (- Zr2 - 1))) (wr h * Tr * Yr2) in
  let H := ts_add (ts_add (ts_add (ts_add (ts_sub (ts_add Hf (d_mul_ts (k1 h) (ts_sub_d L Tr))) (d_mul_ts (k2 h) rec2))
             (d_mul_ts (h1 h) (ts_sub_d (Pbar P) Pr))) (d_mul_ts (h2 h) lgP)) (ts_mul (a34 h) (ts_div (ts_sub_d (d_mul_ts 2 L) theta) (ts_pow_d tmth 2)))) HY in
  let GZ := ts_add (ts_sub_d (ts_mul W mZ) (wr h * (- Zr2 - 1))) (d_mul_ts (wr h * Yr2) (ts_sub_d L Tr)) in
  let G := ts_add (ts_add (ts_sub (ts_add (ts_add (ts_sub (ts_sub Gf (ts_mul Sr (ts_sub_d L Tr)))
             (d_mul_ts (k1 h) (ts_add_d (ts_sub (ts_mul L lT) L) Tr))) (d_mul_ts (h1 h) (ts_sub_d (Pbar P) Pr))) (d_mul_ts (h2 h) lgP))
             (d_mul_ts (k2 h) (ts_sub (ts_mul rec2 (ts_div_d (d_sub_ts theta L) theta)) (ts_mul (ts_div_d L (theta ^ 2)) (ts_log (ts_div (d_mul_ts Tr tmth) (ts_mul_d L (Tr - theta))))))))
             (ts_mul (d_div_ts 1 tmth) (a34 h))) GZ in
  closeTS V G H S C.
End G.

(** *** Akinfiev and Diamond *)
Record adwT : Type := mkAdwT { q_G : TS; q_S : TS; q_C : TS; n_G : TS; n_S : TS; n_C : TS; q_rho : TS; q_al : TS; q_be : TS; q_daT : TS }.
Record incT : Type := mkIncT { j_G : TS; j_V : TS; j_S : TS; j_C : TS; j_H : TS }.
(** SoluteADgems.cpp:107-158; the constants are ThermoScalars that were assigned *)
Definition ad_incTS (p : adpar) (T : R) (w : adwT) : incT :=
  let L := TK T in let RC := ts_assign Rj in let Rr := ts_assign RR in let Mw := ts_assign MW in
  let xi := ts_assign (a_xi p) in let aa := ts_assign (a_a p) in let bb := ts_assign (a_b p) in let rho := q_rho w in
  let fug := ts_exp (ts_div (ts_sub (q_G w) (n_G w)) (ts_mul L RC)) in
  let vol := ts_div Mw rho in let rT := ts_mul (ts_neg (q_al w)) rho in let rP := ts_mul (q_be w) rho in
  let rTT := ts_mul rho (ts_sub (ts_pow_d (q_al w) 2) (q_daT w)) in
  let lN := ts_log (d_div_ts 1000 Mw) in let x1 := d_sub_ts 1 xi in
  let vr := ts_mul (ts_div (ts_mul Rr L) Mw) rho in
  let RT := ts_mul RC L in
  let G := ts_add (ts_add (ts_add (ts_mul (ts_mul (ts_neg RC) L) lN) (ts_mul (ts_mul (ts_mul x1 RC) L) (ts_log fug))) (ts_mul (ts_mul RT xi) (ts_log vr)))
             (ts_mul (ts_mul RT rho) (ts_add aa (ts_mul bb (ts_pow_d (d_div_ts 1000 L) (1 / 2))))) in
  let b15 := ts_mul_d bb p15 in
  let derP := ts_add (ts_mul (ts_mul aa L) rP) (ts_mul (ts_mul b15 (ts_pow_d L (1 / 2))) rP) in
  let derT := ts_add (ts_mul aa (ts_add rho (ts_mul L rT))) (ts_mul bb (ts_add (ts_mul (d_mul_ts (1 / 2 * p15) (ts_pow_d L (- (1 / 2)))) rho) (ts_mul (d_mul_ts p15 (ts_pow_d L (1 / 2))) rT))) in
  let der2T := ts_add (ts_mul aa (ts_add (d_mul_ts 2 rT) (ts_mul L rTT)))
     (ts_mul bb (ts_add (ts_add (ts_mul (d_mul_ts (- (1 / 4) * p15) (ts_pow_d L (- (3 / 2)))) rho) (ts_mul (d_mul_ts p15 (ts_pow_d L (- (1 / 2)))) rT)) (ts_mul (d_mul_ts p15 (ts_pow_d L (1 / 2))) rTT))) in
  let ir := d_div_ts 1 rho in
  let V := ts_div_d (ts_add (ts_add (ts_mul vol x1) (ts_mul (ts_mul (ts_mul (ts_mul xi Rr) L) ir) rP)) (ts_mul Rr derP)) 10 in
  let S := ts_sub (ts_sub (ts_add (ts_mul x1 (ts_sub (q_S w) (n_S w))) (ts_mul RC lN))
     (ts_mul RC (ts_add (ts_add (ts_add xi (ts_mul xi (ts_log (ts_div (ts_mul Rr L) Mw)))) (ts_mul xi (ts_log rho))) (ts_mul (ts_mul (ts_mul xi L) ir) rT)))) (ts_mul RC derT) in
  let xT2 := ts_mul xi (ts_pow_d L 2) in
  let C := ts_sub (ts_sub (ts_mul x1 (ts_sub (q_C w) (n_C w)))
     (ts_mul RC (ts_add (ts_sub (ts_add xi (ts_mul (ts_mul (ts_mul (d_mul_ts 2 xi) L) ir) rT)) (ts_mul (ts_div xT2 (ts_pow_d rho 2)) (ts_pow_d rT 2))) (ts_mul (ts_div xT2 rho) rTT)))) (ts_mul RT der2T) in
  mkIncT G V S C (ts_add G (ts_mul L S)).
(** x.ddp = 0.0, 90 *)
Definition no_ddp (x : TS) : TS := mkTS (val x) (ddt x) 0 (err x) (sta x).
(** 70-100; [i0] was evaluated at Temperature(298.15) and carries the derivatives there *)
Definition ad_soluteTS (i0 i : incT) (T P : R) (t : tprop) : tprop :=
  withUA (ts_add_d (ts_add (no_ddp (ip_sub (tG t) (j_G i0))) (j_G i)) (val (j_S i0) * (T - Tr))) (ts_add (ip_sub (tH t) (j_H i0)) (j_H i))
    (ts_add (no_ddp (ip_sub (tS t) (j_S i0))) (j_S i)) (j_V i) (ts_add (no_ddp (tC t)) (j_C i)) T P.

(** *** density models; density in g/cm3 and beta in 1/bar as converted at the top of the functions *)
Record dwT : Type := mkDwT { m_rho : TS; m_al : TS; m_be : TS; m_daT : TS }.
(** SoluteHollandPowell98.cpp:12-71; Tprime is a double *)
Definition hp98TS (r : dref) (b : R) (w0 : dwater) (w : dwT) (T P : R) : tprop :=
  let L := TK T in let T' := if Rle_dec T 500 then T else 500 in
  let K := (r_C r - r_T r * b) / (r_T r * w_daT w0) in
  let lr := ts_log (ts_div_d (m_rho w) (w_rho w0)) in
  let poly := d_mul_ts b (ts_sub (ts_sub_d (d_mul_ts (r_T r) L) (r_T r ^ 2 / 2)) (ts_div_d (ts_pow_d L 2) 2)) in
  let br := d_mul_ts K (ts_add (ts_sub (d_mul_ts (w_al w0) (ts_sub_d L (r_T r))) (d_mul_ts (w_be w0) (Pbar P))) (ts_mul (ts_div_d L T') lr)) in
  let Gbb := ts_add (ts_add (ts_add (d_sub_ts (r_H r) (ts_mul_d L (r_S r))) (ts_mul_d (Pbar P) (r_V r))) poly) br in
  let G := ts_add (ts_add (ts_add (d_sub_ts (r_G r) (ts_mul_d (ts_sub_d L (r_T r)) (r_S r))) (ts_mul_d (Pbar P) (r_V r))) poly) br in
  let S := ts_sub (d_sub_ts (r_S r) (d_mul_ts b (d_sub_ts (r_T r) L))) (d_mul_ts K (ts_sub (d_sub_ts (w_al w0) (ts_div_d lr T')) (ts_mul (ts_div_d L T') (m_al w)))) in
  let V := d_add_ts (r_V r) (d_mul_ts K (d_add_ts (- w_be w0) (ts_mul (ts_div_d L T') (m_be w)))) in
  let C := ts_mul L (d_sub_ts b (ts_div_d (d_mul_ts (r_T r * b - r_C r) (ts_mul L (m_daT w))) (r_T r * w_daT w0 * T'))) in
  withUA G (ts_add Gbb (ts_mul_d L (r_S r))) S V C T P.
(** SoluteAnderson91.cpp:12-46; the volume is ThermoScalar(V298) *)
Definition an91TS (r : dref) (w0 : dwater) (w : dwT) (T P : R) : tprop :=
  let L := TK T in let K := r_C r / (r_T r * w_daT w0) in
  let br := d_mul_ts K (ts_add (d_mul_ts (w_al w0) (ts_sub_d L (r_T r))) (ts_log (ts_div_d (m_rho w) (w_rho w0)))) in
  let Gbb := ts_add (d_sub_ts (r_H r) (ts_mul_d L (r_S r))) br in
  let G := ts_add (d_sub_ts (r_G r) (d_mul_ts (r_S r) (ts_sub_d L (r_T r)))) br in
  let S := d_sub_ts (r_S r) (ts_div_d (d_mul_ts (r_C r) (d_sub_ts (w_al w0) (m_al w))) (r_T r * w_daT w0)) in
  let C := ts_div_d (ts_mul L (d_mul_ts (r_C r) (m_daT w))) (r_T r * w_daT w0) in
  withUA G (ts_add Gbb (ts_mul_d L (r_S r))) S (ts_of_double (r_V r)) C T P.
