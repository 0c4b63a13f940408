(** The mineral corrections and the gas wrappers with the derivatives their ThermoScalars carry:
      Substances/Solids/SolidMurnaghanHP98.cpp:8-64, SolidHPLandau.cpp:9-91, SolidBerman88.cpp:9-57,
      Substances/Gases/GasPRSV.cpp:25-31 (the other wrappers have the same lines),
      ThermoModelsSubstance.cpp:498-505 applyPressure.
    T in K, P in Pa; the parameters are those of MineralModel.  [sqrt] stands for pow(.,0.5) of a double.
    Messages and the bounds check are left out.  Definitions only. *)
From Coq Require Import Bool Reals String.
From Verif Require Import ThermoScalarModel MineralModel.
Open Scope R_scope.

(** the properties, ThermoProperties.h *)
Record tprop : Type := mkTP { tG : TS; tH : TS; tS : TS; tV : TS; tC : TS; tU : TS; tA : TS }.
(** the temperature and the pressure in bar handed to a model, ThermoModelsSubstance.cpp:364-365 and the like *)
Definition TK (T : R) : TS := Temperature T.
Definition Pbar (P : R) : TS := ip_div_d (Pressure P) 100000.
(** internal_energy = enthalpy - Pbar*volume, helmholtz_energy = internal_energy - TK*entropy *)
Definition withUA (g h s v c : TS) (T P : R) : tprop :=
  let u := ts_sub h (ts_mul (Pbar P) v) in mkTP g h s v c u (ts_sub u (ts_mul (TK T) s)).

(** *** Berman; [vst] is the reference volume as read *)
Section Berman.
Variables (b : berpar) (vst : TS) (T P : R).
Definition dT_ : TS := ts_sub_d (TK T) (b_T b).
Definition dP_ : TS := ts_sub_d (Pbar P) (b_P b).
(** 33-34 *)
Definition VP_ : TS := ts_mul vst dP_.
Definition VT_ : TS := ts_mul vst dT_.
(** 37 *)
Definition berV_ : TS :=
  ts_add (ts_add (ts_add (ts_add (d_mul_ts (b_0 b) VT_) (ts_mul (d_mul_ts (b_1 b) VT_) dT_)) (ts_mul_d (d_mul_ts (b_2 b) VT_) (ts2 b))) (d_mul_ts (b_3 b) VP_))
    (ts_mul (d_mul_ts (b_4 b) VP_) dP_).
(** 38 *)
Definition berS_ : TS :=
  ts_sub (ts_sub (d_mul_ts (- b_0 b) VP_) (ts_mul (ts_mul_d (d_mul_ts (b_1 b) VP_) 2) dT_)) (ts_mul_d (ts_mul_d (d_mul_ts (b_2 b) VP_) 3) (ts2 b)).
(** 39-40 *)
Definition berG_ : TS :=
  ts_add (ts_add (ts_add (ts_add (ts_mul (d_mul_ts (b_0 b) dT_) VP_) (ts_mul_d (d_mul_ts (b_1 b) VP_) (ts2 b))) (ts_mul (ts_mul_d (d_mul_ts (b_2 b) VP_) (ts2 b)) dT_))
    (ts_div_d (ts_mul (d_mul_ts (b_3 b) VP_) dP_) 2)) (ts_div_d (ts_mul (d_mul_ts (b_4 b) VP_) (ts_mul dP_ dP_)) 3).
(** 41-42 *)
Definition berH_ : TS :=
  ts_add (ts_add (ts_add (ts_sub (d_mul_ts (- b_0 b * b_T b) VP_) (ts_mul (ts_mul (d_mul_ts (b_1 b) VP_) (ts_add_d (TK T) (b_T b))) dT_))
    (ts_mul (ts_mul_d (d_mul_ts (b_2 b) VP_) (ts2 b)) (ts_add_d (d_mul_ts 2 (TK T)) (b_T b)))) (ts_div_d (ts_mul (d_mul_ts (b_3 b) VP_) dP_) 2))
    (ts_div_d (ts_mul (d_mul_ts (b_4 b) VP_) (ts_mul dP_ dP_)) 3).
(** 30-46 *)
Definition bermanTS (t : tprop) : tprop :=
  if neqb (val dP_) 0 || neqb (val dT_) 0
  then withUA (ip_add (ip_add (tG t) VP_) berG_) (ip_add (ip_add (tH t) VP_) berH_) (ip_add (tS t) berS_) (ip_add vst berV_) (tC t) T P
  else mkTP (tG t) (tH t) (tS t) vst (tC t) (tU t) (tA t).
End Berman.

(** *** Murnaghan *)
Section Murnaghan.
Variables (m : murpar) (vst : TS) (T P : R).
Definition dTm : TS := ts_sub_d (TK T) (u_T m).
Definition kb : TS := ts_div_d (Pbar P) 1000.
(** 28, 30 *)
Definition slack : TS := d_sub_ts 1 (d_mul_ts c15 dTm).
Definition kapT : TS := d_mul_ts (u_k m) slack.
Definition vtT : TS := ts_mul vst (ts_sub (d_add_ts 1 (d_mul_ts (u_a m) dTm)) (d_mul_ts (20 * u_a m) (ts_sub_d (ts_pow_d (TK T) (1 / 2)) (sqrt (u_T m))))).
Definition w4T : TS := d_add_ts 1 (ts_div (d_mul_ts 4 kb) kapT).
Definition p34 : TS := ts_sub_d (ts_pow_d w4T (3 / 4)) 1.
(** 33 *)
Definition dgT : TS := ts_mul_d (ts_mul (ts_mul (d_mul_ts (1 / 3) vtT) kapT) p34) 1000.
(** 34-36 *)
Definition dsT : TS := ts_mul_d (ts_neg (ts_add (ts_sub
  (ts_mul (ts_mul (ts_div_d (ts_mul vst kapT) 3) (d_sub_ts (u_a m) (d_mul_ts (10 * u_a m) (ts_pow_d (TK T) (- (1 / 2)))))) p34)
  (ts_mul (ts_mul_d (ts_div_d (ts_mul_d vtT (u_k m)) 3) c15) p34))
  (ts_mul (ts_div (ts_mul_d (ts_mul vtT kb) c15) slack) (ts_pow_d w4T (- (1 / 4)))))) 1000.
(** 37 *)
Definition dhT : TS := ts_add dgT (ts_mul (TK T) dsT).
(** 38 *)
Definition dvT : TS := ts_mul vtT (ts_pow_d (d_sub_ts 1 (ts_div (d_mul_ts 4 kb) (ts_add kapT (d_mul_ts 4 kb)))) (1 / 4)).
(** 39-43 *)
Definition aT : TS := d_sub_ts (u_a m) (d_div_ts (10 * u_a m) (ts_pow_d (TK T) (1 / 2))).
Definition dcpT : TS := ts_mul_d (ts_mul (ts_neg (TK T)) (ts_sub (ts_add (ts_sub
  (ts_mul (ts_div (ts_mul (ts_mul_d (d_mul_ts (5 / 3) vst) (u_a m)) kapT) (ts_pow_d (TK T) (3 / 2))) p34)
  (ts_mul (ts_mul_d (ts_mul_d (ts_mul (d_mul_ts (2 / 3) vst) aT) (u_k m)) c15) p34))
  (ts_mul (ts_div (ts_mul_d (ts_mul (ts_mul (d_mul_ts 2 vst) aT) kb) c15) slack) (ts_pow_d w4T (- (1 / 4)))))
  (ts_mul (ts_div (ts_mul_d (ts_mul vtT (ts_pow_d kb 2)) (c15 ^ 2)) (ts_mul_d (ts_pow_d slack 3) (u_k m))) (ts_pow_d w4T (- (5 / 4)))))) 1000.
(** 26-60 *)
Definition murnaghanTS (t : tprop) : tprop :=
  if (neqb (val (ts_sub_d (Pbar P) (u_P m))) 0 || neqb (val dTm) 0) && gtb (Rabs (val vst)) (/ 1000000000) && gtb (Rabs (u_a m)) (/ 1000000000) && gtb (Rabs (u_k m)) (/ 1000000000)
  then withUA (ip_add (tG t) dgT) (ip_add (tH t) dhT) (ip_add (tS t) dsT) (ip_add (tV t) dvT) (ip_add (tC t) dcpT) T P
  else withUA (ip_add (tG t) (ts_mul vst (ts_sub_d (Pbar P) (u_P m)))) (ip_add (tH t) (ts_mul vst (ts_sub_d (Pbar P) (u_P m)))) (tS t) vst (tC t) T P.
End Murnaghan.

(** *** Landau *)
Section Landau.
Variables (l : lanpar) (T P : R).
(** 36-43 *)
Definition tcrT : TS := ip_add_d (if Req_EM_T (l_V l) 0 then ts_assign (l_Tc l) else d_add_ts (l_Tc l) (d_mul_ts (l_V l / smax l) (Pbar P))) C_to_K.
(** 47-56; the comparison looks at the values *)
Definition below : bool := if Rlt_dec (val (TK T)) (val tcrT) then true else false.
Definition qqT : TS := if below then ts_pow_d (d_sub_ts 1 (ts_div (TK T) tcrT)) (1 / 4) else ts_assign 0.
Definition dqqT : TS :=
  if below then ts_div (ts_mul_d (ts_neg (TK T)) (l_V l)) (ts_mul_d (ts_mul (d_mul_ts 4 (ts_pow_d (d_add_ts 1 (ts_div (TK T) tcrT)) (3 / 4))) (ts_pow_d tcrT 2)) (smax l)) else ts_assign 0.
(** 58-66 *)
Definition dTl : TS := ts_sub_d (TK T) (l_T l).
Definition slackl : TS := d_sub_ts 1 (d_mul_ts c15 dTl).
Definition kTl : TS := d_mul_ts (l_k l) slackl.
Definition vbl : TS := d_mul_ts (l_V l * q298 l ^ 2) (ts_sub (d_add_ts 1 (d_mul_ts (l_a l) dTl)) (d_mul_ts (20 * l_a l) (ts_sub_d (ts_sqrt (TK T)) (sqrt (l_T l))))).
Definition kbl : TS := ts_div_d (Pbar P) 1000.
Definition w4l : TS := d_add_ts 1 (ts_div (d_mul_ts 4 kbl) kTl).
Definition p34l : TS := ts_sub_d (ts_pow_d w4l (3 / 4)) 1.
Definition ivdpl : TS := ts_mul_d (ts_mul (ts_div_d (ts_mul vbl kTl) 3) p34l) 1000.
Definition idvl : TS := ts_mul_d (ts_add (ts_sub
  (ts_mul (ts_mul (ts_div_d (d_mul_ts (l_V l * q298 l ^ 2) kTl) 3) (d_sub_ts (l_a l) (d_mul_ts (10 * l_a l) (ts_pow_d (TK T) (- (1 / 2)))))) p34l)
  (ts_mul (ts_mul_d (ts_div_d (ts_mul_d vbl (l_k l)) 3) c15) p34l))
  (ts_mul (ts_div (ts_mul_d (ts_mul vbl kbl) c15) slackl) (ts_pow_d w4l (- (1 / 4))))) 1000.
(** the increments with the order parameter above zero, 79-84 *)
Definition lanG_ : TS := ts_add (ts_add (d_sub_ts (lsmq l) (ts_mul_d (ts_mul_d (TK T) (smax l)) (q298 l ^ 2))) ivdpl)
  (d_mul_ts (smax l) (ts_add (ts_mul (ts_sub (TK T) tcrT) (ts_pow_d qqT 2)) (ts_div_d (ts_mul tcrT (ts_pow_d qqT 6)) 3))).
Definition lanS_ : TS := ts_sub (d_mul_ts (smax l) (d_sub_ts (q298 l ^ 2) (ts_pow_d qqT 2))) idvl.
Definition lanH_ : TS := ts_sub (ts_add (d_sub_ts (lsmq l) (ts_mul (d_mul_ts (smax l) tcrT) (ts_sub (ts_pow_d qqT 2) (ts_div_d (ts_pow_d qqT 6) 3)))) ivdpl) (ts_mul (TK T) idvl).
Definition lanV_ : TS := ts_add (ts_add (ts_sub (ts_add vbl (ts_mul (ts_mul (d_mul_ts (2 * smax l) (ts_sub (TK T) tcrT)) qqT) dqqT))
  (ts_div_d (ts_mul_d (d_mul_ts (smax l) (ts_pow_d qqT 2)) (l_V l)) (smax l))) (ts_mul (ts_mul tcrT (ts_pow_d qqT 2)) dqqT)) (ts_div_d (d_mul_ts (l_V l / smax l) (ts_pow_d qqT 3)) 3).
(** and with Qq_ = dQq_ = 0.0, doubles, 69-77 *)
Definition lanG0 : TS := ts_add (ts_add (d_sub_ts (lsmq l) (ts_mul_d (ts_mul_d (TK T) (smax l)) (q298 l ^ 2))) ivdpl)
  (d_mul_ts (smax l) (ts_add (ts_mul_d (ts_sub (TK T) tcrT) (0 ^ 2)) (ts_div_d (ts_mul_d tcrT (0 ^ 6)) 3))).
Definition lanS0 : TS := d_sub_ts (smax l * (q298 l ^ 2 - 0 ^ 2)) idvl.
Definition lanH0 : TS := ts_sub (ts_add (d_sub_ts (lsmq l) (ts_mul_d (d_mul_ts (smax l) tcrT) (0 ^ 2 - 0 ^ 6 / 3))) ivdpl) (ts_mul (TK T) idvl).
Definition lanV0 : TS := ts_add_d (ts_add (ts_sub_d (ts_add vbl (ts_mul_d (ts_mul_d (d_mul_ts (2 * smax l) (ts_sub (TK T) tcrT)) 0) 0))
  (smax l * 0 ^ 2 * l_V l / smax l)) (ts_mul_d (ts_mul_d tcrT (0 ^ 2)) 0)) (l_V l / smax l * 0 ^ 3 / 3).
(** 68-91 *)
Definition landauTS (t : tprop) : tprop :=
  let '(g, s, h, v) := if is0 (val qqT) && is0 (val dqqT) then (lanG0, lanS0, lanH0, lanV0) else (lanG_, lanS_, lanH_, lanV_) in
  withUA (ip_add (tG t) g) (ip_add (tH t) h) (ip_add (tS t) s) v
    (if below then ip_add (tC t) (ts_div (ts_mul_d (TK T) (smax l)) (ts_mul (d_mul_ts 2 (ts_sqrt tcrT)) (ts_sqrt (ts_sub tcrT (TK T))))) else tC t) T P.
End Landau.

(** *** gases.  The pure-fluid routine returns doubles: fugacity coefficient, residual enthalpy and entropy, volume (GasPRSV.cpp:25-31);
    the test for a zero pressure (12-13) is left out *)
Definition gasTS (Rc phi h s v T P : R) (t : tprop) : tprop :=
  let g1 := ip_add (tG t) (ts_mul_d (d_mul_ts Rc (TK T)) (ln phi)) in
  mkTP (ip_sub g1 (ts_mul (d_mul_ts Rc (TK T)) (ts_log (ts_div (d_mul_ts phi (Pbar P)) (Pbar P))))) (ip_add_d (tH t) h) (ip_add_d (tS t) s) (ts_assign v) (tC t) (tU t) (tA t).
(** applyPressure, ThermoModelsSubstance.cpp:498-505; pr in Pa *)
Definition applyPressureTS (pr T P : R) (t : tprop) : tprop :=
  let dp := ts_sub_d (Pbar P) (pr / 100000) in
  withUA (ip_add (tG t) (ts_mul (tV t) dp)) (ip_add (tH t) (ts_mul (tV t) dp)) (tS t) (tV t) (tC t) T P.
