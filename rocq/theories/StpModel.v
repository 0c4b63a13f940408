(** Model of the pure-fluid part of the Sterner-Pitzer fluids: TSTPcalc in
      Substances/Gases/s_solmod2_.cpp 5045-5061, 5208-5263, 5469-5732, 5844-6035, 6164-6277,
    and of what GasSTP.cpp:12-27 hands to it.  T in K; P in bar in the interface, p in MPa inside; rho in mol/cm3.
    [double] is [R]; [x ^ n] and [/ x ^ n] stand for pow with a whole exponent, [Rpower] for other exponents of a
    positive base.  The formulas of Pressure and Helmholtz were converted by script from the source; the three
    polynomials they repeat have names.  Reading memory that was never written is an outcome of its own, as is a value
    computed with 0/0.  FugacityCorresponding (5738-5839) is reached only through an uninitialised code and is not
    modelled.  Definitions only. *)
From Coq Require Import Reals String Ascii List Bool.
From Verif Require Import ThermoScalarModel EngineModel GasModel.
Import ListNotations.
Open Scope R_scope.

(** *** coefficients *)
(** a row of the table: coefficients of T^-4, T^-2, T^-1, 1, T, T^2 *)
Record row := mkRow { r_m4 : R; r_m2 : R; r_m1 : R; r_0 : R; r_1 : R; r_2 : R }.
Record cftab := mkCf { w0 : row; w1 : row; w2 : row; w3 : row; w4 : row; w5 : row; w6 : row; w7 : row; w8 : row; w9 : row }.
(** 5220-5229 *)
Definition cf_h2o : cftab := mkCf
  (mkRow 0 0 (6164422 / 25) (51359951 / 1000000) 0 0)
  (mkRow 0 0 (11727793 / 20000000) (-28646939 / 10000000000) (31375577 / 1000000000000) 0)
  (mkRow 0 0 (-392399 / 62500) (14791599 / 1000000000) (35779579 / 100000000000) (617317 / 40000000000000))
  (mkRow 0 0 0 (-341759 / 800000) (-3265031 / 200000000000) 0)
  (mkRow 0 0 (28327489 / 5000) (-16580167 / 1000000) (38280381 / 500000000) 0)
  (mkRow 0 0 0 (10917883 / 100000000) 0 0)
  (mkRow (3887865600000) (-134948780) (7729141 / 25) (15118221 / 2000000) 0 0)
  (mkRow 0 0 (-32768949 / 500) (752427 / 4000) 0 0)
  (mkRow (-14182435000000) (181653900) (-4942267 / 25) (-11765159 / 500000) 0 0)
  (mkRow 0 0 (736747 / 8) (12246777 / 100000) 0 0).
(** 5232-5241 *)
Definition cf_co2 : cftab := mkCf
  (mkRow 0 0 (1826134) (15844873 / 200000) 0 0)
  (mkRow 0 0 0 (3328033 / 50000000000) (28576399 / 5000000000000) (30222363 / 100000000000000000))
  (mkRow 0 0 0 (11991569 / 2000000000) (71669631 / 1000000000000) (62416103 / 10000000000000000))
  (mkRow 0 0 (-13270279 / 10000000) (-15210731 / 100000000) (13413561 / 25000000000) (-35557571 / 500000000000000))
  (mkRow 0 0 (1557097 / 12500000) (49045367 / 10000000) (1227757 / 125000000) (55962121 / 10000000000000))
  (mkRow 0 0 0 (75522299 / 100000000) 0 0)
  (mkRow (-393446440000) (90918237) (10694179 / 25) (-1396741 / 62500) 0 0)
  (mkRow 0 0 (2517663 / 6250) (11971627 / 100000) 0 0)
  (mkRow 0 (22995650) (-78971817 / 1000) (-7922057 / 125000) 0 0)
  (mkRow 0 0 (19005953 / 200) (18038071 / 1000000) 0 0).
(** ten numbers, one per row *)
Record co := mkCo { a0 : R; a1 : R; a2 : R; a3 : R; a4 : R; a5 : R; a6 : R; a7 : R; a8 : R; a9 : R }.
Definition each (f : row -> R) (w : cftab) : co := mkCo (f (w0 w)) (f (w1 w)) (f (w2 w)) (f (w3 w)) (f (w4 w)) (f (w5 w)) (f (w6 w)) (f (w7 w)) (f (w8 w)) (f (w9 w)).
(** 5922-5923 and 5954-5955 *)
Definition ct (T : R) (r : row) : R := r_m4 r * / T ^ 4 + r_m2 r * / T ^ 2 + r_m1 r * / T + r_0 r + r_1 r * T + r_2 r * T ^ 2.
(** 5956-5957 *)
Definition dct (T : R) (r : row) : R := - (4 * r_m4 r * / T ^ 5) - 2 * r_m2 r * / T ^ 3 - r_m1 r * / T ^ 2 + r_1 r + 2 * r_2 r * T.
(** 5958-5959 *)
Definition d2ct (T : R) (r : row) : R := 20 * r_m4 r * / T ^ 6 + 6 * r_m2 r * / T ^ 4 + 2 * r_m1 r * / T ^ 3 + 2 * r_2 r.

(** *** Pressure, 5914-5942, and Helmholtz, 5947-6035 *)
(** the polynomials repeated in both, of the coefficients or of their temperature derivatives *)
Definition pden (c : co) (rho : R) : R := a1 c + a2 c * rho + a3 c * rho ^ 2 + a4 c * rho ^ 3 + a5 c * rho ^ 4.
Definition pnum (c : co) (rho : R) : R := a2 c + 2 * a3 c * rho + 3 * a4 c * rho ^ 2 + 4 * a5 c * rho ^ 3.
Definition pnum2 (c : co) (rho : R) : R := 2 * a3 c + 6 * a4 c * rho + 12 * a5 c * rho ^ 2.
(** 5926-5928 *)
Definition pred (c : co) (rho : R) : R := rho + a0 c * rho ^ 2 - rho ^ 2 * ((pnum c rho) / (pden c rho) ^ 2) + a6 c * rho ^ 2 * exp (- a7 c * rho) + a8 c * rho ^ 2 * exp (- a9 c * rho).
(** 5929-5936 *)
Definition dpred (c : co) (rho : R) : R := 1 + 2 * a0 c * rho - 2 * rho * (pnum c rho) / (pden c rho) ^ 2 - rho ^ 2 * (pnum2 c rho) / (pden c rho) ^ 2 + 2 * rho ^ 2 * (pnum c rho) ^ 2 / (pden c rho) ^ 3 + 2 * a6 c * rho * exp (- a7 c * rho) - a6 c * rho ^ 2 * a7 c * exp (- a7 c * rho) + 2 * a8 c * rho * exp (- a9 c * rho) - a8 c * rho ^ 2 * a9 c * exp (- a9 c * rho).
(** 5938 and 5939; a zero denominator makes both not a number *)
Definition stp_pressure (w : cftab) (T rho : R) : option (R * R) :=
  let c := each (ct T) w in if Req_EM_T (pden c rho) 0 then None else Some (pred c rho * (Rg * T), dpred c rho * (Rg * T)).
(** 5962-6032: Phi and its derivatives; c, d, e are the coefficients with their first and second derivatives *)
Record ptable := mkPhi { p_0 : R; p_D : R; p_DD : R; p_T : R; p_TT : R; p_DT : R; p_DDD : R; p_DDT : R; p_DTT : R }.
Definition phi_0 (c : co) (rho : R) : R := a0 c * rho + (1 / (pden c rho) - 1 / a1 c) - (a6 c / a7 c) * (exp (- a7 c * rho) - 1) - (a8 c / a9 c) * (exp (- a9 c * rho) - 1).
Definition phi_D (c : co) (rho : R) : R := a0 c - 1 / (pden c rho) ^ 2 * (pnum c rho) + a6 c * exp (- a7 c * rho) + a8 c * exp (- a9 c * rho).
Definition phi_DD (c : co) (rho : R) : R := 2 / (pden c rho) ^ 3 * (pnum c rho) ^ 2 - 1 / (pden c rho) ^ 2 * (pnum2 c rho) - a6 c * a7 c * exp (- a7 c * rho) - a8 c * a9 c * exp (- a9 c * rho).
Definition phi_T (c d : co) (rho : R) : R := a0 d * rho - 1 / (pden c rho) ^ 2 * (pden d rho) + 1 / a1 c ^ 2 * a1 d - a6 d / a7 c * (exp (- a7 c * rho) - 1) + a6 c / a7 c ^ 2 * (exp (- a7 c * rho) - 1) * a7 d + a6 c / a7 c * a7 d * rho * exp (- a7 c * rho) - a8 d / a9 c * (exp (- a9 c * rho) - 1) + a8 c / a9 c ^ 2 * (exp (- a9 c * rho) - 1) * a9 d + a8 c / a9 c * a9 d * rho * exp (- a9 c * rho).
Definition phi_TT (c d e : co) (rho : R) : R := - 2 / a1 c ^ 3 * a1 d ^ 2 + 2 / (pden c rho) ^ 3 * (pden d rho) ^ 2 - a8 e / a9 c * (exp (- a9 c * rho) - 1) - a6 e / a7 c * (exp (- a7 c * rho) - 1) + 2 * a6 d / a7 c ^ 2 * (exp (- a7 c * rho) - 1) * a7 d + a0 e * rho - 1 / (pden c rho) ^ 2 * (pden e rho) - 2 * a8 c / a9 c ^ 2 * a9 d ^ 2 * rho * exp (- a9 c * rho) + a8 c / a9 c ^ 2 * (exp (- a9 c * rho) - 1) * a9 e - 2 * a8 c / a9 c ^ 3 * (exp (- a9 c * rho) - 1) * a9 d ^ 2 + 2 * a8 d / a9 c * a9 d * rho * exp (- a9 c * rho) + 2 * a8 d / a9 c ^ 2 * (exp (- a9 c * rho) - 1) * a9 d - a6 c / a7 c * a7 d ^ 2 * rho ^ 2 * exp (- a7 c * rho) + a6 c / a7 c * a7 e * rho * exp (- a7 c * rho) - 2 * a6 c / a7 c ^ 2 * a7 d ^ 2 * rho * exp (- a7 c * rho) + a6 c / a7 c ^ 2 * (exp (- a7 c * rho) - 1) * a7 e - 2 * a6 c / a7 c ^ 3 * (exp (- a7 c * rho) - 1) * a7 d ^ 2 + 2 * a6 d / a7 c * a7 d * rho * exp (- a7 c * rho) + 1 / a1 c ^ 2 * a1 e - a8 c / a9 c * a9 d ^ 2 * rho ^ 2 * exp (- a9 c * rho) + a8 c / a9 c * a9 e * rho * exp (- a9 c * rho).
Definition phi_DT (c d : co) (rho : R) : R := a0 d + 2 / (pden c rho) ^ 3 * (pden d rho) * (pnum c rho) - 1 / (pden c rho) ^ 2 * (pnum d rho) + a6 d * exp (- a7 c * rho) - a6 c * a7 d * rho * exp (- a7 c * rho) + a8 d * exp (- a9 c * rho) - a8 c * a9 d * rho * exp (- a9 c * rho).
Definition phi_DDD (c : co) (rho : R) : R := - 6 / (pden c rho) ^ 4 * (pnum c rho) ^ 3 + 6 / (pden c rho) ^ 3 * (pnum c rho) * (pnum2 c rho) - 1 / (pden c rho) ^ 2 * (6 * a4 c + 24 * a5 c * rho) + a6 c * a7 c ^ 2 * exp (- a7 c * rho) + a8 c * a9 c ^ 2 * exp (- a9 c * rho).
Definition phi_DDT (c d : co) (rho : R) : R := - 6 / (pden c rho) ^ 4 * (pden d rho) * (pnum c rho) ^ 2 + 4 / (pden c rho) ^ 3 * (pnum d rho) * (pnum c rho) + 2 / (pden c rho) ^ 3 * (pden d rho) * (pnum2 c rho) - 1 / (pden c rho) ^ 2 * (pnum2 d rho) - a6 d * a7 c * exp (- a7 c * rho) - a6 c * a7 d * exp (- a7 c * rho) + a6 c * a7 d * rho * a7 c * exp (- a7 c * rho) - a8 d * a9 c * exp (- a9 c * rho) - a8 c * a9 d * exp (- a9 c * rho) + a8 c * a9 d * rho * a9 c * exp (- a9 c * rho).
Definition phi_DTT (c d e : co) (rho : R) : R := 2 / (pden c rho) ^ 3 * (pden e rho) * (pnum c rho) + a0 e - 2 * a8 d * a9 d * rho * exp (- a9 c * rho) - a6 c * a7 e * rho * exp (- a7 c * rho) + a6 c * a7 d ^ 2 * rho ^ 2 * exp (- a7 c * rho) - 6 / (pden c rho) ^ 4 * (pden d rho) ^ 2 * (pnum c rho) + 4 / (pden c rho) ^ 3 * (pden d rho) * (pnum d rho) + a6 e * exp (- a7 c * rho) - 1 / (pden c rho) ^ 2 * (pnum e rho) - 2 * a6 d * a7 d * rho * exp (- a7 c * rho) + a8 c * a9 d ^ 2 * rho ^ 2 * exp (- a9 c * rho) - a8 c * a9 e * rho * exp (- a9 c * rho) + a8 e * exp (- a9 c * rho).
Definition phi_of (c d e : co) (rho : R) : ptable :=
  mkPhi (phi_0 c rho) (phi_D c rho) (phi_DD c rho) (phi_T c d rho) (phi_TT c d e rho) (phi_DT c d rho) (phi_DDD c rho) (phi_DDT c d rho) (phi_DTT c d e rho).
(** the quantities the formulas divide by *)
Definition divisors (c : co) (rho : R) : list R := [pden c rho; a1 c; a7 c; a9 c].
Definition some_zero (l : list R) : bool := existsb (fun x => if Req_EM_T x 0 then true else false) l.
Definition helmholtz (w : cftab) (T rho : R) : option ptable :=
  let c := each (ct T) w in if some_zero (divisors c rho) then None else Some (phi_of c (each (dct T) w) (each (d2ct T) w) rho).

(** *** state functions, 5578-5588 and 5688-5698; P in bar *)
Definition stp_props (T P rho : R) (h : ptable) : fug :=
  let p := P / 10 in
  let dard := Rg * T * p_D h in let dardd := Rg * T * p_DD h in let dart := Rg * (p_T h * T + p_0 h) in
  let dartt := Rg * (p_TT h * T + 2 * p_T h) in let dardt := Rg * (p_DT h * T + p_D h) in
  let lnfug := ln rho + p_0 h + p / (rho * Rg * T) + ln (Rg * T) - 1 in
  let fugc := exp lnfug / p in let pig := rho * Rg * T in
  let g := ln fugc * Rg * T in let s := - dart + Rg * ln (p / pig) in
  let cv := - T * dartt - Rg in
  let cp := cv + Rg * (1 + rho / Rg * dardt) ^ 2 / (1 + 2 * rho / (Rg * T) * dard + rho ^ 2 / (Rg * T) * dardd) in
  mkFug fugc g (g + T * s) s (1 / rho / 10) cp.

(** 5589-5599 and 5699-5709, stored for mixtures 5611-5621: derivatives of the density by T and by p in MPa *)
Record rtab := mkRt { rh_T : R; rh_TT : R; rh_P : R; rh_PP : R; rh_TP : R }.
Definition stp_rho (T rho : R) (h : ptable) : rtab :=
  let dard := Rg * T * p_D h in let dardd := Rg * T * p_DD h in let darddd := Rg * T * p_DDD h in
  let dardt := Rg * (p_DT h * T + p_D h) in let darddt := Rg * (p_DDT h * T + p_DD h) in let dardtt := Rg * (p_DTT h * T + 2 * p_DT h) in
  let dpr := Rg * T + 2 * rho * dard + rho ^ 2 * dardd in let dprr := 2 * dard + 4 * rho * dardd + rho ^ 2 * darddd in
  let dpt := rho * Rg + rho ^ 2 * dardt in let dptt := rho ^ 2 * dardtt in let dprt := Rg + 2 * rho * dardt + rho ^ 2 * darddt in
  mkRt (-1 * (1 / dpr) * dpt) ((dpt - dptt + dpt * (dprt - dpr) * / dpr) * / dpr + (dprt - dpt * dprr * / dpr) * / dpr ^ 2 * dpt)
    (1 / dpr) (-1 * dprr * / dpr ^ 3) (- / dpr - (dprt - dpr) * / dpr ^ 2 + dprr * dpt * / dpr ^ 3).

(** *** density *)
(** 5057-5060, g/mol *)
Definition mw_h2o : R := 18015268 / 1000000.
Definition mw_co2 : R := 440098 / 10000.
(** 5527, 5528 and 5638, 5639, also 5853, 5854 and 5883, 5884 *)
Definition rho_min (mw : R) : R := / 10 ^ 20 / 1000 / mw.
Definition rho_max (top mw : R) : R := top / 1000 / mw.
(** 5558-5561, also 5875-5878 and 5902-5905 *)
Definition clamp (lo hi x : R) : R := let y := if Rlt_dec x lo then lo else x in if Rlt_dec hi y then hi else y.
(** PsatH2O 6164-6205: saturation pressure in MPa, densities of liquid and vapour in kg/m3; Pc in MPa, T < Tc *)
Definition psat_h2o (Tc Pc T : R) : R :=
  let tau := 1 - T / Tc in
  exp (Tc / T * (-785951783 / 100000000 * tau + 184408259 / 100000000 * Rpower tau (3 / 2) - 117866497 / 10000000 * tau ^ 3 + 226807411 / 10000000 * Rpower tau (7 / 2)
    - 159618719 / 10000000 * tau ^ 4 + 180122502 / 100000000 * Rpower tau (15 / 2))) * Pc.
Definition rhol_h2o (Tc T : R) : R :=
  let tau := 1 - T / Tc in
  (1 + 199274064 / 100000000 * Rpower tau (1 / 3) + 109965342 / 100000000 * Rpower tau (2 / 3) - 510839303 / 1000000000 * Rpower tau (5 / 3)
    - 175493479 / 100000000 * Rpower tau (16 / 3) - 455170352 / 10000000 * Rpower tau (43 / 3) - 674694450 / 1000 * Rpower tau (110 / 3)) * 322.
Definition rhov_h2o (Tc T : R) : R :=
  let tau := 1 - T / Tc in
  exp (-203150240 / 100000000 * Rpower tau (2 / 6) - 268302940 / 100000000 * Rpower tau (4 / 6) - 538626492 / 100000000 * Rpower tau (8 / 6)
    - 172991605 / 10000000 * Rpower tau (18 / 6) - 447586581 / 10000000 * Rpower tau (37 / 6) - 639201063 / 10000000 * Rpower tau (71 / 6)) * 322.
(** PsatCO2 6210-6244 *)
Definition psat_co2 (Tc Pc T : R) : R :=
  let tau := 1 - T / Tc in
  exp (Tc / T * (-70602087 / 10000000 * tau + 19391218 / 10000000 * Rpower tau (3 / 2) - 16463597 / 10000000 * tau ^ 2 - 32995634 / 10000000 * tau ^ 4)) * Pc.
Definition rhol_co2 (Tc T : R) : R :=
  let tau := 1 - T / Tc in
  exp (19245108 / 10000000 * Rpower tau (34 / 100) - 62385555 / 100000000 * Rpower tau (1 / 2) - 32731127 / 100000000 * Rpower tau (10 / 6) + 39245142 / 100000000 * Rpower tau (11 / 6)) * (4676 / 10).
Definition rhov_co2 (Tc T : R) : R :=
  let tau := 1 - T / Tc in
  exp (-17074879 / 10000000 * Rpower tau (34 / 100) - 82274670 / 100000000 * Rpower tau (1 / 2) - 46008549 / 10000000 * tau - 10111178 / 1000000 * Rpower tau (7 / 3) - 29742252 / 1000000 * Rpower tau (14 / 3)) * (4676 / 10).
(** DensityGuess 5844-5909: the guess in kg/m3 at pressure p in MPa; Pc in MPa *)
Definition guess_h2o (Tc Pc T p : R) : R :=
  if Rlt_dec T Tc then (if Rlt_dec p (psat_h2o Tc Pc T) then rhov_h2o Tc T else rhol_h2o Tc T)
  else if Rlt_dec p 400 then 1000 / (T - 27315 / 100) * 2 * p else 800.
Definition guess_co2 (Tc Pc T p : R) : R :=
  if Rlt_dec T Tc then (if Rlt_dec p (psat_co2 Tc Pc T) then rhov_co2 Tc T else rhol_co2 Tc T)
  else p / Pc * Pc * 1000 / (1889241 / 10000000 * (T / Tc) * Tc).
(** the outcome of the iteration: a density, not converged (iErr 2), not a number *)
Inductive dens := Dfound (rho : R) | Dfail | Dnan.
Definition stp_tol : R := / 10 ^ 10.
(** 5541-5563 and 5651-5673; the body runs at most 999 times.  A zero gradient divides by zero: the sign of that zero
    decides the next density, so the model stops with [Dnan] *)
Fixpoint stp_loop (press : R -> option (R * R)) (lo hi p : R) (n : nat) (rho : R) : dens :=
  match n with
  | O => Dfail
  | Datatypes.S n => match press rho with
           | None => Dnan
           | Some (q, g) =>
               if Req_EM_T g 0 then Dnan else
               let rho' := clamp lo hi (rho + - (q - p) / g) in
               if Rlt_dec stp_tol (Rabs (1 - q / p)) then stp_loop press lo hi p n rho' else Dfound rho'
           end
  end.
Definition stp_density (w : cftab) (mw top guess T p : R) : dens :=
  let lo := rho_min mw in let hi := rho_max top mw in stp_loop (stp_pressure w T) lo hi p 999 (clamp lo hi (guess / 1000 / mw)).

(** *** the whole *)
(** what the caller receives: numbers, memory never written, not a number *)
Inductive sres := Sval (f : fug) | Suninit | Snan.
(** FugacityH2O 5516-5622 and FugacityCO2 5627-5732; on failure Fugpure is left unwritten *)
Definition stp_fluid (w : cftab) (mw top : R) (guess : R -> R -> R) (T P : R) : sres :=
  match stp_density w mw top (guess T (P / 10)) T (P / 10) with
  | Dfail => Suninit
  | Dnan => Snan
  | Dfound rho => match helmholtz w T rho with None => Snan | Some h => Sval (stp_props T P rho h) end
  end.
(** FugacityPT 5469-5511 for the codes GasSTP.cpp:16-17 passes; Pc in bar *)
Definition stp_pure (formula : string) (Tc Pc T P : R) : sres :=
  match stp_code formula with
  | None => Suninit
  | Some code =>
      let p := P / 10 in
      if (if Rlt_dec T 200 then true else false) || (if Rlt_dec 2000 T then true else false) || (if Rlt_dec p (/ 10 ^ 20) then true else false) || (if Rlt_dec 10000 p then true else false) then Suninit
      else if ascii_dec code "V" then stp_fluid cf_h2o mw_h2o 1800 (guess_h2o Tc (Pc / 10)) T P
      else stp_fluid cf_co2 mw_co2 2400 (guess_co2 Tc (Pc / 10)) T P
  end.
(** STPCalcFugPure 6251-6277: the error code is ignored by GasSTP.cpp:27 *)
Definition stp_calc (formula : string) (Tmin Tc Pc T P : R) : sres :=
  if (if Rle_dec Tmin T then true else false) && (if Rlt_dec T 10000 then true else false) && (if Rle_dec (1 / 100000) P then true else false) && (if Rlt_dec P 100000 then true else false)
  then stp_pure formula Tc Pc T P else Sval (mkFug 1 0 0 0 (831451 / 100000 * T / P) 0).
