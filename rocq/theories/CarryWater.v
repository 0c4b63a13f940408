(** The state of water with the derivatives its ThermoScalars carry:
      Substances/Solvent/Reaktoro/WaterThermoStateUtils.cpp:48-96 waterThermoState,
      Substances/Solvent/WaterHGKreaktoro.cpp:10-78 and WaterWP95reaktoro.cpp:9-83.
    T in K, P in Pa.  The table of the Helmholtz energy and the density are handed in.  Definitions only. *)
From Coq Require Import Reals.
From Verif Require Import ThermoScalarModel WaterModel CarryReac.
Open Scope R_scope.
(** WaterHelmholtzState.hpp:25-56 *)
Record hts : Type := mkHts { g0 : TS; gT : TS; gD : TS; gTT : TS; gTD : TS; gDD : TS; gTTT : TS; gTTD : TS; gTDD : TS; gDDD : TS }.
(** WaterThermoState.hpp *)
Record wst : Type := mkWst {
  z_pD : TS; z_pT : TS; z_pDD : TS; z_pTD : TS; z_pTT : TS; z_d : TS; z_dT : TS; z_dP : TS; z_dTT : TS; z_dTP : TS; z_dPP : TS;
  z_V : TS; z_S : TS; z_A : TS; z_U : TS; z_H : TS; z_G : TS; z_cv : TS; z_cp : TS }.
(** 48-96 *)
Definition waterThermoStateTS (T P : R) (D : TS) (h : hts) : wst :=
  let t := Temperature T in let p := Pressure P in
  let pD := ts_add (ts_mul (d_mul_ts 2 D) (gD h)) (ts_mul (ts_mul D D) (gDD h)) in
  let pT := ts_mul (ts_mul D D) (gTD h) in
  let pDD := ts_add (ts_add (d_mul_ts 2 (gD h)) (ts_mul (d_mul_ts 4 D) (gDD h))) (ts_mul (ts_mul D D) (gDDD h)) in
  let pTD := ts_add (ts_mul (d_mul_ts 2 D) (gTD h)) (ts_mul (ts_mul D D) (gTDD h)) in
  let pTT := ts_mul (ts_mul D D) (gTTD h) in
  let dT := ts_div (ts_neg pT) pD in
  let dP := d_div_ts 1 pD in
  let dTT := ts_mul (ts_mul (ts_neg dT) dP) (ts_add (ts_add (ts_mul dT pDD) (d_mul_ts 2 pTD)) (ts_div pTT dT)) in
  let dTP := ts_mul (ts_mul (ts_neg dP) dP) (ts_add (ts_mul dT pDD) pTD) in
  let dPP := ts_mul (ts_mul (ts_mul (ts_neg dP) dP) dP) pDD in
  let S := ts_neg (gT h) in
  let U := ts_add (g0 h) (ts_mul t S) in
  let H := ts_add U (ts_div p D) in
  let G := ts_sub H (ts_mul t S) in
  let cv := ts_mul (ts_neg t) (gTT h) in
  let cp := ts_add cv (ts_div (ts_mul (ts_mul (ts_div t (ts_mul D D)) pT) pT) pD) in
  mkWst pD pT pDD pTD pTT D dT dP dTT dTP dPP (d_div_ts 1 D) S (g0 h) U H G cv cp.
(** ThermoPropertiesSubstance *)
Record mts : Type := mkMts { y_S : TS; y_H : TS; y_U : TS; y_G : TS; y_A : TS; y_V : TS; y_Cp : TS; y_Cv : TS }.
(** WaterHGKreaktoro.cpp:10-49, WaterWP95reaktoro.cpp:9-54 *)
Definition molarTS (Ttr T : R) (z : wst) (r : triple) : mts :=
  let Sw := d_mul_ts molarMass (z_S z) in let Hw := d_mul_ts molarMass (z_H z) in let Uw := d_mul_ts molarMass (z_U z) in
  let TSt := ts_mul (Temperature T) (ts_add_d Sw (t_S r)) in
  mkMts (ts_add_d Sw (t_S r)) (ts_add_d Hw (t_H r)) (ts_add_d Uw (t_U r)) (ts_add_d (ts_add_d (ts_sub Hw TSt) (Ttr * t_S r)) (t_G r))
    (ts_add_d (ts_add_d (ts_sub Uw TSt) (Ttr * t_S r)) (t_A r)) (ts_mul_d (ts_mul_d (z_V z) molarMass) 100000) (ts_mul_d (z_cp z) molarMass) (ts_mul_d (z_cv z) molarMass).
(** WaterHGKreaktoro.cpp:51-78, WaterWP95reaktoro.cpp:56-83; the four numbers that reactions read *)
Definition solventTS (z : wst) : wts :=
  let al := ts_div (ts_neg (z_dT z)) (z_d z) in
  mkWts (z_d z) al (ts_div (z_dP z) (z_d z)) (ts_add (ts_div (ts_neg (z_dTT z)) (z_d z)) (ts_mul al al)).
