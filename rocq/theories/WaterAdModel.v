(** Model of one pass of the Newton loop of waterDensity (WaterUtils.cpp:62-73) over whole ThermoScalars, with the derivatives they carry.
    Definitions only. *)
From Coq Require Import Reals.
From Verif Require Import ThermoScalarModel WaterModel.
Open Scope R_scope.

(** 66-67; [hDv], [hDDv] are helmholtzD and helmholtzDD as returned by the model for (T, D) *)
Definition ad_f (P D hDv : TS) : TS := ts_div_d (ts_sub (ts_mul (ts_mul D D) hDv) P) wp_Pc.
Definition ad_df (D hDv hDDv : TS) : TS := ts_div_d (ts_add (ts_mul (d_mul_ts 2 D) hDv) (ts_mul (ts_mul D D) hDDv)) wp_Pc.
(** 69 *)
Definition ad_step (P D hDv hDDv : TS) : TS :=
  let f := ad_f P D hDv in let df := ad_df D hDv hDDv in
  if ltb (val f / val df) (val D) then ts_sub D (ts_div f df) else ts_div P (ts_mul D hDv).
