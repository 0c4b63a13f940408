(** Model of the check of temperature and pressure limits:
      Substance.cpp:34-44 and 324-336, Reaction.cpp:345-356, Common/Exception.cpp:115-153,
      Common/ParseJsonToData.cpp:568-578, the calls in Substances/Solids, Gases, Solute, and
      the density test of SoluteHKFgems.cpp:137-140, SoluteHKFreaktoro.cpp:141-144.
    std::to_string is the parameter [show].  T in K, P in Pa.  The amounts added to the properties by
    a model are arbitrary ThermoScalars here; only how they are combined matters for the messages.
    Definitions only. *)
From Coq Require Import Reals String Bool.
From Verif Require Import ThermoScalarModel EngineModel GasModel.
From Verif Require JsonModel.
Open Scope R_scope.

(** *** messages *)
(** Exception.cpp:117-118 and the same two lines for every property *)
Definition add_note (st : Status) (msg : string) (x : TS) : TS :=
  if status_eqb (fst (sta x)) st then mkTS (val x) (ddt x) (ddp x) (err x) (fst (sta x), (snd (sta x) ++ msg ++ "; ")%string) else x.
(** Exception.cpp:115-133 *)
Definition setMessageS (st : Status) (msg : string) (t : TPS) : TPS :=
  mkTPS (add_note st msg (G t)) (add_note st msg (A t)) (add_note st msg (U t)) (add_note st msg (H t))
        (add_note st msg (S t)) (add_note st msg (V t)) (add_note st msg (Cp t)) (add_note st msg (Cv t)).
(** Exception.cpp:135-153: the equilibrium constants are left out *)
Definition setMessageR (st : Status) (msg : string) (t : TPR) : TPR :=
  mkTPR (lnK t) (logK t) (add_note st msg (rG t)) (add_note st msg (rA t)) (add_note st msg (rU t)) (add_note st msg (rH t))
        (add_note st msg (rS t)) (add_note st msg (rV t)) (add_note st msg (rCp t)) (add_note st msg (rCv t)).

(** *** limits *)
(** Substance.cpp:34-44, Reaction.cpp:54-63 *)
Record limits : Type := mkLim { lowT : R; upT : R; lowP : R; upP : R }.
Definition ltb (a b : R) : bool := if Rlt_dec a b then true else false.
(** Substance.cpp:326-327, Reaction.cpp:347-348 *)
Definition beyond (l : limits) (T P : R) : bool := ltb (upP l) P || ltb (upT l) T || ltb P (lowP l) || ltb T (lowT l).
(** Substance.cpp:329-331, Reaction.cpp:350-352 *)
Definition note (show : R -> string) (name : string) (l : limits) : string :=
  (name ++ ": out of " ++ "T(" ++ show (lowT l) ++ "-" ++ show (upT l) ++ " K) and " ++
   "P(" ++ show (lowP l) ++ "-" ++ show (upP l) ++ " Pa) bounds")%string.
(** Substance.cpp:324-336 *)
Definition checkS (show : R -> string) (l : limits) (name : string) (T P : R) (t : TPS) : TPS :=
  if beyond l T P then setMessageS calculated (note show name l) t else t.
(** Reaction.cpp:345-356; it has no caller *)
Definition checkR (show : R -> string) (l : limits) (name : string) (T P : R) (t : TPR) : TPR :=
  if beyond l T P then setMessageR calculated (note show name l) t else t.
(** the limits of a substance read from JSON: "limitsTP" has lowerT and upperT only (ParseJsonToData.cpp:568-578);
    new Impl() (Substance.cpp:85, 89) sets the others to 0 *)
Definition json_limits (s : JsonModel.subst) : limits := mkLim (JsonModel.s_lowT s) (JsonModel.s_upT s) 0 0.

(** *** the models, as far as the messages depend on them *)
(** SolidMurnaghanHP98.cpp:49-53 *)
Definition murnaghan_ts (dg dh ds dv dc tk p : TS) (t : TPS) : TPS :=
  let h := ip_add (H t) dh in let v := ip_add (V t) dv in let s := ip_add (S t) ds in let u := ts_sub h (ts_mul p v) in
  mkTPS (ip_add (G t) dg) (ts_sub u (ts_mul tk s)) u h s v (ip_add (Cp t) dc) (Cv t).
(** SolidHPLandau.cpp:69-86: the volume is set, Cp is changed below the transition only *)
Definition landau_ts (dg dh ds v : TS) (dc : option TS) (tk p : TS) (t : TPS) : TPS :=
  let h := ip_add (H t) dh in let s := ip_add (S t) ds in let u := ts_sub h (ts_mul p v) in
  mkTPS (ip_add (G t) dg) (ts_sub u (ts_mul tk s)) u h s v (match dc with Some c => ip_add (Cp t) c | None => Cp t end) (Cv t).
(** SolidBerman88.cpp:30-45, away from the reference point *)
Definition berman_ts (rv vp dg dh ds dv tk p : TS) (t : TPS) : TPS :=
  let h := ip_add (ip_add (H t) vp) dh in let v := ip_add rv dv in let s := ip_add (S t) ds in let u := ts_sub h (ts_mul p v) in
  mkTPS (ip_add (ip_add (G t) vp) dg) (ts_sub u (ts_mul tk s)) u h s v (Cp t) (Cv t).
(** SolidBMGottschalk.cpp:173-180, away from the reference point *)
Definition birch_ts (dg dh ds dv tk p : TS) (t : TPS) : TPS :=
  let h := ip_add (H t) dh in let v := ip_add (V t) dv in let s := ip_add (S t) ds in let u := ts_sub h (ts_mul p v) in
  mkTPS (ip_add (G t) dg) (ts_sub u (ts_mul tk s)) u h s v (Cp t) (Cv t).
(** SoluteHKFgems.cpp:120-134, SoluteHKFreaktoro.cpp:124-138: a new record *)
Definition hkf_ts (g h s v u a c : TS) : TPS := mkTPS g a u h s v c c.

(** *** the calls: temperature and pressure handed to the check, from the values of TK and Pbar *)
(** Solids: SolidMurnaghanHP98.cpp:61, SolidHPLandau.cpp:88, SolidBerman88.cpp:47, SolidBMGottschalk.cpp:185 *)
Definition murnaghan_run show l dg dh ds dv dc (tk p : TS) t := checkS show l "Holland and Powell Murnaghan model" (val tk) (val p * 100000) (murnaghan_ts dg dh ds dv dc tk p t).
Definition landau_run show l dg dh ds v dc (tk p : TS) t := checkS show l "Holland and Powell Landau model" (val tk) (val p * bar_to_Pa) (landau_ts dg dh ds v dc tk p t).
Definition berman_run show l rv vp dg dh ds dv (tk p : TS) t := checkS show l "Berman multisite model" (val tk) (val p * 100000) (berman_ts rv vp dg dh ds dv tk p t).
Definition birch_run show l dg dh ds dv (tk p : TS) t := checkS show l "BMGottschalk model" (val tk) (val p * 100000) (birch_ts dg dh ds dv tk p t).
(** GasSRK.cpp:33 and the same line of the five others, which differ in the name: Pbar has been moved off 0 *)
Definition gas_run show l name f (tk p : TS) t := checkS show l name (val tk) (val (gas_pressure p) * bar_to_Pa) (gas_apply f tk p t).
(** SoluteHKFgems.cpp:136-140 and SoluteHKFreaktoro.cpp:140-144 *)
Definition water_note (rho : R) (t : TPS) : TPS :=
  if (if Rle_dec 1400 rho then true else false) || (if Rle_dec rho 600 then true else false)
  then setMessageS calculated "HKF model: outside of 600-1400 kg/m3 density of pure H2O interval" t else t.
Definition hkf_gems_run show l rho (tk p : TS) t := water_note rho (checkS show l "HKF model" (val tk) (val p * 100000) t).
Definition hkf_reaktoro_run show l rho (tk p : TS) t := water_note rho (checkS show l "HKF model" (val tk - 27315 / 100) (val p) t).
(** SoluteADgems.cpp:38 (the parameter tps is copied into state), 91-99 (new values of state), 102-104: the check works on tps *)
Definition ad_run show l (tk p : TS) (tps state : TPS) : TPS :=
  let tps' := checkS show l "Akinfiev and Diamond model" (val tk) (val p * 100000) tps in state.
