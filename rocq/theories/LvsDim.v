(** Records of water near the critical point: dimLVS with triple, Substances/Solvent/WaterHGK-JNgems.cpp 1438-1500, 2479-2490, as LVSeqn 1564-1586 calls it.
    The units are those of calculateWaterHGKgems (404-408): un.ft = 1, un.fs = 100, the others in GemsModel and HgkTrans.
    Without a conductivity the Prandtl number of the code is not a number; the model's quotient means nothing then.  cpswap is left out: the loop that reaches it does not end (C91).  Definitions only.  *)
From Coq Require Import Bool Reals.
From Verif Require Import GemsModel GemsRun HgkSat HgkTrans LvsModel LvsFlow.
Open Scope R_scope.

(** 1445-1446, 1464-1483: the density of the transport and dielectric properties, kg/m3; [D] is sa.DH2O *)
Definition dens_of (th D Dv Dl : R) : R := if Req_EM_T (Rabs th) 1 then if Rlt_dec th 0 then Dv else Dl else D.
(** 1450-1458, 1462, 1484-1486, 1494, 1496-1497; [P] in MPa, [dA] the value of dalLVS *)
Definition dimLVS (w : triple) (T P dk dA : R) (h : LvsModel.therm) : wprops :=
  let tri := tpset w in
  let S := h_S h * un_fh * 1 + tr_S tri in
  let TS := T * S - Ttr * tr_S tri in
  let H := h_H h * un_fh in
  let U := h_U h * un_fh in
  let beta := h_beta h / un_fp in
  mkWp (U - TS + tr_A tri) (H - TS + tr_G tri) S (U + tr_U tri) (H + tr_H tri) (h_Cv h * un_fh * 1) (h_Cp h * un_fh * 1) (h_speed h * 100) beta (h_alpha h) dA
       (born92 T (P * 10) (dk / 1000) (h_beta h / 10) (h_alpha h) dA) (h_alpha h / beta).
(** 1463-1465, 1467-1483, 1487-1493 *)
Definition transLVS (T P th dk : R) (h : LvsModel.therm) : trans :=
  let pbars := P * 10 in
  let CpJKkg := h_Cp h * 1000 in
  let betaPa := h_beta h / 10 ^ 6 in
  let surf := if Req_EM_T (Rabs th) 1 then if Rlt_dec th 0 then Some 0 else option_map (fun s => s * un_fst) (surten T) else Some 0 in
  let Viscw := viscos T pbars dk betaPa * un_fvd in
  let Tcondw := thcond T pbars dk (h_alpha h) betaPa * un_fc * 1 in
  mkTrans Viscw Tcondw surf (Tcondw / un_fc / 1 / (dk * CpJKkg) * un_fvk) (Viscw / un_fvd * CpJKkg / (Tcondw / un_fc / 1)) (Viscw / un_fvd / dk * un_fvk).

(** LVSeqn 1574-1584: thmLVS and dimLVS for the vapour (theta = -1) and the liquid (theta = 1); thmLVS leaves sa.DH2O as in LvsFlow.thmSat *)
Section Saturated.
Variables (c : lvs) (w : triple) (T : R).
Definition sat_dens (th : R) : R := dens_of th (sat_rho c T th * l_rc c) (Dvap c T) (Dliq c T).
Definition sat_dA (th : R) : R := dalLVS c (sat_rho c T th * l_rc c) T (sat_P c T * 10 / 10) (h_alpha (thmSat c T th)) (coex_r c T) th.
Definition sat_wp (th : R) : wprops := dimLVS w T (sat_P c T) (sat_dens th) (sat_dA th) (thmSat c T th).
Definition sat_tr (th : R) : trans := transLVS T (sat_P c T) th (sat_dens th) (thmSat c T th).
End Saturated.
