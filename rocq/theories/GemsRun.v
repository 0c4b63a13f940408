(** How calculateWaterHGKgems of WaterHGK-JNgems.cpp picks the density and which record goes with it.
    Outside: the saturation solver pcorr (its pressure and liquid density are the oracles [ps] and [dll]),
    PsHGK (an oracle), the near-critical equation LVSeqn, and the saturated case isat = 1 beyond the choice of the pressure.  *)
From Coq Require Import List Bool Arith Reals.
From Verif Require Import GemsModel.
Open Scope R_scope.

(** calculateWaterHGKgems 389-421: [P] in bar, [Tk] in kelvin; the saturated flag and the pressure the caller gets back *)
Definition low_bar : R := 611732 / 100000000.
Definition set_P (PsHGK : R -> R) (Tk P : R) : bool * R :=
  let P1 := if Rlt_dec P low_bar then 0 else P in
  let psat := if Rle_dec Tk (647067 / 1000) then PsHGK Tk * 10 else 0 in
  if (if Req_EM_T (Rabs P1) 0 then true else if Rlt_dec (Rabs (Rabs P1 - Rabs psat)) (1 / 10 ^ 14) then true else false)
  then (true, PsHGK Tk * 10) else (false, P1).

(** denHGK 2204-2243: the density left in [d], the density at which base and resid were last called, the number of calls;
    [f_ok], not in the code, tells the return of line 2236 from the others *)
Record found := mkFound { f_dens : R; f_eval : R; f_count : nat; f_ok : bool }.
Definition close (guess dp : R) : bool :=
  (if Rlt_dec dp (1 / 10 ^ 8) then true else false)
  || ((if Rlt_dec (3 / 10) guess then true else false) && (if Rlt_dec dp (1 / 10 ^ 7) then true else false))
  || ((if Rlt_dec (7 / 10) guess then true else false) && (if Rlt_dec dp (1 / 10 ^ 6) then true else false)).
Definition clamp (d : R) : R := let e := if Rle_dec d 0 then 1 / 10 ^ 8 else d in if Rlt_dec (19 / 10) e then 19 / 10 else e.
Definition newton (P pp slope d : R) : R :=
  let s := if Rlt_dec (slope * (11 / 10)) (1 / 10) then 1 / 10 else slope * (11 / 10) in
  let x := (P - pp) / s in
  let x := if Rlt_dec (1 / 10) (Rabs x) then x * ((1 / 10) / Rabs x) else x in
  if Rle_dec (d + x) 0 then 1 / 10 ^ 8 else d + x.
Definition shift (guess d : R) : R := if Rle_dec (2967 / 10000) guess then d * (102 / 100) else d * (98 / 100).
Fixpoint den (fuel i : nat) (P guess T d : R) : found :=
  match fuel with
  | O => mkFound d d i false
  | S fuel =>
    let i := S i in
    let d := clamp d in
    let slope := dpdd (state_at T d) in
    if Rlt_dec 0 slope then
      if close guess (Rabs (1 - press T d / P)) then mkFound d d i true
      else let d' := newton P (press T d) slope d in if i <=? 30 then den fuel i P guess T d' else mkFound d' d i false
    else let d' := shift guess d in if i <=? 10 then den fuel i P guess T d' else mkFound d' d i false
  end.
(** at most 31 calls: the loop ends once i exceeds 30 *)
Definition denHGK (P guess T : R) : found := den 31 0 P guess T guess.

(** calcv2 1674-1712 and calcv3 1638-1669 with iopt <> 1: the guesses *)
Definition guess2 (T dll : R) : R := if Rlt_dec T tz then dll else 0.
Definition guess3 (T P ps dll : R) : R :=
  let ps' := if Rlt_dec T tz then ps else 20000 in
  if Rlt_dec ps' P then (if Rlt_dec T tz then dll else 0) else P / T / (4 / 10).
(** thmHGK and dimHGK for a density [d] with what the last call of base and resid, at [e], left in the members *)
Definition record_of (w : triple) (T P d e : R) : wprops := dim T P d (thm T d (base (bb T) e T) (resid T e) (ideal T)) w.
(** HGKeqn 1717-1766, isat = 0, iopt = 2 (HGKsat having found no saturation); [P] in MPa, [Psat] in bar.
    The record and the density of state 0 (wl, Dens[1]) and of state 1 (wr, Dens[0]): lines 14-43, 47-92 *)
Record outcome := mkOut { s0_w : wprops; s0_d : R; s1_w : wprops; s1_d : R }.
Definition HGKeqn (w : triple) (T P Psat ps dll : R) : outcome :=
  let f1 := denHGK P (guess2 T dll) T in
  let wl := record_of w T P (f_dens f1) (f_eval f1) in
  let f0 := denHGK P (guess3 T P ps dll) T in
  if (if Rlt_dec Psat (P * 10) then true else false) && (if Rlt_dec T (647126 / 1000) then true else false) then
    let f3 := denHGK P 0 T in
    mkOut wl (f_dens f0) (record_of w T P (f_dens f0) (f_eval f3)) (f_dens f3)
  else mkOut wl (f_dens f1) (record_of w T P (f_dens f0) (f_eval f0)) (f_dens f0).
