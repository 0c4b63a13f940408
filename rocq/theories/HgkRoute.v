(** Which requests the water of Haar, Gallagher and Kell answers, with which equation, and which record a state reads when it is the near-critical
    one: calculateWaterHGKgems, valid, valTP, Psublm, crtreg, WaterHGK-JNgems.cpp.  The near-critical equation itself (LVSeqn) is a parameter:
    its record and density, or two of each at saturation.
    Outside: valTD (iopt = 1 with isat = 0 does not occur), the test of a pointer at 562 (never true, as the specification is fixed), the change of
    aSpc.isat inside LVSsat, which C91 shows cannot happen.  *)
From Coq Require Import List Bool Arith Reals.
From Verif Require Import GemsModel GemsRun HgkSat HgkTrans.
Open Scope R_scope.

(** tolerances and limits, 272-307 *)
Definition FPTOL : R := 1 / 10 ^ 7.
Definition sPli1 : R := - (138180804975562958 / 10 ^ 15).
Definition sPli37 : R := 174536875 / 10 ^ 6.
Definition Tli13 : R := -15.
Definition Pli13 : R := 20741 / 10.
Definition Ptripl : R := 611731677193563 / 10 ^ 17.
(** 391-392: centigrade *)
Definition lift_0 (T : R) : R := if gt (1 / 100) T && le 0 T then 1 / 100 else T.
(** Psublm, 863-873; bar *)
Definition Psublm (Temp : R) : R :=
  let TT := Temp + 2731 / 10 in
  Rpower 10 (- (24455646 / 10 ^ 4) / TT + 82312 / 10 ^ 4 * (4342945 / 10 ^ 7) * ln TT - 1677006 / 10 ^ 8 * TT + 120514 / 10 ^ 10 * TT * TT - 6757169 / 10 ^ 6) * (133322 / 10 ^ 8).
(** valTP, 953-985; centigrade, bar *)
Definition valTP (T P : R) : bool :=
  if gt (T - FPTOL) 2250 || gt (-20) (T + FPTOL) || gt (P - FPTOL) 30000 || gt (1 / 1000) (P + FPTOL) then false
  else if Rle_dec Pli13 P then le (P - FPTOL) (sPli37 * (T - Tli13) + Pli13)
  else if Rle_dec Ptripl P then le (sPli1 * (T - Tli13) + Pli13) (P + FPTOL)
  else le (P - FPTOL) (Psublm T).
(** valid, 572-613, for (isat, iopt) = (0, 2) and (1, 1) *)
Definition valid (isat : bool) (T P : R) : bool :=
  if isat then le (Ttr - 27315 / 100) (T + FPTOL) && le (T - FPTOL) (Tc - 27315 / 100) else valTP T P.
(** crtreg, 990-1085, co->x 330-336; kelvin, MPa; [pf]: Pfind at saturation *)
Definition crtreg (pf : R -> R) (isat : bool) (T P : R) : bool :=
  if isat then le 643 T else
  if gt 643 T || gt T 695 then false else
  let Pmin := 209945691135940719 / 10 ^ 16 + 175777517046267848 / 10 ^ 18 * (T - 643) in
  let Pmax := 215814057875264120 / 10 ^ 16 + 380293646126229135 / 10 ^ 18 * (T - 6453 / 10) in
  if le Pmin P && le P Pmax then true
  else if le Pmin P && le T (6453 / 10) then le P (pf T) else false.

(** calculateWaterHGKgems 386-470: an error ([None]), or the saturated flag, kelvin, bar, and whether the near-critical equation is used *)
Definition route (pf : R -> R) (T P : R) : option (bool * R * R * bool) :=
  let s := set_P PsHGK (T + 27315 / 100) P in
  let T' := lift_0 T in
  if valid (fst s) T' (snd s) then Some (fst s, T' + 27315 / 100, snd s, crtreg pf (fst s) (T' + 27315 / 100) (snd s / 10)) else None.

(** what LVSeqn leaves, 1539-1600: one record in wr and its density in Dens[0], or those of both phases, the vapour in wr.  Densities in kg/m3.
    wl and Dens[1] are zero before (427, 437) *)
Inductive near (A : Type) := One (r : A) (d : R) | Two (liq vap : A) (dl dv : R).
Arguments One {A}. Arguments Two {A}.
(** 471-487: [zero] is the record memset leaves; the result is wl, Dens[1], wr, Dens[0] *)
Definition after {A : Type} (zero : A) (isat : bool) (Temp : R) (n : near A) : A * R * A * R :=
  let q := match n with One r d => (zero, 0, r, d) | Two l v dl dv => (l, dv, v, dl) end in
  let '(wl, d1, wr, d0) := q in
  let d0 := d0 / 1000 in
  let d1 := if isat then d1 / 1000 else d1 in
  if Rle_dec Temp Tc then (wr, d1, wl, d0) else (wr, d0, wr, d0).
(** 14-43, 51-92: the record and the density a state reads; [None]: neither branch *)
Definition reads {A : Type} (isat : bool) (state : nat) (x : A * R * A * R) : option (A * R) :=
  let '(wl, d1, wr, d0) := x in
  match isat, state with
  | true, 1%nat | false, 0%nat => Some (wl, d1)
  | true, 0%nat | false, 1%nat => Some (wr, d0)
  | _, _ => None
  end.
(** the density (kg/m3) and the volume (J/bar, 25, 40) of the output; a division by zero is [None] *)
Definition out_rho (d : R) : R := d * 1000.
Definition out_vol (d : R) : option R := if Req_EM_T d 0 then None else Some (1 / d * H2OMolarMass * (1 / 10)).
