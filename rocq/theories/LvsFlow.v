(** Model: saturated water near the critical point and the loops around it (WaterHGK-JNgems.cpp:637-727 Pfind, 802-858 denLVS, 1088-1105 TsLVS, 1162-1186 LVSsat, 1221-1243 thmLVS for isat = 1, 1539-1600 LVSeqn, 1793-1924 conver, 1971-2041 rtheta).  Definitions only. *)
From Coq Require Import Bool Reals List.
From Verif Require Import LvsModel.
Import ListNotations.
Open Scope R_scope.

Section Flow.
Variable c : lvs.
(** *** Pfind with isat = 1 (680-694, 700-719): theta = -1, amu = 0 *)
Definition coex_r (T : R) : R := dTw c T / (1 - l_b2 c).
Definition sat_rho (T : R) (th : R) : R :=
  th * (l_k0 c * Rpower (coex_r T) (l_b c) + l_k1 c * Rpower (coex_r T) (l_bi c)) + l_c c * (s0 c (coex_r T) th + s1 c (coex_r T) th) + (1 + l_p11 c * dTw c T).
Definition sat_Pw (T : R) : R := Pw0 c T + 0 + dPw c (coex_r T) (-1).
Definition sat_P (T : R) : R := sat_Pw T * l_Pcon c * T.
Definition sat_slope (T : R) : R :=
  let rho := sat_rho T (-1) in
  let Uw := dP0dT c T - rho * dM0dT c T + l_p11 c * 0 + s0 c (coex_r T) (-1) + s1 c (coex_r T) (-1) in
  l_Pcon c * (sat_Pw T - Tw c T * (Uw + rho * dM0dT c T)).
(** denLVS with isat = 1 (847-855); s of the last ss, whose theta is squared *)
Definition rho1_ (T th : R) : R := 1 + l_p11 c * dTw c T + l_c c * (s0 c (coex_r T) th + s1 c (coex_r T) th).
Definition rho2_ (T : R) : R := l_k0 c * Rpower (coex_r T) (l_b c) + l_k1 c * Rpower (coex_r T) (l_bi c).
Definition Dvap (T : R) : R := l_rc c * (rho1_ T (-1) - rho2_ T).
Definition Dliq (T : R) : R := l_rc c * (rho1_ T (-1) + rho2_ T).
(** thmLVS with isat = 1 (1226-1243): the density from r and theta, the heat of vaporisation *)
Definition thmSat (T th : R) : therm := thmLVS c T (sat_rho T th * l_rc c) (coex_r T) th.
Definition sat_heat (T th : R) : R :=
  let rho := sat_rho T th in
  let Uw := dP0dT c T - rho * dM0dT c T + l_p11 c * 0 + s0 c (coex_r T) th + s1 c (coex_r T) th in
  let dPdT2 := sat_Pw T - Tw c T * (Uw + rho * dM0dT c T) in
  1000 * T * (l_Pcon c * dPdT2) * (1 / Dvap T - 1 / Dliq T).

(** *** conver in the two-phase region (1822-1850), Pfind after it (716-725): what becomes of d2.dPdT *)
Definition dtstin (T : R) : R := 1 - 1 / ((T - l_Tc c) / l_Tc c + 1).
Definition cv_r (T : R) : R := if Rle_dec (dtstin T) 0 then dtstin T / (1 - l_b2 c) else dtstin T.
Definition cv_th (T : R) : R := if Rle_dec (dtstin T) 0 then 1 else 0.
Definition rhodit (T : R) : R := 1 + l_p11 c * dtstin T + l_c c * s0 c (cv_r T) (cv_th T) + l_c c * s1 c (cv_r T) (cv_th T).
Definition twofaz (T : R) : R := l_k0 c * Rpower (cv_r T) (l_b c) + l_k1 c * Rpower (cv_r T) (l_bi c).
(** the early return: Some theta *)
Definition conver_dome (T rho : R) : option R :=
  let drho := rho - rhodit T in
  if Rle_dec (dtstin T) 0 then if Rle_dec (Rabs drho) (twofaz T) then Some (drho * Rabs drho) else None else None.
(** d2.dPdT after Pfind(0, T, DD), given the theta conver left: unchanged for |theta| < 1, else the value computed *)
Definition slope_after (th computed before : R) : R := if Rlt_dec (Rabs th) 1 then before else computed.

(** *** the loop of TsLVS (1094-1103): [newton T] is the pair of dT and the temperature after the step and the cap *)
Definition ts_next (pf slope P T : R) : R * R := let dT := (pf - P) / slope in (dT, Rmin (T - dT) (l_Tc c)).
End Flow.
Fixpoint ts_loop (newton : R -> R * R) (fuel i : nat) (T : R) : option R :=
  match fuel with
  | O => None
  | S f => let (dT, T') := newton T in
           if (20 <? S i)%nat then ts_loop newton f (S i) T' else if Rlt_dec (1 / 10 ^ 8) (Rabs (dT / T')) then ts_loop newton f (S i) T' else Some T'
  end.
(** the loop that was meant: stop after 20 rounds or when converged *)

(** *** the loop of LVSeqn (1546-1599): [eq s] tells whether the liquid and the vapour density agree in a round with isat = 1 *)
Fixpoint eqn_loop {A : Type} (round : A -> bool -> A) (equal : A -> bool) (fuel : nat) (s : A) (isat cpoint sW : bool) : option A :=
  match fuel with
  | O => None
  | S f =>
      let s' := round s isat in
      let isat' := if isat then negb (equal s') else cpoint in
      let cpoint' := if isat then cpoint || equal s' else cpoint in
      let sW' := if isat then sW || equal s' else sW in
      if sW' then eqn_loop round equal f s' isat' cpoint' sW' else Some s'
  end.

(** *** denLVS with isat = 0 (821-844): [pf D] is the pressure, the slope dP/dD and the phase that Pfind leaves *)
Definition den_Dmin : R := 199.775.
Definition den_Dmax : R := 420.04.
Definition clamp (D : R) : R := let D1 := if Rlt_dec D den_Dmin then den_Dmin else D in if Rlt_dec den_Dmax D1 then den_Dmax else D1.
Fixpoint den_loop (pf : R -> R * R * bool) (P : R) (n : nat) (D : R) : R * bool :=
  match n with
  | O => (D, false)
  | S m =>
      let '(Pnext, slope, two) := pf D in
      let Pdif := Pnext - P in
      if two then if Rle_dec (Rabs Pdif) 0 then (D, true) else den_loop pf P m (if Rlt_dec Pdif 0 then den_Dmax else den_Dmin)
      else let delD := - Pdif / slope in let D' := clamp (D + delD) in if Rlt_dec (Rabs (delD / D')) (1 / 10 ^ 6) then (D', true) else den_loop pf P m D'
  end.
(** the caller looks at the density only *)
Definition denLVS_ (rc : R) (pf : R -> R * R * bool) (P : R) : R := fst (den_loop pf P 20 rc).

(** *** rtheta (1971-2041), the fixed point of its iteration; em = k0, bee = sqrt b2 *)
Section Rtheta.
Variables (c : lvs) (rho Tee : R).
Definition rt_bee : R := sqrt (l_b2 c).
Definition rt_c : R := - rho * rt_bee / l_k0 c / Rpower (Rabs Tee) (l_b c).
Definition rt_dz (z : R) : R := let z2 := z * z in let z3 := 1 - z2 in z3 * (z + rt_c * Rpower (Rabs z3) (l_b c)) / (z3 + 2 * l_b c * z2).
(** the first guess, 1993-2006 *)
Definition rt_z0 : R :=
  (if Rlt_dec Tee 0 then 1 - (1 - rt_bee) * Tee / (1 - l_b2 c) * Rpower (l_k0 c / Rabs rho) (1 / l_b c) else Rpower (1 + Tee * Rpower (l_k0 c / rt_bee / Rabs rho) (1 / l_b c)) (- l_b c)) * rho / Rabs rho.
(** the answers: MET498, MET495, MET496 *)
Definition rt_498 (z : R) : R * R := (Rabs (Tee / (1 - z * z)), z / rt_bee).
Definition rt_495 : R * R := let th := rho / Rabs rho / rt_bee in (Rpower (rho / (l_k0 c * th)) (1 / l_b c), th).
Definition rt_496 : R * R := (Rabs (Tee / (1 - l_b2 c)), rho / Rabs rho).
End Rtheta.
