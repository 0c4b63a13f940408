(** Model of the gas and fluid models of a substance:
      Substances/Gases/GasSRK.cpp, GasPR78.cpp, GasPRSV.cpp, GasCORK.cpp, GasSTP.cpp, GasCGF.cpp and the
      pure-fluid part of the cubic equations of state in Substances/Gases/s_solmod2_.cpp
      (TSRKcalc 2825-3005 and 3220-3244, TPR78calc 3629-3818 and 4034-4058, TPRSVcalc 413-613 and 826-850).
    For TCORKcalc see CorkModel; the pure-fluid parts of TSTPcalc and TCGFcalc are not modelled here:
    in the frame the result of the call is an arbitrary record.  T in K, P in bar, volumes in J/bar.  [double] is [R];
    [x^n] stands for pow with a whole exponent, [Rpower] for pow with a positive base.
    A value computed with 0/0 is [None].  Definitions only. *)
From Coq Require Import Reals String Ascii List Bool.
From Verif Require Import ThermoScalarModel EngineModel.
Import ListNotations.
Open Scope R_scope.

(** *** the common frame *)
(** FugProps[0..5]: fugacity coefficient, residual G, H, S, the volume, residual Cp *)
Record fug : Type := mkFug { f_phi : R; f_g : R; f_h : R; f_s : R; f_v : R; f_c : R }.
(** GasSRK.cpp:12-13 and the same lines of the others *)
Definition gas_pressure (p : TS) : TS := if Req_EM_T (val p) 0 then ip_add_d p (1 / 100000) else p.
(** GasSRK.cpp:16-20: seven critical parameters are read; [None] is a read past the end *)
Fixpoint gas_loop (l : list R) (n : nat) : option (list R) :=
  match n with
  | O => Some []
  | Datatypes.S i => match gas_loop l i, nth_error l i with Some r, Some x => Some (app r [x]) | _, _ => None end
  end.
Definition gas_read (l : list R) : option (list R) := gas_loop l 7.
(** GasSRK.cpp:24-31; GasPR78.cpp:24-31, GasPRSV.cpp:24-30, GasCORK.cpp:30-36, GasSTP.cpp:29-35, GasCGF.cpp:24-31 *)
Definition gas_apply (f : fug) (tk p : TS) (t : TPS) : TPS :=
  let p' := gas_pressure p in
  let g1 := ip_add (G t) (ts_mul_d (d_mul_ts R_CONSTANT tk) (ln (f_phi f))) in
  let fg := d_mul_ts (f_phi f) p' in
  let g2 := ip_sub g1 (ts_mul (d_mul_ts R_CONSTANT tk) (ts_log (ts_div fg p'))) in
  mkTPS g2 (A t) (U t) (ip_add_d (H t) (f_h f)) (ip_add_d (S t) (f_s f)) (ts_assign (f_v f)) (Cp t) (Cv t).
(** GasCORK.cpp:13-18 and GasSTP.cpp:12-17: the code of the equation of state; in GasSTP.cpp it has no initial value *)
Definition cork_code (formula : string) : option ascii :=
  let c := if string_dec formula "CO2" then "C"%char else "G"%char in Some (if string_dec formula "H2O" then "V"%char else c).
Definition stp_code (formula : string) : option ascii :=
  let c := if string_dec formula "CO2" then Some "C"%char else None in if string_dec formula "H2O" then Some "V"%char else c.

(** *** cubic equations of state *)
(** s_solmod_.cpp:176 *)
Definition Rg : R := 831451 / 100000.
(** the literal of s_solmod2_.cpp:598 and 599; the circle number is an argument below *)
Definition pi_code : R := 31415927 / 10000000.
(** Cardano, 586-613, 2976-3005, 3791-3818 *)
Definition c_q (a2 a1 : R) : R := (a2 ^ 2 - 3 * a1) / 9.
Definition c_r (a2 a1 a0 : R) : R := (2 * a2 ^ 3 - 9 * a2 * a1 + 27 * a0) / 54.
Definition cardano (pi a2 a1 a0 : R) : option (R * R * R) :=
  let q := c_q a2 a1 in let rc := c_r a2 a1 a0 in
  if Rlt_dec (rc ^ 2) (q ^ 3) then
    let th := acos (rc / sqrt (q ^ 3)) in
    Some (-2 * sqrt q * cos (th / 3) - a2 / 3, -2 * sqrt q * cos (th / 3 + 2 / 3 * pi) - a2 / 3, -2 * sqrt q * cos (th / 3 - 2 / 3 * pi) - a2 / 3)
  else if Req_EM_T rc 0 then None   (* rc/fabs(rc) *)
  else
    let ac := -1 * (rc / Rabs rc) * Rpower (Rabs rc + sqrt (rc ^ 2 - q ^ 3)) (1 / 3) in
    let z := ac + q / ac - a2 / 3 in   (* ac is never 0 here *)
    Some (z, z, z).
(** the choice among the roots, 537-552, 2932-2947, 3742-3757 *)
Definition pick (lnf : R -> R) (r : R * R * R) : R :=
  let '(z1, z2, z3) := r in
  let z := if Rlt_dec (lnf z2) (lnf z1) then z2 else z1 in if Rlt_dec (lnf z3) (lnf z) then z3 else z.
(** 510-511, 2907-2908, 3715-3716 *)
Definition eA (a T P : R) : R := a * P / (Rg ^ 2 * T ^ 2).
Definition eB (b T P : R) : R := b * P / (Rg * T).
(** parameters of a fluid at a temperature: a, b, da/dT, d2a/dT2 *)
Record abpar : Type := mkAB { e_a : R; e_b : R; e_da : R; e_d2a : R }.

(** Soave-Redlich-Kwong *)
(** 2861-2879; pow(Tred,1.5) is Tred*sqrt(Tred) *)
Definition srk_m (omg : R) : R := 48 / 100 + 1574 / 1000 * omg - 176 / 1000 * omg ^ 2.
Definition srk_ac (Tc Pc : R) : R := 42747 / 100000 * Rg ^ 2 * Tc ^ 2 / Pc.
Definition srk_ab (Tc Pc omg T : R) : abpar :=
  let Tr := T / Tc in let m := srk_m omg in let ac := srk_ac Tc Pc in
  let sqa := 1 + m * (1 - sqrt Tr) in
  let dsqa := - (1 / 2) * m / (sqrt Tr * Tc) in
  let d2sqa := 1 / 4 * m / (Tr * sqrt Tr * Tc ^ 2) in
  mkAB ((1 + m * (1 - sqrt Tr)) ^ 2 * ac) (8664 / 100000 * Rg * Tc / Pc) (2 * ac * (sqa * dsqa)) (2 * ac * (dsqa * dsqa + sqa * d2sqa)).
(** 2919-2930 *)
Definition srk_lnf (A B z : R) : R := if Rlt_dec B z then z - 1 - ln (z - B) - A / B * ln (1 + B / z) else 1000.
(** 2950-2959 *)
Definition srk_h (T : R) (e : abpar) (z v : R) : R := - (1 - z + 1 / (e_b e * Rg * T) * (e_a e - T * e_da e) * ln (1 + e_b e / v)) * Rg * T.
Definition srk_s (e : abpar) (z v : R) : R := (ln (z * (1 - e_b e / v)) + 1 / (e_b e * Rg) * e_da e * ln (1 + e_b e / v)) * Rg.
Definition srk_pt (e : abpar) (v : R) : R := Rg / (v - e_b e) - e_da e / (v * (v + e_b e)).
Definition srk_pv (T : R) (e : abpar) (v : R) : R := - Rg * T / (v - e_b e) ^ 2 + e_a e * (2 * v + e_b e) / (v * (v + e_b e)) ^ 2.
Definition srk_c (T : R) (e : abpar) (B z v : R) : R :=
  T * e_d2a e / e_b e * ln (1 + B / z) + T * srk_pt e v * (-1 * (1 / srk_pv T e v) * srk_pt e v) - Rg.
(** FugacityPure, 2884-2971 *)
Definition srk_pure (pi : R) (Tc Pc omg T P : R) : option fug :=
  let e := srk_ab Tc Pc omg T in let A := eA (e_a e) T P in let B := eB (e_b e) T P in
  match cardano pi (-1) (A - B - B ^ 2) (- A * B) with
  | None => None
  | Some r => let z := pick (srk_lnf A B) r in let v := z * Rg * T / P in
      Some (mkFug (exp (srk_lnf A B z)) (srk_h T e z v - T * srk_s e z v) (srk_h T e z v) (srk_s e z v) v (srk_c T e B z v))
  end.

(** Peng-Robinson *)
(** 3665-3687 *)
Definition pr_kappa (omg : R) : R :=
  if Rle_dec omg (491 / 1000) then 37464 / 100000 + 154226 / 100000 * omg - 26992 / 100000 * omg ^ 2
  else 379642 / 1000000 + 148503 / 100000 * omg - 164423 / 1000000 * omg ^ 2 + 166666 / 10000000 * omg ^ 3.
Definition pr_ac (Tc Pc : R) : R := 457235529 / 1000000000 * Rg ^ 2 * Tc ^ 2 / Pc.
Definition pr_ab (Tc Pc omg T : R) : abpar :=
  let Tr := T / Tc in let k := pr_kappa omg in let ac := pr_ac Tc Pc in
  let sqa := 1 + k * (1 - sqrt Tr) in
  let dsqa := - (1 / 2) * k / (sqrt Tr * Tc) in
  let d2sqa := 1 / 4 * k / (Tr * sqrt Tr * Tc ^ 2) in
  mkAB ((1 + k * (1 - sqrt Tr)) ^ 2 * ac) (777960739 / 10000000000 * Rg * Tc / Pc) (2 * ac * (sqa * dsqa)) (2 * ac * (dsqa * dsqa + sqa * d2sqa)).
(** Peng-Robinson-Stryjek-Vera, 453-482 *)
Definition sv_k0 (omg : R) : R := 378893 / 1000000 + 14897153 / 10000000 * omg - 17131848 / 100000000 * omg ^ 2 + 196554 / 10000000 * omg ^ 3.
Definition sv_ac (Tc Pc : R) : R := 457235 / 1000000 * Rg ^ 2 * Tc ^ 2 / Pc.
Definition sv_ab (Tc Pc omg k1 k2 k3 T : R) : abpar :=
  let Tr := T / Tc in let k0 := sv_k0 omg in let ac := sv_ac Tc Pc in
  let k1 := if Rle_dec Tc T then 0 else k1 in let k2 := if Rle_dec Tc T then 0 else k2 in let k3 := if Rle_dec Tc T then 0 else k3 in
  let k := k0 + (k1 + k2 * (k3 - Tr) * (1 - sqrt Tr)) * (1 + sqrt Tr) * (7 / 10 - Tr) in
  let sqa := 1 + k * (1 - sqrt Tr) in
  let dsqa := (k1 * (7 / 10 - Tr) / (2 * sqrt Tr * Tc) - k1 * (1 + sqrt Tr) / Tc) * (1 - sqrt Tr) - (k0 + k1 * (1 + sqrt Tr) * (7 / 10 - Tr)) / (2 * sqrt Tr * Tc) in
  let d2sqa := (- (k1 * (7 / 10 - Tr)) / (4 * (Tr * sqrt Tr) * Tc ^ 2) - k1 / (sqrt Tr * Tc ^ 2)) * (1 - sqrt Tr)
             + (- k1 * (7 / 10 - Tr) / (2 * sqrt Tr * Tc) - k1 * (1 + sqrt Tr) / Tc) / (sqrt Tr * Tc)
             + (k0 + k1 * (1 + sqrt Tr) * (7 / 10 - Tr)) / (4 * (Tr * sqrt Tr) * Tc ^ 2) in
  mkAB ((1 + k * (1 - sqrt Tr)) ^ 2 * ac) (77796 / 1000000 * Rg * Tc / Pc) (2 * ac * (sqa * dsqa)) (2 * ac * (dsqa * dsqa + sqa * d2sqa)).
(** 521-535, 3726-3740 *)
Definition pr_log (B z : R) : R := ln ((z + (1 + sqrt 2) * B) / (z + (1 - sqrt 2) * B)).
Definition pr_lnf (A B z : R) : R := if Rlt_dec B z then -1 * ln (z - B) - A / (B * sqrt 8) * pr_log B z + z - 1 else 1000.
(** 557-569, 3762-3774 *)
Definition pr_g (T A B z : R) : R := Rg * T * (z - 1 - ln (z - B) - A / (B * sqrt 8) * pr_log B z).
Definition pr_h (T A B z kk : R) : R := Rg * T * (z - 1 - pr_log B z * A / (B * sqrt 8) * (1 + kk)).
Definition pr_den (e : abpar) (v : R) : R := v * (v + e_b e) + e_b e * (v - e_b e).
Definition pr_pt (e : abpar) (v : R) : R := Rg / (v - e_b e) - e_da e / pr_den e v.
Definition pr_pv (T : R) (e : abpar) (v : R) : R := - Rg * T / (v - e_b e) ^ 2 + 2 * e_a e * (v + e_b e) / pr_den e v ^ 2.
Definition pr_c (T : R) (e : abpar) (B z v : R) : R :=
  T * e_d2a e / (e_b e * sqrt 8) * pr_log B z + T * pr_pt e v * (-1 * (1 / pr_pv T e v) * pr_pt e v) - Rg.
(** 555-556 and 3760-3761: k*sqrt(Tred)/sqrt(alph) with k found from alph; at the critical temperature 0/0 *)
Definition pr_kk (ac Tc T a : R) : option R :=
  let Tr := T / Tc in let alph := a / ac in
  if Req_EM_T (1 - sqrt Tr) 0 then None else Some ((sqrt alph - 1) / (1 - sqrt Tr) * sqrt Tr / sqrt alph).
(** FugacityPure, 487-581 and 3692-3786 *)
Definition pr_pure (pi ac : R) (e : abpar) (Tc T P : R) : option fug :=
  let A := eA (e_a e) T P in let B := eB (e_b e) T P in
  match cardano pi (B - 1) (A - 3 * B ^ 2 - 2 * B) (B ^ 3 + B ^ 2 - A * B), pr_kk ac Tc T (e_a e) with
  | Some r, Some kk => let z := pick (pr_lnf A B) r in let v := z * Rg * T / P in
      Some (mkFug (exp (pr_lnf A B z)) (pr_g T A B z) (pr_h T A B z kk) ((pr_h T A B z kk - pr_g T A B z) / T) v (pr_c T e B z v))
  | _, _ => None
  end.
Definition pr78_pure (pi Tc Pc omg T P : R) : option fug := pr_pure pi (pr_ac Tc Pc) (pr_ab Tc Pc omg T) Tc T P.
Definition prsv_pure (pi Tc Pc omg k1 k2 k3 T P : R) : option fug := pr_pure pi (sv_ac Tc Pc) (sv_ab Tc Pc omg k1 k2 k3 T) Tc T P.
(** SRKCalcFugPure 3228-3243, the same in the others: outside the range an ideal gas *)
Definition calc_pure (pure : R -> R -> option fug) (Tmin T P : R) : option fug :=
  if (if Rle_dec Tmin T then true else false) && (if Rlt_dec T 10000 then true else false) &&
     (if Rle_dec (1 / 100000) P then true else false) && (if Rlt_dec P 100000 then true else false)
  then pure T P else Some (mkFug 1 0 0 0 (831451 / 100000 * T / P) 0).
