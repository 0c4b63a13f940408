(** Models of the reaction temperature/density functions, over the values ([val]) of the
    ThermoScalars; the derivative components follow the same formulas through C01.
      ThermoFun/Reactions/LogK_function_of_T.cpp, DolejsManning2010.cpp, FrantzMarshall.cpp,
      RyzhenkoBryzgalyn.cpp, ThermoModelsReaction.cpp:33-132, Reaction.cpp:358-519.
    Volume_function_of_T.cpp is not called with effect (its wrapper returns default properties).
    [None] is undefined behaviour (index outside a vector).  [ln] stands for log, [sqrt x] for
    pow(x,0.5), [x^n] for pow(x,n.).  Definitions only. *)
From Coq Require Import List Reals Bool.
Import ListNotations.
Open Scope R_scope.

(** GlobalVariables.h: R_CONSTANT, lg_to_ln, ln_to_lg *)
Definition Rgas : R := 831451 / 100000.
Definition lg_to_ln : R := 2302585093 / 1000000000.
Definition ln_to_lg : R := 434294481 / 1000000000.
Definition Rln10 : R := Rgas * lg_to_ln.
(** the double log(10.), also the literal used by log10 (ThermoScalar.hpp:457) *)
Definition LN10 : R := 2302585092994046 / 1000000000000000.
Definition log10 (x : R) : R := ln x / LN10.

(** a reference property: value and status != notdefined *)
Record sc : Type := mkSc { v : R; def : bool }.
(** what the functions read of a Reaction *)
Record rdata : Type := mkR { rG : sc; rH : sc; rS : sc; rCp : sc; rV : sc; rlgK : sc; rTr : R; rPr : R;
  rA : list R; rC : list R }.
(** ThermoPropertiesReaction, values *)
Record tpr : Type := mkTpr { lgK : R; lnK : R; dG : R; dH : R; dS : R; dCp : R; dV : R; dA : R; dU : R }.

Inductive CE : Set := EK0 | EK1 | EK2 | EK3 | LGK | LGX.

Definition is_zero (x : R) : bool := if Req_EM_T x 0 then true else false.
(** std::vector::resize(n, 0.0) *)
Definition resize (n : nat) (l : list R) : list R := firstn n (l ++ repeat 0 n).
Definition at_ (l : list R) (i : nat) : R := nth i l 0.

(** determineMethod, LogK_function_of_T.cpp:8-40 *)
Definition determineMethod (H S Cp : sc) : CE :=
  if (def Cp && def H && def S)%bool then EK3
  else if (def H && def S)%bool then EK2
  else if ((def H && is_zero (v H)) || (def S && is_zero (v S)))%bool then EK1
  else EK0.

(** Cp coefficients to logK coefficients (122-130 and Reaction.cpp:377-385) at temperature [T] *)
Definition A_of_C (c : list R) (S H T : R) : list R :=
  [ (S - at_ c 0 - at_ c 0 * ln T - at_ c 1 * T + at_ c 2 / (2 * T * T) + 2 * at_ c 3 / sqrt T - at_ c 4 * T * T / 2) / Rln10;
    at_ c 1 / (2 * Rln10);
    - (H - at_ c 0 * T - at_ c 1 * T * T / 2 + at_ c 2 / T - 2 * at_ c 3 * sqrt T - at_ c 4 * T * T * T / 3) / Rln10;
    at_ c 0 / Rln10;
    at_ c 2 / (2 * Rln10);
    at_ c 4 / (6 * Rln10);
    -4 * at_ c 3 / Rln10 ].
(** logK coefficients to Cp coefficients (139-143 and Reaction.cpp:439-443) *)
Definition C_of_A (a : list R) : list R :=
  [ Rln10 * at_ a 3; Rln10 * 2 * at_ a 1; Rln10 * 2 * at_ a 4; - Rln10 * (1 / 4) * at_ a 6; Rln10 * 6 * at_ a 5 ].
(** the 7-term functions (146-154) *)
Definition lgK7 (a : list R) (T : R) : R :=
  at_ a 0 + at_ a 1 * T + at_ a 2 / T + at_ a 3 * ln T + at_ a 4 / (T * T) + at_ a 5 * (T * T) + at_ a 6 / sqrt T.
Definition H7 (a : list R) (T : R) : R :=
  Rln10 * (at_ a 1 * (T * T) - at_ a 2 + at_ a 3 * T - 2 * at_ a 4 / T + 2 * at_ a 5 * (T * T * T) - 1 / 2 * at_ a 6 * sqrt T).
Definition S7 (a : list R) (T : R) : R :=
  Rln10 * (at_ a 0 + 2 * at_ a 1 * T + at_ a 3 * (1 + ln T) - at_ a 4 / (T * T) + 3 * at_ a 5 * (T * T) + 1 / 2 * at_ a 6 / sqrt T).
Definition Cp5 (c : list R) (T : R) : R :=
  at_ c 0 + at_ c 1 * T + at_ c 2 / (T * T) + at_ c 4 * (T * T) + at_ c 3 / sqrt T.

(** thermoPropertiesReaction_LogK_fT (53-185) *)
Definition logK_fT (d : rdata) (ce : CE) (T P : R) : option tpr :=
  let H := if (def (rS d) && def (rG d) && negb (def (rH d)))%bool then mkSc (v (rG d) + v (rS d) * T) true else rH d in
  let S := if (def (rH d) && def (rG d) && negb (def (rS d)))%bool then mkSc ((v (rH d) - v (rG d)) / T) true else rS d in
  let ce := match ce with EK3 => determineMethod H S (rCp d) | c => c end in
  let H := v H in let S := v S in let Cp := v (rCp d) in let Tr := rTr d in
  let fin lg H S Cp :=
    let G := - (T * Rgas) * lg * lg_to_ln in
    let U := if is_zero H then 0 else H - P * v (rV d) in
    let A := if is_zero H then 0 else U - T * S in
    Some (mkTpr lg (lg * lg_to_ln) G H S Cp (v (rV d)) A U) in
  match ce with
  | EK0 => fin (v (rlgK d)) H S Cp
  | EK1 => fin (- v (rG d) / T / Rln10) (v (rG d)) S Cp
  | EK2 => fin ((S - H / T) / Rln10) H S Cp
  | EK3 => fin ((S - H / T - Cp * (1 - Tr / T - ln (T / Tr))) / Rln10) (H + Cp * (T - Tr)) (S + Cp * ln (T / Tr)) Cp
  | LGK | LGX =>
      let a := match rA d, rC d with [], _ :: _ => A_of_C (resize 5 (rC d)) S H T | a, [] => match a with [] => [] | _ => resize 7 a end | a, _ => a end in
      let c := match rC d, rA d with [], _ :: _ => C_of_A a | c, [] => match c with [] => [] | _ => resize 5 c end | c, _ => c end in
      if (Nat.leb 7 (length a) && Nat.leb 5 (length c))%bool
      then fin (lgK7 a T) (H7 a T) (S7 a T) (Cp5 c T) else None
  end.

(** Reaction::convert_CpfT_to_logKfT (Reaction.cpp:358-409): coefficients and reference properties;
    [None] is the exception for fewer than five coefficients.  The operators / and * associate to
    the left, so that C[2]/TK*TK is C[2]. *)
Definition convert_C_to_A (d : rdata) : option (list R * tpr) :=
  if Nat.ltb (length (rC d)) 5 then None else
  let T := rTr d in let c := rC d in
  let a := A_of_C c (v (rS d)) (v (rH d)) T in
  let Cp := at_ c 0 + at_ c 1 * T + at_ c 2 / T * T + at_ c 3 / sqrt T + at_ c 4 * T * T in
  let lg := at_ a 0 + at_ a 1 * T + at_ a 2 / T + at_ a 3 * ln T + at_ a 4 / T * T + at_ a 5 * T * T + at_ a 6 / sqrt T in
  let H := Rln10 * (at_ a 1 * T * T - at_ a 2 + at_ a 3 * T - 2 * at_ a 4 / T + 2 * at_ a 5 * T * T * T - 1 / 2 * at_ a 6 * sqrt T) in
  let S := Rln10 * (at_ a 0 + 2 * at_ a 1 * T + at_ a 3 * (1 + ln T) - at_ a 4 / T * T + 3 * at_ a 5 * T * T + 1 / 2 * at_ a 6 / sqrt T) in
  Some (a, mkTpr lg (lg * lg_to_ln) (- Rln10 * T * lg) H S Cp (v (rV d)) 0 0).
(** Reaction::convert_logKfT_toCpfT (411-462), method CTM_LGK; K_fT_Coeff[0..6] is read unchecked *)
Definition convert_A_to_C (d : rdata) : option (list R * tpr) :=
  if Nat.ltb (length (rA d)) 7 then None else
  let T := rTr d in let a := rA d in let c := C_of_A a in
  let lg := at_ a 0 + at_ a 1 * T + at_ a 2 / T + at_ a 3 * ln T + at_ a 4 / T * T + at_ a 5 * T * T + at_ a 6 / sqrt T in
  let H := Rln10 * (at_ a 1 * T * T - at_ a 2 + at_ a 3 * T - 2 * at_ a 4 / T + 2 * at_ a 5 * T * T * T - 1 / 2 * at_ a 6 * sqrt T) in
  let S := Rln10 * (at_ a 0 + 2 * at_ a 1 * T + at_ a 3 * (1 + ln T) - at_ a 4 / T * T + 3 * at_ a 5 * T * T + 1 / 2 * at_ a 6 / sqrt T) in
  let Cp := at_ c 0 + at_ c 1 * T + at_ c 2 / T * T + at_ c 4 * T * T + at_ c 3 / sqrt T in
  Some (c, mkTpr lg (lg * lg_to_ln) (- Rln10 * T * lg) H S Cp (v (rV d)) 0 0).
(** Reaction::calc_logK_fT_coefficients (464-519) *)
Definition calc_A (d : rdata) (ce : CE) : list R :=
  let T := rTr d in let S := v (rS d) in let H := v (rH d) in let Cp := v (rCp d) in let k0 := v (rlgK d) in
  match ce with
  | LGK | LGX => [k0; 0; 0; 0; 0; 0; 0]
  | EK0 => [S / Rln10; 0; 0; 0; 0; 0; 0]
  | EK1 => [0; 0; - H / Rln10; 0; 0; 0; 0]
  | EK2 => [S / Rln10; 0; - H / Rln10; 0; 0; 0; 0]
  | EK3 => [(S - Cp * (1 + ln T)) / Rln10; 0; (Cp * T - H) / Rln10; Cp / Rln10; 0; 0; 0]
  end.

(** *** density models; water is given by its density (kg/m3), alpha (1/K), beta (1/Pa), dalpha/dT *)
Record water : Type := mkW { rho : R; alp : R; bet : R; dal : R }.
(** thermoPropertiesDolejsManning2010 (DolejsManning2010.cpp:6-51); five coefficients *)
Definition dolejs (c : list R) (w : water) (T P : R) : option tpr :=
  match c with
  | a :: b :: c :: d :: e :: _ =>
      let RHO := rho w / 1000 in let BET := bet w * 100000 in
      let lnK := (- 1 / Rgas) * (a / T + b + c * ln T + d * T + e * ln RHO) in
      let S := - b - c * (1 + ln T) - 2 * d * T - e * ln RHO + e * T * alp w in
      let H := a - c * T - d * T ^ 2 + e * T ^ 2 * alp w in
      let Cp := - c - 2 * d * T + 2 * e * T * alp w + e * T ^ 2 * dal w in
      let V := e * T * BET in
      let G := H - T * S in
      let logK := lnK * ln_to_lg in
      let U := H - P * V in
      (* log_equilibrium_constant is left at its default *)
      Some (mkTpr 0 (logK * lg_to_ln) G H S Cp V (U - T * S) U)
  | _ => None
  end.
(** thermoPropertiesFrantzMarshall (FrantzMarshall.cpp:6-59); seven coefficients *)
Definition frantz (co : list R) (w : water) (T P : R) : option tpr :=
  match co with
  | a :: b :: c :: d :: e :: f :: g :: _ =>
      let RHO := rho w / 1000 in let ALP := alp w in let BET := bet w * 100000 in
      let dRHOdT := - ALP * RHO in let dRHOdP := BET * RHO in let d2RHOdT2 := RHO * (ALP ^ 2 - dal w) in
      let logK := a + b / T + c / T ^ 2 + d / T ^ 3 + (e + f / T + g / T ^ 2) * log10 RHO in
      let dJ := - b / T ^ 2 - 2 * c / T ^ 3 - 3 * d / T ^ 4 + (- f / T ^ 2 - 2 * g / T ^ 3) * log10 RHO
                + (e + f / T + g / T ^ 2) * 1 / (RHO * LN10) * dRHOdT in
      let d2J := 2 * b / T ^ 3 + 6 * c / T ^ 4 + 12 * d / T ^ 5 + (2 * f / T ^ 3 + 6 * g / T ^ 4) * log10 RHO
                + 2 * (- f / T ^ 2 - 2 * g / T ^ 3) * 1 / (RHO * LN10) * dRHOdT
                - (e + f / T + g / T ^ 2) * 1 / (RHO ^ 2 * LN10) * dRHOdT ^ 2
                + (e + f / T + g / T ^ 2) * 1 / (RHO * LN10) * d2RHOdT2 in
      let G := - Rgas * T * LN10 * logK in
      let S := Rgas * LN10 * (logK + dJ * T) in
      let Cp := Rgas * LN10 * T * (2 * dJ + d2J * T) in
      let V := - Rgas * LN10 * T * ((e + f / T + g / T ^ 2) * 1 / (RHO * LN10) * dRHOdP) in
      let H := G + S * T in
      let U := H - P * V in
      Some (mkTpr 0 (logK * lg_to_ln) G H S Cp V (U - T * S) U)
  | _ => None
  end.
(** thermoPropertiesRyzhenkoBryzgalin (RyzhenkoBryzgalyn.cpp:5-79); pK298, A, B *)
Definition rb_a : R := - 4098 / 1000.
Definition rb_b : R := - 32452 / 10.
Definition rb_c : R := 223620.
Definition rb_d : R := - 39840000.
Definition rb_e : R := 13957 / 1000.
Definition rb_f : R := - 12623 / 10.
Definition rb_g : R := 856410.
Definition rb_zz : R := 10107 / 10000.
Definition T298 : R := 29815 / 100.
Definition rb_pKw298 : R := - (rb_a + rb_b / T298 + rb_c / T298 ^ 2 + rb_d / T298 ^ 3
  + (rb_e + rb_f / T298 + rb_g / T298 ^ 2) * log10 (997061 / 1000000)).
Definition ryzhenko (co : list R) (w : water) (T P : R) : option tpr :=
  match co with
  | pK298 :: A :: B :: _ =>
      let RHO := rho w / 1000 in let ALP := alp w in
      let dRHOdT := - ALP * RHO in let dRHOdP := bet w * RHO in let d2RHOdT2 := RHO * (ALP ^ 2 - dal w) in
      let pKwTP := - (rb_a + rb_b / T + rb_c / T ^ 2 + rb_d / T ^ 3 + (rb_e + rb_f / T + rb_g / T ^ 2) * log10 RHO) in
      let zzA := A + B / T in
      let BB := (pKwTP - rb_pKw298 * T298 / T) / rb_zz in
      let pKTP := pK298 * (T298 / T) + zzA * BB in
      let logK := - pKTP in
      let G := pKTP * LN10 * Rgas * T in
      let I := rb_a * T + rb_b + rb_c / T + rb_d / T ^ 2 + (rb_e * T + rb_f + rb_g / T) * log10 RHO - (- rb_pKw298) * T298 in
      let J := A + B / T in
      let dI := rb_a - rb_c / T ^ 2 - 2 * rb_d / T ^ 3 + (rb_e - rb_g / T ^ 2) * log10 RHO
                + (rb_e * T + rb_f + rb_g / T) * 1 / (RHO * LN10) * dRHOdT in
      let dJ := - B / T ^ 2 in
      let d2I := 2 * rb_c / T ^ 3 + 6 * rb_d / T ^ 4 + 2 * rb_g / T ^ 3 * log10 RHO
                + 2 * (rb_e - rb_g / T ^ 2) * 1 / (RHO * LN10) * dRHOdT
                - (rb_e * T + rb_f + rb_g / T) * 1 / (RHO ^ 2 * LN10) * dRHOdT ^ 2
                + (rb_e * T + rb_f + rb_g / T) * 1 / (RHO * LN10) * d2RHOdT2 in
      let d2J := 2 * B / T ^ 3 in
      let S := Rgas * LN10 / rb_zz * (dI * J + dJ * I) in
      let Cp := Rgas * LN10 / rb_zz * T * (d2I * J + 2 * dI * dJ + d2J * I) in
      let V := - Rgas * LN10 / rb_zz * (rb_e * T + rb_f + rb_g / T) * 1 / (RHO * LN10) * dRHOdP * (A + B / T) in
      let H := G + S * T in
      let U := H - P * V in
      Some (mkTpr logK (logK * lg_to_ln) G H S Cp (V * 100000) (U - T * S) U)
  | _ => None
  end.
(** ReactionDolejsManning10::thermoProperties (ThermoModelsReaction.cpp:33-39) calls
    thermoPropertiesFrantzMarshall with the reaction's Frantz-Marshall coefficients [fm] *)
Definition model_dolejs (dm fm : list R) (w : water) (T P : R) : option tpr := frantz fm w T (P / 100000).
Definition model_frantz (fm : list R) (w : water) (T P : R) : option tpr := frantz fm w T (P / 100000).
Definition model_ryzhenko (rb : list R) (w : water) (T P : R) : option tpr := ryzhenko rb w T (P / 100000).
