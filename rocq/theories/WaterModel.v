(** Models of the water solvent, over the values of the ThermoScalars:
      Substances/Solvent/Reaktoro/WaterThermoStateUtils.cpp, WaterElectroStateJohnsonNorton.cpp, WaterUtils.cpp,
      Substances/Solvent/WaterHGKreaktoro.cpp, WaterWP95reaktoro.cpp, WaterIdealGasWolley.cpp, WaterZhangDuan2005.cpp,
      WaterElectroFernandez1997.cpp, WaterElectroSverjensky2014.cpp.
    Temperatures in K, pressures in Pa unless said otherwise.  Status messages and errors of values are
    left out.  Definitions only. *)
From Coq Require Import List Bool ZArith Reals.
Import ListNotations.
Open Scope R_scope.

Definition isz (x : R) : bool := if Req_EM_T x 0 then true else false.
Definition ltb (x y : R) : bool := if Rlt_dec x y then true else false.
Definition leb (x y : R) : bool := if Rle_dec x y then true else false.

(** *** specific properties *)
(** WaterHelmholtzState.hpp:25-56 *)
Record helm : Type := mkHelm { h0 : R; hT : R; hD : R; hTT : R; hTD : R; hDD : R; hTTT : R; hTTD : R; hTDD : R; hDDD : R }.
(** WaterThermoState.hpp; densityTT is an option: None where the code divides zero by zero *)
Record wstate : Type := mkWs {
  w_T : R; w_P : R; w_pD : R; w_pT : R; w_pDD : R; w_pTD : R; w_pTT : R;
  w_d : R; w_dT : R; w_dP : R; w_dTT : option R; w_dTP : R; w_dPP : R;
  w_V : R; w_S : R; w_A : R; w_U : R; w_H : R; w_G : R; w_cv : R; w_cp : R }.
(** waterThermoState, WaterThermoStateUtils.cpp:48-96 *)
Definition waterThermoState (T P D : R) (wh : helm) : wstate :=
  let pD := 2 * D * hD wh + D * D * hDD wh in
  let pT := D * D * hTD wh in
  let pDD := 2 * hD wh + 4 * D * hDD wh + D * D * hDDD wh in
  let pTD := 2 * D * hTD wh + D * D * hTDD wh in
  let pTT := D * D * hTTD wh in
  let dT := - pT / pD in
  let dP := 1 / pD in
  let dTT := - dT * dP * (dT * pDD + 2 * pTD + pTT / dT) in
  let S := - hT wh in
  let U := h0 wh + T * S in
  let H := U + P / D in
  let cv := - T * hTT wh in
  mkWs T P pD pT pDD pTD pTT D dT dP (if isz dT then None else Some dTT)
    (- dP * dP * (dT * pDD + pTD)) (- dP * dP * dP * pDD)
    (1 / D) S (h0 wh) U H (H - T * S) cv (cv + T / (D * D) * pT * pT / pD).

(** *** molar properties *)
(** WaterConstants.hpp *)
Definition molarMass : R := 18015268 / 1000000000.
(** WaterTripleProperties *)
Record triple : Type := mkTriple { t_S : R; t_G : R; t_H : R; t_U : R; t_A : R }.
(** ThermoPropertiesSubstance, the eight values *)
Record tps : Type := mkTps { q_S : R; q_H : R; q_U : R; q_G : R; q_A : R; q_V : R; q_Cp : R; q_Cv : R }.
(** WaterHGKreaktoro.cpp:10-49 and WaterWP95reaktoro.cpp:9-54 differ in Ttr only *)
Definition molar (Ttr T : R) (wt : wstate) (wtr : triple) : tps :=
  let Sw := molarMass * w_S wt in let Hw := molarMass * w_H wt in let Uw := molarMass * w_U wt in
  mkTps (Sw + t_S wtr) (Hw + t_H wtr) (Uw + t_U wtr) (Hw - T * (Sw + t_S wtr) + Ttr * t_S wtr + t_G wtr)
    (Uw - T * (Sw + t_S wtr) + Ttr * t_S wtr + t_A wtr) (w_V wt * molarMass * 100000) (w_cp wt * molarMass) (w_cv wt * molarMass).
Definition molarHGK := molar (27315 / 100).
Definition molarWP95 := molar (27316 / 100).
(** propertiesWaterHGKreaktoro 51-78, propertiesWaterWP95reaktoro 56-83: Alpha, Beta, dAldT *)
Definition sAlpha (wt : wstate) : R := - w_dT wt / w_d wt.
Definition sBeta (wt : wstate) : R := w_dP wt / w_d wt.
Definition sdAldT (wt : wstate) : option R := match w_dTT wt with None => None | Some x => Some (- x / w_d wt + sAlpha wt * sAlpha wt) end.

(** *** Johnson and Norton, WaterElectroStateJohnsonNorton.cpp *)
(** 40-53 *)
Definition jn_a1 : R := 1470333593 / 100000000.
Definition jn_a2 : R := 2128462733 / 10000000.
Definition jn_a3 : R := - (1154445173 / 10000000).
Definition jn_a4 : R := 1955210915 / 100000000.
Definition jn_a5 : R := - (8330347980 / 100000000).
Definition jn_a6 : R := 3213240048 / 100000000.
Definition jn_a7 : R := - (6694098645 / 1000000000).
Definition jn_a8 : R := - (3786202045 / 100000000).
Definition jn_a9 : R := 6887359646 / 100000000.
Definition jn_a10 : R := - (2729401652 / 100000000).
(** 55-59, 61-65, 67-71, through the tables of 73-75 *)
Definition jn_k (i : nat) (t : R) : R := match i with 0%nat => 1 | 1%nat => jn_a1 / t | 2%nat => jn_a2 / t + jn_a3 + jn_a4 * t
  | 3%nat => jn_a5 / t + jn_a6 * t + jn_a7 * t * t | _ => jn_a8 / t / t + jn_a9 / t + jn_a10 end.
Definition jn_kt (i : nat) (t : R) : R := match i with 0%nat => 0 | 1%nat => - jn_a1 / (t * t) | 2%nat => - jn_a2 / (t * t) + jn_a4
  | 3%nat => - jn_a5 / (t * t) + jn_a6 + 2 * jn_a7 * t | _ => -2 * jn_a8 / (t * t * t) - jn_a9 / (t * t) end.
Definition jn_ktt (i : nat) (t : R) : R := match i with 0%nat => 0 | 1%nat => 2 * jn_a1 / (t * t * t) | 2%nat => 2 * jn_a2 / (t * t * t)
  | 3%nat => 2 * jn_a5 / (t * t * t) + 2 * jn_a7 | _ => 6 * jn_a8 / (t * t * t * t) + 2 * jn_a9 / (t * t * t) end.
Definition jn_Tr : R := 29815 / 100.
Definition jn_Dr : R := 1000.
(** the sum of the loop 102-115 *)
Definition sum5 (f : nat -> R) : R := 0 + f 0%nat + f 1%nat + f 2%nat + f 3%nat + f 4%nat.
Record electro : Type := mkEl { e_ : R; e_T : R; e_P : R; e_TT : R; e_TP : R; e_PP : R; b_Z : R; b_Y : R; b_Q : R; b_U : R; b_N : R; b_X : R }.
(** 79-127, with all divisors assumed non-zero; the density and its derivatives are arguments *)
Definition jn_raw (T d dT dP dTT dTP dPP : R) : electro :=
  let alpha := - dT / d in let beta := dP / d in let alphaT := - dTT / d + alpha * alpha in
  let betaT := dTP / d + alpha * beta in let betaP := dPP / d - beta * beta in
  let t := T / jn_Tr in let r := d / jn_Dr in
  let ki i := jn_k i t in let kt i := jn_kt i t / jn_Tr in let ktt i := jn_ktt i t / jn_Tr / jn_Tr in
  let ri i := r ^ i in
  let eps := sum5 (fun i => ki i * ri i) in
  let epsT := sum5 (fun i => ri i * (kt i - INR i * alpha * ki i)) in
  let epsP := sum5 (fun i => ri i * ki i * INR i * beta) in
  let epsTT := sum5 (fun i => ri i * (ktt i - INR i * (alpha * kt i + ki i * alphaT) - INR i * alpha * (kt i - INR i * alpha * ki i))) in
  let epsTP := sum5 (fun i => ri i * ki i * INR i * beta * (kt i / ki i - INR i * alpha + betaT / beta)) in
  let epsPP := sum5 (fun i => ri i * ki i * INR i * beta * (INR i * beta + betaP / beta)) in
  let eps2 := eps * eps in let Y := epsT / eps2 in let Q := epsP / eps2 in
  mkEl eps epsT epsP epsTT epsTP epsPP (-1 / eps) Y Q (epsTP / eps2 - 2 * Y * Q * eps) (epsPP / eps2 - 2 * Q * Q * eps) (epsTT / eps2 - 2 * Y * Y * eps).
(** None: one of the divisors beta (114, 113) or k_i (113) is zero, or densityTT is undefined *)
Definition jn (T : R) (wt : wstate) : option electro :=
  match w_dTT wt with
  | None => None
  | Some dTT => if isz (w_dP wt) || existsb (fun i => isz (jn_k i (T / jn_Tr))) [0; 1; 2; 3; 4]%nat then None
                else Some (jn_raw T (w_d wt) (w_dT wt) (w_dP wt) dTT (w_dTP wt) (w_dPP wt))
  end.

(** *** Woolley, WaterIdealGasWolley.cpp:7-51 *)
(** c[2] .. c[17] of 12-17 *)
Definition wo_c : list R := [ - (483429455355 / 1000000000000); 605743189245 / 100000000000; 2256023885 / 100000000; - (987532442 / 100000000);
  - (43135538513 / 10000000000); 458155781 / 1000000000; - (47754901883 / 1000000000000); 41238460633 / 10000000000000;
  - (27929052852 / 100000000000000); 14481695261 / 1000000000000000; - (56473658748 / 100000000000000000); 16200446 / 1000000000000000;
  - (3303822796 / 10000000000000000000); 451916067368 / 100000000000000000000000; - (370734122708 / 10000000000000000000000000); 137546068238 / 1000000000000000000000000000 ].
Definition wo_c0 : R := 19730271018 / 1000000000.
Definition wo_c1 : R := 209662681977 / 10000000000.
(** GlobalVariables.h *)
Definition R_CONSTANT : R := 831451 / 100000.
Definition wo_dH0k : R := 0 + - (18216188 / 100).
(** the loop 29-35: [i] is the index of the head of [l], [acc] the running (Gig, Hig, Cpig) *)
Fixpoint wo_loop (t : R) (l : list R) (i : nat) (acc : R * R * R) : R * R * R :=
  match l, acc with
  | nil, _ => acc
  | c :: r, (G, H, C) =>
      let em := Rpower (t / 100) (INR i - 5) in
      wo_loop t r (S i) (G - c * em, H + c * (INR i - 5) * em, C + c * (INR i - 5) * (INR i - 4) * em)
  end.
Definition waterIdealGas (t : R) : tps :=
  let x := t / 100 in
  let '(G, H, C) := wo_loop t wo_c 2 (- (wo_c0 / x + wo_c1) * ln x, wo_c1 + wo_c0 * (1 - ln x) / x, wo_c1 - wo_c0 / x) in
  let A := G - 1 in let U := H - 1 in let Cv := C - 1 in let S := U - A in
  mkTps (S * R_CONSTANT) (H * R_CONSTANT * t + wo_dH0k) (U * R_CONSTANT * t + wo_dH0k) (G * R_CONSTANT * t + wo_dH0k) (A * R_CONSTANT * t + wo_dH0k) 0 (C * R_CONSTANT) (Cv * R_CONSTANT).

(** *** density, WaterUtils.cpp *)
Definition wp_Tc : R := 647096 / 1000.
Definition wp_Pc : R := 22064000.
Definition wp_Dc : R := 322.
Definition newton_tol : R := 1 / 100000000.
(** 38-59: the initial guess; [psat], [liq], [vap] are the values of the three saturation functions at T.
    A solvent_state other than 0, 1, 2 leaves D as constructed: the value 0 (ThermoScalar.hpp) *)
Definition startDensity (T P psat liq vap : R) (solvent_state : Z) : R :=
  let state := if leb T wp_Tc then (if ltb P psat then 1%Z else 0%Z) else 2%Z in
  let state := if (0 <=? solvent_state)%Z && leb T wp_Tc then solvent_state else state in
  if (state =? 0)%Z then liq else if (state =? 1)%Z then vap else if (state =? 2)%Z then wp_Dc * (99 / 100) else 0.
Definition nw_f (P D : R) (h : helm) : R := (D * D * hD h - P) / wp_Pc.
Definition nw_df (D : R) (h : helm) : R := (2 * D * hD h + D * D * hDD h) / wp_Pc.
(** 69, as chosen by a comparison of the values; with df = 0 the quotient is not a number or infinite: the comparison is
    false for NaN and +infinity and true for -infinity (then D becomes +infinity); the flag says which when df = 0 *)
Inductive step : Type := Next (D : R) | Stuck.
Definition nw_step (P D : R) (h : helm) : step :=
  let f := nw_f P D h in let df := nw_df D h in
  if isz df then (if ltb f 0 then Stuck else if isz (D * hD h) then Stuck else Next (P / (D * hD h)))
  else if ltb (f / df) D then Next (D - f / df) else if isz (D * hD h) then Stuck else Next (P / (D * hD h)).
(** 62-82; [NoConv] is the exception, [NonNum] that the iterate stopped being a number *)
Inductive dres : Type := Found (D : R) | NoConv | NonNum.
Fixpoint nw_loop (P : R) (model : R -> helm) (n : nat) (D : R) : dres :=
  match n with
  | O => NoConv
  | S n => let h := model D in
           match nw_step P D h with
           | Stuck => NonNum
           | Next D' => if ltb (Rabs (nw_f P D h)) newton_tol then Found D' else nw_loop P model n D'
           end
  end.
Definition waterDensity (T P psat liq vap : R) (solvent_state : Z) (model : R -> R -> helm) : dres :=
  nw_loop P (model T) 100 (startDensity T P psat liq vap solvent_state).
(** waterPressure and its two instances, 95-110: the values (the derivatives of helmholtzD are dropped at 99) *)
Definition waterPressure (T D : R) (model : R -> R -> helm) : R := D * D * hD (model T D).
Definition waterPressureHGK (hgk wp : R -> R -> helm) (T D : R) : R := waterPressure T D hgk.
Definition waterPressureWagnerPruss (hgk wp : R -> R -> helm) (T D : R) : R := waterPressure T D hgk.

(** the saturation functions 112-179 for T < Tcr; [Rpower] for pow *)
Definition wp_psat (T : R) : R :=
  let t := 1 - T / wp_Tc in let t15 := Rpower t (15 / 10) in let t30 := t15 * t15 in let t35 := t15 * t * t in let t40 := t30 * t in let t75 := t35 * t40 in
  wp_Pc * exp (wp_Tc / T * (- (785951783 / 100000000) * t + 184408259 / 100000000 * t15 + - (117866497 / 10000000) * t30 + 226807411 / 10000000 * t35 + - (159618719 / 10000000) * t40 + 180122502 / 100000000 * t75)).
Definition wp_liq (T : R) : R :=
  let t := 1 - T / wp_Tc in let t13 := Rpower t (1 / 3) in let t23 := t13 * t13 in let t53 := t13 * t23 * t23 in let t163 := t13 * t53 * t53 * t53 in
  let t433 := t163 * t163 * t53 * t * t in let t1103 := t433 * t433 * t163 * t53 * t in
  wp_Dc * (1 + 199274064 / 100000000 * t13 + 109965342 / 100000000 * t23 + - (510839303 / 1000000000) * t53 + - (175493479 / 100000000) * t163 + - (455170352 / 10000000) * t433 + - (674694450 / 1000) * t1103).
Definition wp_vap (T : R) : R :=
  let t := 1 - T / wp_Tc in let t16 := Rpower t (1 / 6) in let t26 := t16 * t16 in let t46 := t26 * t26 in let t86 := t46 * t46 in
  let t186 := t86 * t86 * t26 in let t376 := t186 * t186 * t16 in let t716 := t376 * t186 * t86 * t86 in
  wp_Dc * exp (wp_Tc / T * (- (203150240 / 100000000) * t26 + - (268302940 / 100000000) * t46 + - (538626492 / 100000000) * t86 + - (172991605 / 10000000) * t186 + - (447586581 / 10000000) * t376 + - (639201063 / 10000000) * t716)).

(** *** Zhang and Duan, WaterZhangDuan2005.cpp; pressure in bar, Vr the reduced volume *)
Definition zd_Tc : R := 64725 / 100.
Definition zd_Vc : R := 559480373 / 10000000.
Definition zd_R : R := 8314467 / 100000.
Definition zd_g : R := 105999998 / 10000000000.
(** 43-48, 87-92 *)
Definition zd_B (T : R) : R := let x := T / zd_Tc in 349824207 / 1000000000 + - (291046273 / 100000000) / x ^ 2 + 200914688 / 100000000 / x ^ 3.
Definition zd_C (T : R) : R := let x := T / zd_Tc in 112819964 / 1000000000 + 748997714 / 1000000000 / x ^ 2 + - (873207040 / 1000000000) / x ^ 3.
Definition zd_D (T : R) : R := let x := T / zd_Tc in 170609505 / 10000000000 + - (146355822 / 10000000000) / x ^ 2 + 579768283 / 10000000000 / x ^ 3.
Definition zd_E (T : R) : R := let x := T / zd_Tc in - (841246372 / 1000000000000) + 495186474 / 100000000000 / x ^ 2 + - (916248538 / 100000000000) / x ^ 3.
Definition zd_F (T : R) : R := - (100358152 / 1000000000) / (T / zd_Tc).
Definition zd_G (T : R) : R := - (182674744 / 100000000000) * (T / zd_Tc).
(** 53-58 *)
Definition zd_f (T P V : R) : R :=
  (1 + zd_B T / V + zd_C T / V ^ 2 + zd_D T / V ^ 4 + zd_E T / V ^ 5 + (zd_F T / V ^ 2 + zd_G T / V ^ 4) * exp (- zd_g / V ^ 2)) * zd_R * T / P - V * zd_Vc.
Definition zd_df (T P V : R) : R :=
  (- zd_B T / V ^ 2 - 2 * zd_C T / V ^ 3 - 4 * zd_D T / V ^ 5 - 5 * zd_E T / V ^ 6
   - (2 * exp (- zd_g / V ^ 2) * (- zd_F T * zd_g * V ^ 2 + zd_F T * V ^ 4 - zd_g * zd_G T + 2 * zd_G T * V ^ 2)) / V ^ 7) * zd_R * T / P - zd_Vc.
(** 51-78 *)
Fixpoint zd_loop (T P : R) (n : nat) (V : R) : dres :=
  match n with
  | O => NoConv
  | S n => if isz V || isz P || isz (zd_df T P V) then NonNum else
           let V' := V - zd_f T P V / zd_df T P V in
           if ltb (Rabs (V' - V)) newton_tol then Found V' else zd_loop T P n V'
  end.
Definition waterMolarVolume (T P V0 : R) : dres := zd_loop T P 100 V0.
(** waterFugacityCoeff, 82-109 *)
Definition zd_lnphi (T P Vr V : R) : R :=
  let ex := exp (- zd_g / Vr ^ 2) in let Z := P * V / (zd_R * T) in
  let H := zd_F T / (2 * zd_g) + zd_G T / (2 * zd_g ^ 2) - ex * zd_F T / (2 * zd_g) - ex * zd_G T / (2 * zd_g ^ 2) - ex * zd_G T / (Vr ^ 2 * (2 * zd_g)) in
  Z - 1 - ln Z + zd_B T / Vr + zd_C T / (2 * Vr ^ 2) + zd_D T / (4 * Vr ^ 4) + zd_E T / (5 * Vr ^ 5) + H.
(** the density of 156-157 from the reduced volume; H2OMolarMass of GlobalVariables.h, g/mol *)
Definition H2OMolarMass : R := 18015268 / 1000000.
Definition zd_dens (Vr : R) : R := H2OMolarMass / (Vr * zd_Vc / 10) * 100.

(** *** finite differences, WaterZhangDuan2005.cpp:159-199, WaterElectroFernandez1997.cpp:61-87, WaterElectroSverjensky2014.cpp:46-70 *)
(** [f] the quantity as a function of the coordinate that is varied by one thousandth of itself; None: 0/0 *)
Definition fd1 (f : R -> R) (x : R) : option R :=
  let xp := x + x * (1 / 1000) in let xm := x - x * (1 / 1000) in if isz (xp - xm) then None else Some ((f xp - f xm) / (xp - xm)).
Definition fd2 (f : R -> R) (x : R) : option R :=
  let xp := x + x * (1 / 1000) in let xm := x - x * (1 / 1000) in if isz (xp - xm) then None else Some ((f xp + f xm - 2 * f x) / ((xp - xm) * (1 / 2)) ^ 2).
(** WaterZhangDuan2005.cpp:146-205: densityT, densityP, densityTT, densityPP from the density [rho] (K, bar) *)
Record fdens : Type := mkFd { fd_T : option R; fd_P : option R; fd_TT : option R; fd_PP : option R }.
Definition omul (c : R) (x : option R) : option R := match x with None => None | Some y => Some (y * c) end.
Definition zd_props (rho : R -> R -> R) (T P : R) : fdens :=
  mkFd (fd1 (fun t => rho t P) T) (omul (1 / 100000) (fd1 (fun p => rho T p) P)) (fd2 (fun t => rho t P) T) (omul (1 / 100000) (fd2 (fun p => rho T p) P)).
(** electroPropertiesWaterFernandez1997 45-102, electroPropertiesWaterSverjensky2014 30-85: the temperature is varied in Celsius and the
    pressure in bar; [eps TC Pbar] the dielectric constant with the density at that state; epsilonTP, bornU and bornN keep the
    default 0 of the record *)
Definition fd_electro (eps : R -> R -> R) (TC Pbar : R) : option electro :=
  match fd1 (fun t => eps t Pbar) TC, fd2 (fun t => eps t Pbar) TC, fd1 (fun p => eps TC p) Pbar, fd2 (fun p => eps TC p) Pbar with
  | Some eT, Some eTT, Some eP, Some ePP =>
      let e := eps TC Pbar in let e2 := e * e in let Y := eT / e2 in
      Some (mkEl e eT eP eTT 0 ePP (-1 / e) Y (eP / e2 * (1 / 100000)) 0 0 (eTT / e2 - 2 * Y * Y * e))
  | _, _, _, _ => None
  end.
(** epsilonS, WaterElectroSverjensky2014.cpp:25-28, density in g/cm3, temperature in Celsius *)
Definition epsS (T rho : R) : R :=
  exp (- (8016651 / 100000000000) * T + - (6871618 / 100000000) * sqrt T + 4747973 / 1000000)
  * Rpower rho (- (1576377 / 1000000000) * T + 6810288 / 100000000 * sqrt T + 7548755 / 10000000).
