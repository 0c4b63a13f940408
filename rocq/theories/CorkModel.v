(** Model of the pure-fluid part of the compensated Redlich-Kwong fluids: TCORKcalc in
      Substances/Gases/s_solmod2_.cpp 4074-4086, 4380-4876 and 5006-5028, and of the copy of
      FugacityCorresponding in TSTPcalc (5738-5838).
    T in K, pressures P in kbar (Pkb) unless said otherwise, volumes in J/bar = kJ/kbar.  [double] is [R].
    [x^n] stands for pow with a whole exponent, sqrt T, T*sqrt T and T^2*sqrt T for pow(T,0.5), pow(T,1.5), pow(T,2.5).
    A result that is not a finite number (0/0, the logarithm of a value that is not positive) is [None].
    The circle number of Cardano is an argument.  Definitions only. *)
From Coq Require Import Reals String Ascii List Bool.
From Verif Require Import GasModel.
Import ListNotations.
Open Scope R_scope.

(** 4077: the gas constant in kJ/(mol K) *)
Definition RR : R := 831451 / 100000000.

(** *** Cardano, 4840-4876 *)
(** cp and cq of 4844-4845 are [c_r] and [c_q]; 4850-4865 one real root, 4868-4874 three.
    In the second branch cp = 0 makes the quotient infinite (atan = PI/2) unless cq = 0 (0/0). *)
Definition cork_angle (pi cp cq : R) : option R :=
  if Req_EM_T cq 0 then None
  else if Req_EM_T cp 0 then Some (PI / 2)
  else let co := atan (sqrt (1 - cp ^ 2 / cq ^ 3) / (cp / sqrt (cq ^ 3))) in
       Some (if Rlt_dec co 0 then co + pi else co).
Definition cork_cardano (pi cb cc cd : R) : option (R * R * R) :=
  let cp := c_r cb cc cd in let cq := c_q cb cc in
  if Rlt_dec 0 (cp ^ 2 - cq ^ 3) then
    if Req_EM_T cp 0 then None   (* cp/fabs(cp) *)
    else
      let cr := - cp / Rabs cp * Rpower (Rabs cp + sqrt (cp ^ 2 - cq ^ 3)) (1 / 3) in
      let v := if Req_EM_T cr 0 then - cb / 3 else cr + cq / cr - cb / 3 in Some (v, v, v)
  else match cork_angle pi cp cq with
  | None => None
  | Some co => Some (-2 * sqrt cq * cos (co / 3) - cb / 3, -2 * sqrt cq * cos ((co + 2 * pi) / 3) - cb / 3, -2 * sqrt cq * cos ((co - 2 * pi) / 3) - cb / 3)
  end.
(** *** VolumeFugacity, 4780-4834 *)
(** 4794-4804 *)
Definition first_pos (v1 v2 v3 : R) : R := if Rlt_dec 0 v1 then v1 else if Rlt_dec 0 v2 then v2 else v3.
Definition vapour_root (r : R * R * R) : R :=
  let '(v1, v2, v3) := r in
  let v := first_pos v1 v2 v3 in let v := if Rlt_dec v v2 then v2 else v in if Rlt_dec v v3 then v3 else v.
(** 4808-4818; the last test looks at v2, not at v3 *)
Definition liquid_root (r : R * R * R) : R :=
  let '(v1, v2, v3) := r in
  let v := first_pos v1 v2 v3 in
  let v := if Rlt_dec v2 v then (if Rlt_dec 0 v2 then v2 else v) else v in
  if Rlt_dec v3 v then (if Rlt_dec 0 v2 then v3 else v) else v.
(** the two phases, phState 1 and 2 *)
Inductive phase : Type := vapour | liquid.
Definition chosen_root (ph : phase) : R * R * R -> R := match ph with vapour => vapour_root | liquid => liquid_root end.
(** 4785-4787 *)
Definition mrk_cb (T p : R) : R := -1 * RR * T / p.
Definition mrk_cc (a b T p : R) : R := -1 * (b * RR * T + b ^ 2 * p - a / sqrt T) / p.
Definition mrk_cd (a b T p : R) : R := -1 * a * b / (sqrt T * p).
(** 4821 *)
Definition mrk_lng (a b T p v : R) : R := p * v / (RR * T) - 1 - ln ((v - b) * p / (RR * T)) - a / (b * RR * T * sqrt T) * ln (1 + b / v).
(** 4822-4830: the virial-type corrections above p0; the Gibbs part is divided by R T *)
Definition vir_v (p0 c d e p : R) : R :=
  if Rlt_dec p0 p then c * sqrt (p - p0) + d * (p - p0) + e * sqrt (sqrt (p - p0)) else 0.
Definition vir_g (p0 c d e p : R) : R :=
  if Rlt_dec p0 p then 2 / 3 * c * (p - p0) * sqrt (p - p0) + d / 2 * (p - p0) ^ 2 + 4 / 5 * e * (p - p0) * sqrt (sqrt (p - p0)) else 0.
(** parameters of a fluid at a temperature: a, b, da/dT, d2a/dT2 and c, d, e, p0 *)
Record corkpar : Type := mkCork { k_ab : abpar; k_c : R; k_d : R; k_e : R; k_p0 : R }.
(** 4780-4834: volume and logarithm of the fugacity coefficient *)
Definition volume_fugacity (pi : R) (ph : phase) (k : corkpar) (T p : R) : option (R * R) :=
  let a := e_a (k_ab k) in let b := e_b (k_ab k) in
  match cork_cardano pi (mrk_cb T p) (mrk_cc a b T p) (mrk_cd a b T p) with
  | None => None
  | Some r => let v := chosen_root ph r in
      if Rlt_dec 0 ((v - b) * p / (RR * T)) then if Rlt_dec 0 (1 + b / v) then
        Some (v + vir_v (k_p0 k) (k_c k) (k_d k) (k_e k) p, mrk_lng a b T p v + vir_g (k_p0 k) (k_c k) (k_d k) (k_e k) p / (RR * T))
      else None else None
  end.

(** *** derivatives of the Redlich-Kwong pressure at density r (mol per J/bar), 4534-4554 and 4621-4637 *)
Record ptab : Type := mkPtab { p_r : R; p_rr : R; p_t : R; p_tt : R; p_rt : R }.
Definition mrk_tab (e : abpar) (T r : R) : ptab :=
  let a := e_a e in let b := e_b e in let da := e_da e in let d2a := e_d2a e in let s := sqrt T in
  mkPtab (RR * T / ((1 / r - b) ^ 2 * r ^ 2) - a / ((1 / r + b) * s) - a / (r * (1 / r + b) ^ 2 * s))
         (2 * RR * T / ((1 / r - b) ^ 3 * r ^ 4) - 2 * RR * T / ((1 / r - b) ^ 2 * r ^ 3) - 2 * a / (r ^ 3 * (1 / r + b) ^ 3 * s))
         (RR / (1 / r - b) - da * r / ((1 / r + b) * s) + 1 / 2 * a * r / ((1 / r + b) * (T * s)))
         (- (d2a * r) / ((1 / r + b) * s) + da * r / ((1 / r + b) * (T * s)) - 3 / 4 * a * r / ((1 / r + b) * (T ^ 2 * s)))
         (RR / ((1 / r - b) ^ 2 * r ^ 2) - da / ((1 / r + b) * s) - da / (r * (1 / r + b) ^ 2 * s)
          + 1 / 2 * a / ((1 / r + b) * (T * s)) + 1 / 2 * a / (r * (1 / r + b) ^ 2 * (T * s))).
(** 4549-4554: derivatives of the density: by T, twice by T, by P, twice by P, by T and P; also TSTPcalc 5600-5605 *)
Record rtab : Type := mkRtab { r_t : R; r_tt : R; r_p : R; r_pp : R; r_tp : R }.
Definition rho_tab (q : ptab) : rtab :=
  let dpr := p_r q in let dprr := p_rr q in let dpt := p_t q in let dptt := p_tt q in let dprt := p_rt q in
  mkRtab (-1 * (1 / dpr) * dpt)
         ((dpt - dptt + dpt * (dprt - dpr) * / dpr) * / dpr + (dprt - dpt * dprr * / dpr) * / dpr ^ 2 * dpt)
         (1 / dpr) (-1 * dprr * / dpr ^ 3)
         (- / dpr - (dprt - dpr) * / dpr ^ 2 + dprr * dpt * / dpr ^ 3).

(** *** state functions, 4557-4566 and 4640-4648 *)
Definition mrk_h (e : abpar) (T p v : R) : R :=
  (p * v / (RR * T) - 1 - 1 / (e_b e * RR * T) * (sqrt T * e_da e - 3 / 2 * e_a e / sqrt T) * ln (v / (v + e_b e))) * Rg * T.
Definition mrk_cv (e : abpar) (T v : R) : R :=
  -1 / (e_b e * RR) * (- e_da e / sqrt T + sqrt T * e_d2a e + 3 * e_a e / (4 * (T * sqrt T))) * ln (v / (v + e_b e)) * Rg.
Definition mrk_pv (e : abpar) (T v : R) : R :=
  (- RR * T / (v - e_b e) ^ 2 + e_a e / (v ^ 2 * (v + e_b e) * sqrt T) + e_a e / (v * (v + e_b e) ^ 2 * sqrt T)) * 1000.
Definition mrk_c (e : abpar) (T v : R) : R :=
  let dpt := p_t (mrk_tab e T (1 / v)) in
  mrk_cv e T v + T * (dpt * 1000) * (-1 * (1 / mrk_pv e T v) * (dpt * 1000)) - Rg.
(** 4569-4584: what the functions leave in Fugpure and Rho; lng is the logarithm of the fugacity coefficient *)
Definition mrk_fug (e : abpar) (T p v lng : R) : fug :=
  mkFug (exp lng) (Rg * T * lng) (mrk_h e T p v) ((mrk_h e T p v - Rg * T * lng) / T) v (mrk_c e T v).
Definition mrk_rho (e : abpar) (T v : R) : list R :=
  let r := 1 / v in let q := mrk_tab e T r in let d := rho_tab q in
  [r * (1 / 10); r_t d * (1 / 10); r_tt d * (1 / 10); r_p d * (1 / 1000); r_pp d * (1 / 100000); r_tp d * (1 / 1000);
   p_r q * 1000; p_rr q * 10000; p_t q * 100; p_tt q * 100; p_rt q * 1000].

(** *** water, 4425-4587 *)
(** 4432-4454 *)
Definition h2o_b : R := 1465 / 1000.
Definition h2o_c : R := -8909 / 100000.
Definition h2o_d : R := 19853 / 10000000.
Definition h2o_e : R := 80331 / 1000000.
Definition h2o_p0 : R := 2.
Definition h2o_a0 : R := 11134 / 10.
(** a cubic in x with its first two derivatives by the temperature when x = 673 - T, 4473-4475 and the like *)
Definition h2o_cubic (x k1 k2 k3 : R) : abpar :=
  mkAB (h2o_a0 + k1 * x + k2 * x ^ 2 + k3 * x ^ 3) h2o_b (- k1 - 2 * k2 * x - 3 * k3 * x ^ 2) (2 * k2 + 6 * k3 * x).
Definition h2o_gas (T : R) : abpar := h2o_cubic (673 - T) (58487 / 10000) (-21370 / 1000000) (68133 / 1000000000).   (* a7 a8 a9 *)
Definition h2o_liq (T : R) : abpar := h2o_cubic (673 - T) (-88517 / 100000) (453 / 100000) (-13183 / 1000000000).   (* a1 a2 a3 *)
Definition h2o_fl (T : R) : abpar := h2o_cubic (673 - T) (-22291 / 100000) (-38022 / 100000000) (17791 / 100000000000).   (* a4 a5 a6 *)
(** 4460-4462: above 695 K the attraction is a cubic in T - 673, its derivatives are still those of a cubic in 673 - T *)
Definition h2o_sup (T : R) : abpar :=
  let x := T - 673 in
  mkAB (h2o_a0 + -22291 / 100000 * x + -38022 / 100000000 * x ^ 2 + 17791 / 100000000000 * x ^ 3) h2o_b (e_da (h2o_fl T)) (e_d2a (h2o_fl T)).
Definition h2o_par (e : abpar) : corkpar := mkCork e h2o_c h2o_d h2o_e h2o_p0.
(** 4468 *)
Definition h2o_psat (T : R) : R := -13627 / 1000000 + 729395 / 1000000000000 * T ^ 2 - 234622 / 100000000000000 * T ^ 3 + 483607 / 100000000000000000000 * T ^ 5.
(** 4472-4483, 4490-4501 and 4505-4516, 4520-4531: parameters below 695 K of the two phases *)
Definition h2o_vap (T : R) : abpar := if Rlt_dec T 673 then h2o_gas T else h2o_fl T.
Definition h2o_con (T : R) : abpar := if Rlt_dec T 673 then h2o_liq T else h2o_fl T.
(** 4457-4535: the parameters used for the state functions, the volume and the logarithm of the fugacity coefficient *)
Definition h2o_state (pi T p : R) : option (abpar * R * R) :=
  if Rlt_dec 695 T then match volume_fugacity pi vapour (h2o_par (h2o_sup T)) T p with Some (v, g) => Some (h2o_sup T, v, g) | None => None end
  else if Rlt_dec p (h2o_psat T) then match volume_fugacity pi vapour (h2o_par (h2o_vap T)) T p with Some (v, g) => Some (h2o_vap T, v, g) | None => None end
  else match volume_fugacity pi vapour (h2o_par (h2o_vap T)) T (h2o_psat T), volume_fugacity pi liquid (h2o_par (h2o_con T)) T (h2o_psat T),
             volume_fugacity pi liquid (h2o_par (h2o_con T)) T p with
  | Some (_, g1), Some (_, g2), Some (v, g3) => Some (h2o_con T, v, g1 - g2 + g3)   (* log of g1/g2*g3 *)
  | _, _, _ => None
  end.
Definition cork_h2o (pi T p : R) : option (fug * list R) :=
  match h2o_state pi T p with Some (e, v, g) => Some (mrk_fug e T p v g, mrk_rho e T v) | None => None end.

(** *** carbon dioxide, 4592-4669 *)
Definition co2_ab (T : R) : abpar :=
  mkAB (6598 / 10 + 21078 / 100000 * T + -63976 / 100000000 * T ^ 2) (3057 / 1000) (21078 / 100000 + 2 * (-63976 / 100000000) * T) (2 * (-63976 / 100000000)).
Definition co2_par (T : R) : corkpar :=
  mkCork (co2_ab T) (-178198 / 1000000 + 245317 / 10000000000 * T) (540776 / 100000000 + -159046 / 100000000000 * T) 0 5.
Definition cork_co2 (pi T p : R) : option (fug * list R) :=
  match volume_fugacity pi vapour (co2_par T) T p with Some (v, g) => Some (mrk_fug (co2_ab T) T p v g, mrk_rho (co2_ab T) T v) | None => None end.

(** *** other fluids, 4675-4776; pcr in kbar *)
Record cspar : Type := mkCs { s_a : R; s_b : R; s_c : R; s_d : R; s_da : R; s_dc : R; s_dd : R }.
Definition cs_par (tcr pcr T : R) : cspar :=
  let a0 := 545963 / 10000000000 in let a1 := -86392 / 10000000000 in let b0 := 918301 / 1000000000 in let c0 := -330558 / 10000000000 in
  let c1 := 230524 / 100000000000 in let d0 := 693054 / 1000000000000 in let d1 := -838293 / 10000000000000 in
  mkCs (a0 * tcr ^ 2 * sqrt tcr / pcr + a1 * tcr * sqrt tcr / pcr * T) (b0 * tcr / pcr)
       (c0 * tcr / (pcr * sqrt pcr) + c1 / (pcr * sqrt pcr) * T) (d0 * tcr / pcr ^ 2 + d1 / pcr ^ 2 * T)
       (a1 * (tcr * sqrt tcr) / pcr) (c1 / (pcr * sqrt pcr)) (d1 / pcr ^ 2).
(** 4699-4702 *)
Definition cs_v (k : cspar) (T P : R) : R :=
  RR * T / P + s_b k - s_a k * RR * sqrt T / ((RR * T + s_b k * P) * (RR * T + 2 * s_b k * P)) + s_c k * sqrt P + s_d k * P.
Definition cs_rtlnf (k : cspar) (T P : R) : R :=
  RR * T * ln (1000 * P) + s_b k * P + s_a k / (s_b k * sqrt T) * (ln (RR * T + s_b k * P) - ln (RR * T + 2 * s_b k * P))
  + 2 / 3 * s_c k * P * sqrt P + s_d k / 2 * P ^ 2.
Definition cs_fc (k : cspar) (T P : R) : R := exp (cs_rtlnf k T P / (RR * T)) / (1000 * P).
(** 4705-4737: derivatives of the volume; by pressure per bar *)
Definition cs_vt (k : cspar) (T P : R) : R :=
  let a := s_a k in let b := s_b k in let da := s_da k in let A := RR * T + b * P in let B := RR * T + 2 * b * P in
  RR / P - da * RR * sqrt T / (A * B) - a * RR / (2 * sqrt T * A * B) + a * RR ^ 2 * sqrt T / (A ^ 2 * B) + a * RR ^ 2 * sqrt T / (A * B ^ 2)
  + s_dc k * sqrt P + s_dd k * P.
Definition cs_vtt (k : cspar) (T P : R) : R :=
  let a := s_a k in let b := s_b k in let da := s_da k in let A := RR * T + b * P in let B := RR * T + 2 * b * P in
  - (da * RR) / (sqrt T * A * B) + 2 * da * RR ^ 2 * sqrt T / (A ^ 2 * B) + 2 * da * RR ^ 2 * sqrt T / (A * B ^ 2)
  + a * RR / (4 * (T * sqrt T) * A * B) + a * RR ^ 2 / (sqrt T * A ^ 2 * B) + a * RR ^ 2 / (sqrt T * A * B ^ 2)
  - 2 * a * RR ^ 3 * sqrt T / (A ^ 3 * B) - 2 * a * RR ^ 3 * sqrt T / (A ^ 2 * B ^ 2) - 2 * a * RR ^ 3 * sqrt T / (A * B ^ 3).
Definition cs_vp (k : cspar) (T P : R) : R :=
  let a := s_a k in let b := s_b k in let A := RR * T + b * P in let B := RR * T + 2 * b * P in
  (- RR * T / P ^ 2 + a * RR * sqrt T * b / (A ^ 2 * B) + 2 * a * RR * sqrt T * b / (A * B ^ 2) + s_c k / (2 * sqrt P) + s_d k) / 1000.
Definition cs_vpp (k : cspar) (T P : R) : R :=
  let a := s_a k in let b := s_b k in let A := RR * T + b * P in let B := RR * T + 2 * b * P in
  (2 * RR * T / P ^ 3 - 2 * a * RR * sqrt T * b ^ 2 / (A ^ 3 * B) - 4 * a * RR * sqrt T * b ^ 2 / (A ^ 2 * B ^ 2)
   - 8 * a * RR * sqrt T * b ^ 2 / (A * B ^ 3) - s_c k / (4 * (P * sqrt P))) / 1000000.
Definition cs_vtp (k : cspar) (T P : R) : R :=
  let a := s_a k in let b := s_b k in let da := s_da k in let A := RR * T + b * P in let B := RR * T + 2 * b * P in
  (- RR / P ^ 2 + da * RR * sqrt T * b / (A ^ 2 * B) + a * RR * b / (2 * sqrt T * A ^ 2 * B) - 2 * a * RR ^ 2 * sqrt T * b / (A ^ 3 * B)
   - 3 * a * RR ^ 2 * sqrt T * b / (A ^ 2 * B ^ 2) + 2 * da * RR * sqrt T * b / (A * B ^ 2) + a * RR * b / (sqrt T * A * B ^ 2)
   - 4 * a * RR ^ 2 * sqrt T * b / (A * B ^ 3) + s_dc k / (2 * P ^ 2) + s_dd k) / 1000.
(** 4738-4743: derivatives of the density 1/V *)
Definition cs_rho (k : cspar) (T P : R) : rtab :=
  let r := 1 / cs_v k T P in let drt := - cs_vt k T P * r ^ 2 in let drp := - cs_vp k T P * r ^ 2 in
  mkRtab drt (- (cs_vtt k T P * r ^ 3 - 2 * drt ^ 2) / r) drp (- (cs_vpp k T P * r ^ 3 - 2 * drp ^ 2) / r) (- (cs_vtp k T P * r ^ 3 - 2 * drt * drp) / r).
(** 4746-4754 *)
Definition cs_h (k : cspar) (T P : R) : R :=
  let a := s_a k in let b := s_b k in let da := s_da k in let A := RR * T + b * P in let B := RR * T + 2 * b * P in let s := sqrt T in
  (s * da * ln B / b - s * da * ln A / b - 3 * a * ln B / (2 * s * b) + 3 * a * ln A / (2 * s * b) - s * a * RR / (b * A) + s * a * RR / (b * B)
   - 2 * T * s_dc k * (P * sqrt P) / 3 - T * s_dd k * P ^ 2 / 2 + b * P + 2 * s_c k * (P * sqrt P) / 3 + s_d k * P ^ 2 / 2) * 1000.
Definition cs_cp (k : cspar) (T P : R) : R :=
  let a := s_a k in let b := s_b k in let da := s_da k in let A := RR * T + b * P in let B := RR * T + 2 * b * P in let s := sqrt T in
  (- (2 * s * da * RR) / (b * A) + s * a * RR ^ 2 / (b * A ^ 2) + 2 * s * da * RR / (b * B) - a * RR / (s * b * B)
   - da * ln B / (s * b) + da * ln A / (s * b) + 3 * a * ln B / (4 * (T * s) * b) - 3 * a * ln A / (4 * (T * s) * b)
   - s * a * RR ^ 2 / (b * B ^ 2) + a * RR / (s * b * A)) * 1000.
(** 4745 and 4756-4767 *)
Definition cork_cs (tcr pcr T P : R) : fug * list R :=
  let k := cs_par tcr pcr T in let fc := cs_fc k T P in let g := Rg * T * ln fc in let h := cs_h k T P in let d := cs_rho k T P in
  (mkFug fc g h ((h - g) / T) (cs_v k T P) (cs_cp k T P),
   [1 / cs_v k T P * (1 / 10); r_t d * (1 / 10); r_tt d * (1 / 10); r_p d; r_pp d * 10; r_tp d]).

(** *** FugacityPT 4380-4419 for the codes GasCORK.cpp can pass, and CORKCalcFugPure 5006-5028; critical pressure Pc and P in bar *)
Definition cork_pure (pi : R) (formula : string) (Tc Pc T P : R) : option fug :=
  match cork_code formula with
  | Some "V"%char => option_map fst (cork_h2o pi T (P / 1000))
  | Some "C"%char => option_map fst (cork_co2 pi T (P / 1000))
  | _ => Some (fst (cork_cs Tc (Pc / 1000) T (P / 1000)))
  end.
Definition cork_calc (pi : R) (formula : string) (Tmin Tc Pc T P : R) : option fug := calc_pure (cork_pure pi formula Tc Pc) Tmin T P.
