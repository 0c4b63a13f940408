(** Water near its critical point, equation of Levelt Sengers et al. (1983): Substances/Solvent/WaterHGK-JNgems.cpp
      302-337 constants, 637-727 Pfind, 730-797 aux, 802-858 denLVS, 1088-1105 TsLVS, 1161-1187 LVSsat, 1193-1281 thmLVS, 1284-1432 dalLVS,
      1793-1924 conver, 1931-1963 ss, 1970-2041 rtheta.
    T in K, P in MPa, D in kg/m3; [r] and [th] are the parametric variables par.r1 (a2.r) and par.th1 (a2.th).  [Rpower] stands for pow of a positive base.  Definitions only. *)
From Coq Require Import Bool Reals.
Open Scope R_scope.

(** COEFS and CRITS (WaterHGK-JNgems.h:181-193), the members that are used: a[0] = l_c, a[1] = l_P3, a[3] = l_P2, a[4] = l_P1, a[5] = l_b, a[6] = l_k0, a[8] = l_b2, a[9] = l_a, a[10] = l_del, a[11] = l_k1,
    a[12..15] = l_mc l_m1 l_m2 l_m3, a[16] = l_s00, a[17] = l_s20, a[18] = l_s01, a[19] = l_s21, q[8] = l_p11, q[9] = l_al, q[10..12] = l_p00 l_p20 l_p40, q[13] = l_D1, q[14] = l_ali, q[15] = l_bi, q[17..19] = l_p01 l_p21 l_p41 *)
Record lvs : Type := mkLvs {
  l_c : R; l_P3 : R; l_P2 : R; l_P1 : R; l_b : R; l_k0 : R; l_b2 : R; l_a : R; l_del : R; l_k1 : R; l_mc : R; l_m1 : R; l_m2 : R; l_m3 : R; l_s00 : R; l_s20 : R; l_s01 : R; l_s21 : R;
  l_p11 : R; l_al : R; l_p00 : R; l_p20 : R; l_p40 : R; l_D1 : R; l_ali : R; l_bi : R; l_p01 : R; l_p21 : R; l_p41 : R;
  l_Tc : R; l_rc : R; l_Pc : R; l_Pcon : R; l_Ucon : R; l_Scon : R; l_dPcon : R }.
(** 302-329 *)
Definition co_ : lvs := mkLvs
  (-0.017762) 5.238 (-25.4915) 6.8445 0.325 1.4403 1.3757 23.6666 4.82 0.2942 (-11.2326) (-22.6547) (-17.8876) (-4.9332)
  1.109430391161019373812391218008 (-1.981395981400671095301629432211) 0.246912528778663959151808173743 (-0.843411332867484343974055795059)
  0.491775937675717720291497417773 0.1085 0.586534703230779473334597524774 (-1.026243389120214352553706598564) 0.612903225806451612903225804745 0.5 (-0.3915) 0.825
  0.103245882826119154987166286332 0.160322434159191991394857495360 (-0.169859514687100893997445721324)
  647.067 322.778 22.046 0.034070660379837018423130834983 22046 34.070660379837018423130834983 0.000000327018783663660700780197.

Section Lvs.
Variable c : lvs.
(** 682-683 *)
Definition Tw (T : R) : R := - l_Tc c / T.
Definition dTw (T : R) : R := 1 + Tw T.
(** 1858, aa * pow(r1, beta*delta) * th1 * (1 - tt) *)
Definition amu_ (r th : R) : R := l_a c * Rpower r (l_b c * l_del c) * th * (1 - th * th).
(** ss, 1951-1957 *)
Definition sx0 (th : R) : R := l_s00 c + l_s20 c * (th * th).
Definition sx1 (th : R) : R := l_s01 c + l_s21 c * (th * th).
Definition sd0 (th : R) : R := 2 * l_s20 c * th.
Definition sd1 (th : R) : R := 2 * l_s21 c * th.
Definition s0 (r th : R) : R := sx0 th * l_a c * l_k0 c * Rpower r (1 - l_al c).
Definition s1 (r th : R) : R := sx1 th * l_a c * l_k1 c * Rpower r (1 - l_ali c).
(** the reduced density of a parametric state, 696-698, 1236-1238 *)
Definition rhow (T r th : R) : R :=
  th * (l_k0 c * Rpower r (l_b c) + l_k1 c * Rpower r (l_bi c)) + l_c c * (s0 r th + s1 r th) + (1 + l_p11 c * dTw T).
(** Pfind, 703-715 *)
Definition p0th (th : R) : R := l_p00 c + l_p20 c * (th * th) + l_p40 c * ((th * th) * (th * th)).
Definition p1th (th : R) : R := l_p01 c + l_p21 c * (th * th) + l_p41 c * ((th * th) * (th * th)).
Definition Pw0 (T : R) : R := 1 + dTw T * (l_P1 c + dTw T * (l_P2 c + dTw T * l_P3 c)).
Definition dPw (r th : R) : R := l_a c * (l_k0 c * p0th th * Rpower r (2 - l_al c) + l_k1 c * p1th th * Rpower r (2 - l_ali c)).
Definition Pw (T r th : R) : R := Pw0 T + amu_ r th * (1 + l_p11 c * dTw T) + dPw r th.
Definition Pof (T r th : R) : R := Pw T r th * l_Pcon c * T.
(** aux, 730-797; the loop unrolled *)
Definition gam : R := l_b c * (l_del c - 1).
Definition ter : R := 2 * l_b c * l_del c - 1.
Definition gx (th : R) : R := 1 + (l_b2 c * ter - 3) * (th * th) - l_b2 c * (ter - 2) * (th * th) * (th * th).
Section Term.
Variables (deli k : R) (sx sd : R) (r th : R).
Definition wi : R := ((1 - (l_al c - deli)) * (1 - 3 * (th * th)) * sx - l_b c * l_del c * (1 - th * th) * th * sd) * Rpower r (- (l_al c - deli)) / gx th * k.
Definition yi : R := (((l_b c + deli) * (1 - 3 * (th * th)) * th - l_b c * l_del c * (1 - th * th) * th) * Rpower r (l_b c + deli - 1)) * k / gx th.
Definition zi : R := ((1 - l_b2 c * (1 - 2 * (l_b c + deli)) * (th * th)) * Rpower r (- (gam - deli))) * k / gx th.
End Term.
Definition ww (r th : R) : R := 0 + wi 0 (l_k0 c) (sx0 th) (sd0 th) r th + wi (1 / 2) (l_k1 c) (sx1 th) (sd1 th) r th.
Definition yy (r th : R) : R := 0 + yi 0 (l_k0 c) r th + yi (1 / 2) (l_k1 c) r th.
Definition zz (r th : R) : R := 0 + zi 0 (l_k0 c) r th + zi (1 / 2) (l_k1 c) r th.
Definition d2PdT2 (r th : R) : R := l_a c * ww r th.
Definition d2PdMT (r th : R) : R := yy r th + l_a c * l_c c * ww r th.
Definition d2PdM2 (r th : R) : R := zz r th / l_a c + 2 * l_c c * yy r th + l_c c * l_c c * l_a c * ww r th.
(** Pfind 722-725, thmLVS 1250: (dP/dD)T *)
Definition dPdD (T D r th : R) : R := l_dPcon c * D * T / d2PdM2 r th.
(** thmLVS, 1221-1281, for r1 other than 0 *)
Definition dP0dT (T : R) : R := l_P1 c + dTw T * (2 * l_P2 c + 3 * l_P3 c * dTw T).
Definition dM0dT (T : R) : R := l_m1 c + dTw T * (2 * l_m2 c + 3 * l_m3 c * dTw T).
Definition d2P0dT (T : R) : R := 2 * l_P2 c + 6 * l_P3 c * dTw T.
Definition d2M0dT (T : R) : R := 2 * l_m2 c + 6 * l_m3 c * dTw T.
Record therm : Type := mkTherm { h_A : R; h_G : R; h_S : R; h_U : R; h_H : R; h_Cv : R; h_Cp : R; h_beta : R; h_alpha : R; h_speed : R }.
Definition dPdTcd (T D r th : R) : R :=
  dP0dT T + l_p11 c * (amu_ r th - D / l_rc c / d2PdM2 r th) + s0 r th + s1 r th - d2PdMT r th * (D / l_rc c) / d2PdM2 r th.
Definition thmLVS (T D r th : R) : therm :=
  let rho := D / l_rc c in
  let am := amu_ r th in
  let Uw := dP0dT T - rho * dM0dT T + l_p11 c * am + s0 r th + s1 r th in
  let dPwdTw := Pw T r th - Tw T * dPdTcd T D r th in
  let dPdTal := l_Pcon c * dPwdTw in
  let CviTw2 := d2P0dT T - rho * d2M0dT T + d2PdT2 r th - (l_p11 c + d2PdMT r th) * (l_p11 c + d2PdMT r th) / d2PdM2 r th in
  let Cvw := CviTw2 * Tw T * Tw T in
  let Cpw := Cvw + d2PdM2 r th * dPwdTw * dPwdTw / (rho * rho) in
  let betaw := 1 / (D * dPdD T D r th) in
  let Hw := Pw T r th - Tw T * Uw in
  let Sw := Hw - rho * (am + l_mc c + dTw T * (l_m1 c + dTw T * (l_m2 c + dTw T * l_m3 c))) in
  let Scond := l_Scon c / D in
  let U := Uw * l_Ucon c / D in
  let H := Hw * Scond * T in
  let S := Sw * Scond in
  mkTherm (U - T * S) (H - T * S) S U H (Cvw * Scond) (Cpw * Scond) betaw (betaw * dPdTal) (1000 * sqrt (Cpw / Cvw * dPdD T D r th)).

(** *** dalLVS, 1284-1432 *)
Section Dal.
Variables (D T P alpha r th : R).
(** calpha, cbeta, cgamma (1331-1336) *)
Definition cg0 : R := l_b c * (l_del c - 1).
Definition cg1 : R := cg0 - l_D1 c.
(** the linear system, 1350-1368 *)
Definition e_b1 : R := - D / l_rc c * alpha - l_p11 c * l_Tc c / T / T.
Definition e_b2 : R := l_Tc c / T ^ 2.
Definition ar1_i (k be al sx : R) : R := k * (be * th * Rpower r (be - 1) + l_a c * l_c c * (1 - al) * Rpower r (- al) * sx).
Definition a01_i (k be al sd : R) : R := k * (Rpower r be + l_a c * l_c c * sd * Rpower r (1 - al)).
Definition ar1 : R := 0 + ar1_i (l_k0 c) (l_b c) (l_al c) (sx0 th) + ar1_i (l_k1 c) (l_bi c) (l_ali c) (sx1 th).
Definition a01 : R := 0 + a01_i (l_k0 c) (l_b c) (l_al c) (sd0 th) + a01_i (l_k1 c) (l_bi c) (l_ali c) (sd1 th).
Definition ar2 : R := 1 - l_b2 c * th ^ 2 - l_a c * l_c c * l_b c * l_del c * (1 - th ^ 2) * th * Rpower r (l_b c * l_del c - 1).
Definition a02 : R := 3 * l_a c * l_c c * th ^ 2 * Rpower r (l_b c * l_del c) - 2 * l_b2 c * r * th - l_a c * l_c c * Rpower r (l_b c * l_del c).
(** 1372-1383 *)
Definition d0dT : R :=
  if Rlt_dec (Rabs ar2) (Rabs ar1) then (e_b2 + - ar2 / ar1 * e_b1) / (a02 + - ar2 / ar1 * a01) else (e_b1 + - ar1 / ar2 * e_b2) / (a01 + - ar1 / ar2 * a02).
Definition drdT : R :=
  if Rlt_dec (Rabs ar2) (Rabs ar1) then (e_b1 - a01 * d0dT) / ar1 else (e_b2 - a02 * d0dT) / ar2.
(** 1386-1412 *)
Definition e_q : R := 1 + (l_b2 c * (2 * l_b c * l_del c - 1) - 3) * th ^ 2 - l_b2 c * (2 * l_b c * l_del c - 3) * th ^ 4.
Definition dqdT : R := 2 * (l_b2 c * (2 * l_b c * l_del c - 1) - 3) * th * d0dT - 4 * l_b2 c * (2 * l_b c * l_del c - 3) * th ^ 3 * d0dT.
Definition ui (be : R) : R := (1 - l_b2 c * (1 - 2 * be) * th ^ 2) / e_q.
Definition dui (be : R) : R := (- 2 * l_b2 c * (1 - 2 * be) * th * d0dT - ui be * dqdT) / e_q.
Definition vi (be : R) : R := ((be - l_b c * l_del c) * th + (l_b c * l_del c - 3 * be) * th ^ 3) / e_q.
Definition dvi (be : R) : R := ((be - l_b c * l_del c) * d0dT + 3 * (l_b c * l_del c - 3 * be) * th ^ 2 * d0dT - vi be * dqdT) / e_q.
Definition wj (al sx sd : R) : R := ((1 - al) * (1 - 3 * th ^ 2) * sx - l_b c * l_del c * (th - th ^ 3) * sd) / e_q.
Definition dwj (al sx sd dsx dsd : R) : R :=
  ((1 - al) * ((1 - 3 * th ^ 2) * dsx - 6 * th * sx * d0dT) - l_b c * l_del c * ((th - th ^ 3) * dsd + sd * (d0dT - 3 * th ^ 2 * d0dT)) - wj al sx sd * dqdT) / e_q.
Definition dsdT0 : R := 2 * l_s20 c * th * d0dT.
Definition dsdT1 : R := 2 * l_s21 c * th * d0dT.
Definition dspdT0 : R := 2 * l_s20 c * d0dT.
Definition dspdT1 : R := 2 * l_s21 c * d0dT.
(** 1416-1421 *)
Definition delT : R := (T - l_Tc c) / T.
Definition dP0dTT : R := l_Tc c / T ^ 2 * (2 * l_P2 c + 6 * l_P3 c * delT).
Definition ddelMT : R := l_a c * Rpower r (l_b c * l_del c) * (l_b c * l_del c * th / r * (1 - th ^ 2) * drdT + (1 - 3 * th ^ 2) * d0dT).
(** 1425-1440: the three sums.  In dPdMMT the factor drdT stands inside the exponent twice, as in the source *)
Definition tTT (k al sx dsx : R) : R := l_a c * k * (Rpower r (1 - al) * dsx + sx * (1 - al) * Rpower r (- al) * drdT).
Definition tMMT (k be al ga sx sd dsx dsd : R) : R :=
  k * ((Rpower r (- ga) * dui be - ui be * ga * Rpower r ((-1 - ga) * drdT)) / l_a c
       + 2 * l_c c * (Rpower r (be - 1) * dvi be + vi be * (be - 1) * Rpower r (be - 2) * drdT)
       + l_a c * l_c c ^ 2 * (Rpower r (- al) * dwj al sx sd dsx dsd - al * wj al sx sd * Rpower r ((-1 - al) * drdT))).
Definition tMTT (k be al sx sd dsx dsd : R) : R :=
  k * (Rpower r (be - 1) * dvi be + vi be * (be - 1) * Rpower r (be - 2) * drdT
       + l_a c * l_c c * (Rpower r (- al) * dwj al sx sd dsx dsd - al * Rpower r (-1 - al) * drdT * wj al sx sd)).
Definition dPdTT : R := 0 + tTT (l_k0 c) (l_al c) (sx0 th) dsdT0 + tTT (l_k1 c) (l_ali c) (sx1 th) dsdT1.
Definition dPdMMT : R := 0 + tMMT (l_k0 c) (l_b c) (l_al c) cg0 (sx0 th) (sd0 th) dsdT0 dspdT0 + tMMT (l_k1 c) (l_bi c) (l_ali c) cg1 (sx1 th) (sd1 th) dsdT1 dspdT1.
Definition dPdMTT : R := 0 + tMTT (l_k0 c) (l_b c) (l_al c) (sx0 th) (sd0 th) dsdT0 dspdT0 + tMTT (l_k1 c) (l_bi c) (l_ali c) (sx1 th) (sd1 th) dsdT1 dspdT1.
(** 1441-1450 *)
Definition dPPTT : R :=
  dP0dTT + dPdTT + l_p11 c * ddelMT - D / l_rc c * dPdMTT / d2PdM2 r th
  + (l_p11 c + d2PdMT r th) * (D / l_rc c * alpha / d2PdM2 r th + D / l_rc c * dPdMMT / d2PdM2 r th ^ 2).
Definition pterm : R := P / l_Pc c + dPdTcd T D r th.
Definition dalLVS : R :=
  l_Tc c * l_rc c ^ 2 / D ^ 2 / T ^ 2 * (- 2 / T * d2PdM2 r th * pterm + 2 * alpha * d2PdM2 r th * pterm + pterm * dPdMMT + d2PdM2 r th * dPPTT).
End Dal.
End Lvs.
