(** What is meant by a state near the critical point, and the relations the constants are meant to satisfy.  Definitions only. *)
From Coq Require Import Reals.
From Coquelicot Require Import Coquelicot.
From Verif Require Import LvsModel.
Open Scope R_scope.
(** scaling relations of the exponents; the polynomials of the scaled pressure and entropy belong to one potential (Levelt Sengers et al. 1983, Table A2); the constants of the units *)
Definition one_potential (c : lvs) (al p0 p2 p4 s0 s2 : R) : Prop :=
  (2 - al) * p0 = s0 /\ 2 * p2 = 1 - 2 * l_b2 c * s0 /\ (2 - al) * p2 = l_b c * l_del c + s2 - l_b2 c * s0 /\
  4 * p4 = -3 - 2 * l_b2 c * s2 /\ (2 - al) * p4 = - (l_b c * l_del c) - l_b2 c * s2.
Definition lvs_constants (c : lvs) : Prop :=
  (l_al c + l_b c * (l_del c + 1) = 2 /\ l_ali c = l_al c - 1 / 2 /\ l_bi c = l_b c + 1 / 2 /\ l_D1 c = 1 / 2) /\
  (one_potential c (l_al c) (l_p00 c) (l_p20 c) (l_p40 c) (l_s00 c) (l_s20 c) /\ one_potential c (l_ali c) (l_p01 c) (l_p21 c) (l_p41 c) (l_s01 c) (l_s21 c)) /\
  (0 < l_a c /\ 0 < l_Tc c /\ 0 < l_rc c /\ 0 < l_Pc c) /\
  (l_Pcon c = l_Pc c / l_Tc c /\ l_Scon c = 1000 * l_Pcon c /\ l_Ucon c = 1000 * l_Pc c /\ l_dPcon c = l_Pcon c / l_rc c ^ 2).
(** the two equations that conver solves for r and theta *)
Definition solves (c : lvs) (T D r th : R) : Prop := 0 < T /\ 0 < r /\ dTw c T + l_c c * amu_ c r th = r * (1 - l_b2 c * (th * th)) /\ D = l_rc c * rhow c T r th.
(** a path of states through [x] with the slopes [T'], [D'], [r'], [th'] *)
Definition path (c : lvs) (T D r th : R -> R) (x T' D' r' th' : R) : Prop :=
  locally x (fun y : R => solves c (T y) (D y) (r y) (th y)) /\ is_derive T x T' /\ is_derive D x D' /\ is_derive r x r' /\ is_derive th x th'.
(** no zero divisors: the determinant, the second derivative of the potential (infinite compressibility only at 0), the density *)
Definition regular (c : lvs) (D r th : R) : Prop := gx c th <> 0 /\ d2PdM2 c r th <> 0 /\ 0 < D.
(** what the misplaced parentheses of dPdMMT (WaterHGK-JNgems.cpp:1428-1434) add to the number reported: r^((-1-g) dr/dT) stands where r^(-1-g) dr/dT is meant *)
Definition slip (r e dr : R) : R := Rpower r (-1 - e) * dr - Rpower r ((-1 - e) * dr).
Definition misplaced (c : lvs) (D T alpha r th : R) : R :=
  let dr := drdT c D T alpha r th in
  l_k0 c * (ui c th (l_b c) * cg0 c * slip r (cg0 c) dr / l_a c + l_a c * l_c c ^ 2 * (l_al c * wj c th (l_al c) (sx0 c th) (sd0 c th) * slip r (l_al c) dr)) +
  l_k1 c * (ui c th (l_bi c) * cg1 c * slip r (cg1 c) dr / l_a c + l_a c * l_c c ^ 2 * (l_ali c * wj c th (l_ali c) (sx1 c th) (sd1 c th) * slip r (l_ali c) dr)).
Definition excess (c : lvs) (D T P alpha r th : R) : R :=
  l_Tc c * l_rc c ^ 2 / D ^ 2 / T ^ 2 * (P / l_Pc c + dP0dT c T + l_p11 c * amu_ c r th + s0 c r th + s1 c r th) * misplaced c D T alpha r th.
