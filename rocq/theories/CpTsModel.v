(** The heat-capacity integrations with the derivatives the ThermoScalars carry
    (Substances/EmpiricalCpIntegration.cpp:82-181, Substances/StandardEntropyCpIntegration.cpp:8-37).
    TK is a Temperature: assigning a double to it makes it one with ddt = 1 (ThermoScalar.hpp:240-255).
    Definitions only. *)
From Coq Require Import List Bool Reals String.
From Verif Require Import ThermoScalarModel CpModel.
Import ListNotations.
Open Scope R_scope.

(** 82-91 *)
Definition CpX (c : list R) : texpr :=
  XAdd (XAdd (XAdd (XAdd (XAdd (XAdd (XAdd (XAdd (XDAdd (a_ c 0) (XDMul (a_ c 1) XT)) (XDDiv (a_ c 2) (XMul XT XT)))
    (XDDiv (a_ c 3) (XPowD XT (1 / 2)))) (XDMul (a_ c 4) (XMul XT XT))) (XDMul (a_ c 5) (XMul (XMul XT XT) XT)))
    (XDMul (a_ c 6) (XMul (XMul (XMul XT XT) XT) XT))) (XDDiv (a_ c 7) (XMul (XMul XT XT) XT))) (XDDiv (a_ c 8) XT)) (XDMul (a_ c 9) (XPowD XT 0)).
(** 143-152; TrK is a double *)
Definition SX (c : list R) (Tr : R) : texpr :=
  XAdd (XAdd (XAdd (XAdd (XAdd (XAdd (XAdd (XAdd (XAdd (XDMul (a_ c 0) (XLog (XDivD XT Tr))) (XDMul (a_ c 1) (XSubD XT Tr)))
    (XDivD (XDMul (a_ c 2) (XDSub (1 / Tr ^ 2) (XDDiv 1 (XMul XT XT)))) 2))
    (XDMul (a_ c 3 * 2) (XDSub (1 / sqrt Tr) (XDDiv 1 (XPowD XT (1 / 2))))))
    (XDivD (XDMul (a_ c 4) (XSubD (XMul XT XT) (Tr ^ 2))) 2)) (XDivD (XDMul (a_ c 5) (XSubD (XPowD XT 3) (Tr ^ 3))) 3))
    (XDivD (XDMul (a_ c 6) (XSubD (XPowD XT 4) (Tr ^ 4))) 4)) (XDivD (XDMul (a_ c 7) (XDSub (1 / Tr ^ 3) (XDDiv 1 (XPowD XT 3)))) 3))
    (XDMul (a_ c 8) (XDSub (1 / Tr) (XDDiv 1 XT)))) (XDMul (a_ c 9 * 2) (XSubD (XPowD XT (1 / 2)) (sqrt Tr))).
(** 165-174 *)
Definition HX (c : list R) (Tr : R) : texpr :=
  XAdd (XAdd (XAdd (XAdd (XAdd (XAdd (XAdd (XAdd (XAdd (XDMul (a_ c 0) (XSubD XT Tr)) (XDivD (XDMul (a_ c 1) (XSubD (XPowD XT 2) (Tr ^ 2))) 2))
    (XDMul (a_ c 2) (XDSub (1 / Tr) (XDDiv 1 XT)))) (XDMul (a_ c 3 * 2) (XSubD (XPowD XT (1 / 2)) (sqrt Tr))))
    (XDivD (XDMul (a_ c 4) (XSubD (XPowD XT 3) (Tr ^ 3))) 3)) (XDivD (XDMul (a_ c 5) (XSubD (XPowD XT 4) (Tr ^ 4))) 4))
    (XDivD (XDMul (a_ c 6) (XSubD (XMul (XPowD XT 4) XT) (Tr ^ 4 * Tr))) 5)) (XDivD (XDMul (a_ c 7) (XDSub (1 / Tr ^ 2) (XDDiv 1 (XPowD XT 2)))) 2))
    (XDMul (a_ c 8) (XLog (XDivD XT Tr)))) (XDivD (XDMul (a_ c 9 * 2) (XSubD (XMul XT (XPowD XT (1 / 2))) (Tr * sqrt Tr))) 3).
(** 154-163 *)
Definition GX (c : list R) (Tr : R) : texpr :=
  XAdd (XAdd (XAdd (XAdd (XAdd (XAdd (XAdd (XAdd (XAdd (XDMul (a_ c 0) (XSub (XMul XT (XLog (XDivD XT Tr))) (XSubD XT Tr)))
    (XDivD (XDMul (a_ c 1) (XPowD (XSubD XT Tr) 2)) 2)) (XDivD (XDivD (XDiv (XDMul (a_ c 2) (XPowD (XSubD XT Tr) 2)) XT) (Tr ^ 2)) 2))
    (XDivD (XMul (XDMul (a_ c 3 * 2) (XSubD (XPowD XT (1 / 2)) (sqrt Tr))) (XSubD (XPowD XT (1 / 2)) (sqrt Tr))) (sqrt Tr)))
    (XDivD (XDMul (a_ c 4) (XSub (XAddD (XPowD XT 3) (2 * Tr ^ 3)) (XMulD (XDMul 3 XT) (Tr ^ 2)))) 6))
    (XDivD (XDMul (a_ c 5) (XSub (XAddD (XPowD XT 4) (3 * Tr ^ 4)) (XMulD (XDMul 4 XT) (Tr ^ 3)))) 12))
    (XDivD (XDMul (a_ c 6) (XSub (XAddD (XMul (XPowD XT 4) XT) (4 * Tr ^ 4 * Tr)) (XMulD (XDMul 5 XT) (Tr ^ 4)))) 20))
    (XDivD (XDiv (XDivD (XDMul (a_ c 7) (XAdd (XDSub (Tr ^ 3) (XMulD (XDMul 3 (XPowD XT 2)) Tr)) (XDMul 2 (XPowD XT 3)))) 6) (XPowD XT 2)) (Tr ^ 3)))
    (XDMul (a_ c 8) (XSub (XSubD (XDivD XT Tr) 1) (XLog (XDivD XT Tr)))))
    (XDivD (XDMul (a_ c 9 * 2) (XAddD (XSub (XMul (XDMul 2 XT) (XPowD XT (1 / 2))) (XMulD (XDMul 3 XT) (sqrt Tr))) (Tr * sqrt Tr))) 3).

(** S, G, H after one pass (134-174) from Tr to the end temperature x; [s] holds the transition's dS, dH already *)
Definition sgh : Type := (TS * TS * TS)%type.
Definition pass_ts (c : list R) (Tr x : R) (s : sgh) : sgh :=
  let '(vS, vG, vH) := s in
  let TK := Temperature x in
  let G1 := ip_sub vG (ts_mul vS (ts_sub_d TK Tr)) in
  (ip_add vS (teval (SX c Tr) x 0), ip_sub G1 (teval (GX c Tr) x 0), ip_add vH (teval (HX c Tr) x 0)).
(** the passes through intervals given by coefficients, start and end temperature, and the dS and dH
    of the transition at the start (122-132: S += dS adds a double) *)
Definition passes_ts (l : list (list R * R * R * R * R)) (s : sgh) : sgh :=
  fold_left (fun s p => let '(c, Tr, x, dS, dH) := p in let '(vS, vG, vH) := s in pass_ts c Tr x (ip_add_d vS dS, vG, ip_add_d vH dH)) l s.

(** StandardEntropyCpIntegration.cpp:14-28, S and Cp defined; TrK is a Temperature *)
Definition constCp_ts (Tr : R) (vG vH vS vCp : TS) (T : R) : sgh :=
  let TK := Temperature T in let TrK := Temperature Tr in
  let G1 := ip_sub vG (ts_mul vS (ts_sub TK TrK)) in
  let lg := ts_log (ts_div TK TrK) in
  let S1 := ip_add vS (ts_mul vCp lg) in
  let G2 := ip_sub G1 (ts_mul vCp (ts_sub (ts_mul TK lg) (ts_sub TK TrK))) in
  (S1, G2, ip_add vH (ts_mul vCp (ts_sub TK TrK))).
