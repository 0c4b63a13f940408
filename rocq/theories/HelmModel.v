(** Models of the Helmholtz functions of water with their tables of derivatives:
      Substances/Solvent/Reaktoro/WaterHelmholtzStateWagnerPruss.cpp:146-395 and WaterHelmholtzStateHGK.cpp:194-434.
    Over the values of the ThermoScalars.  [x^n] stands for pow with a whole exponent, [Rpower] for pow with a positive base;
    sums are taken over lists of coefficients in the order of the loops.  Definitions only.  *)
From Coq Require Import List Bool Reals.
From Verif Require Import WaterModel.
Import ListNotations.
Open Scope R_scope.

(** accumulating ten values: the += lines of the loops *)
Definition hzero : helm := mkHelm 0 0 0 0 0 0 0 0 0 0.
Definition hadd (x y : helm) : helm :=
  mkHelm (h0 x + h0 y) (hT x + hT y) (hD x + hD y) (hTT x + hTT y) (hTD x + hTD y) (hDD x + hDD y) (hTTT x + hTTT y) (hTTD x + hTTD y) (hTDD x + hTDD y) (hDDD x + hDDD y).
Definition hsum {X : Type} (f : X -> helm) (l : list X) : helm := fold_left (fun s x => hadd s (f x)) l hzero.

(** *** Wagner and Pruss; T stands for tau, D for delta in the ten names *)
(** 28-31: no[1..3], and pairs no[4..8], gammao[0..4] *)
Definition wp_no1 : R := - (832044648201 / 100000000000).
Definition wp_no2 : R := 66832105268 / 10000000000.
Definition wp_no3 : R := 300632 / 100000.
Definition wp_no : list (R * R) := [
  (12436 / 1000000, 128728967 / 100000000);
  (97315 / 100000, 353734222 / 100000000);
  (12795 / 10000, 774073708 / 100000000);
  (96956 / 100000, 924437796 / 100000000);
  (24873 / 100000, 275075105 / 10000000) ].
(** 38-118: n, d, t for 1..7; n, d, t, c for 8..51 *)
Definition wp_A : list (R * nat * R) := [
  (12533547935523 / 1000000000000000, 1%nat, - (5 / 10));
  (78957634722828 / 10000000000000, 1%nat, 875 / 1000);
  (- (87803203303561 / 10000000000000), 1%nat, 1);
  (31802509345418 / 100000000000000, 2%nat, 5 / 10);
  (- (26145533859358 / 100000000000000), 2%nat, 75 / 100);
  (- (78199751687981 / 10000000000000000), 3%nat, 375 / 1000);
  (88089493102134 / 10000000000000000, 4%nat, 1) ].
Definition wp_B : list (R * nat * R * nat) := [
  (- (66856572307965 / 100000000000000), 1%nat, 4, 1%nat);
  (20433810950965 / 100000000000000, 1%nat, 6, 1%nat);
  (- (66212605039687 / 1000000000000000000), 1%nat, 12, 1%nat);
  (- (19232721156002 / 100000000000000), 2%nat, 1, 1%nat);
  (- (25709043003438 / 100000000000000), 2%nat, 5, 1%nat);
  (16074868486251 / 100000000000000, 3%nat, 4, 1%nat);
  (- (40092828925807 / 1000000000000000), 4%nat, 2, 1%nat);
  (39343422603254 / 100000000000000000000, 4%nat, 13, 1%nat);
  (- (75941377088144 / 10000000000000000000), 5%nat, 9, 1%nat);
  (56250979351888 / 100000000000000000, 7%nat, 3, 1%nat);
  (- (15608652257135 / 1000000000000000000), 9%nat, 4, 1%nat);
  (11537996422951 / 10000000000000000000000, 10%nat, 11, 1%nat);
  (36582165144204 / 100000000000000000000, 11%nat, 4, 1%nat);
  (- (13251180074668 / 10000000000000000000000000), 13%nat, 13, 1%nat);
  (- (62639586912454 / 100000000000000000000000), 15%nat, 1, 1%nat);
  (- (10793600908932 / 100000000000000), 1%nat, 7, 2%nat);
  (17611491008752 / 1000000000000000, 2%nat, 1, 2%nat);
  (22132295167546 / 100000000000000, 2%nat, 9, 2%nat);
  (- (40247669763528 / 100000000000000), 2%nat, 10, 2%nat);
  (58083399985759 / 100000000000000, 3%nat, 10, 2%nat);
  (49969146990806 / 10000000000000000, 4%nat, 3, 2%nat);
  (- (31358700712549 / 1000000000000000), 4%nat, 7, 2%nat);
  (- (74315929710341 / 100000000000000), 4%nat, 10, 2%nat);
  (4780732991548 / 10000000000000, 5%nat, 10, 2%nat);
  (20527940895948 / 1000000000000000, 6%nat, 6, 2%nat);
  (- (13636435110343 / 100000000000000), 6%nat, 10, 2%nat);
  (14180634400617 / 1000000000000000, 7%nat, 10, 2%nat);
  (83326504880713 / 10000000000000000, 9%nat, 1, 2%nat);
  (- (29052336009585 / 1000000000000000), 9%nat, 2, 2%nat);
  (38615085574206 / 1000000000000000, 9%nat, 3, 2%nat);
  (- (20393486513704 / 1000000000000000), 9%nat, 4, 2%nat);
  (- (16554050063734 / 10000000000000000), 9%nat, 8, 2%nat);
  (19955571979541 / 10000000000000000, 10%nat, 6, 2%nat);
  (15870308324157 / 100000000000000000, 10%nat, 9, 2%nat);
  (- (1638856834253 / 100000000000000000), 12%nat, 8, 2%nat);
  (43613615723811 / 1000000000000000, 3%nat, 16, 3%nat);
  (34994005463765 / 1000000000000000, 4%nat, 22, 3%nat);
  (- (76788197844621 / 1000000000000000), 4%nat, 23, 3%nat);
  (22446277332006 / 1000000000000000, 5%nat, 23, 3%nat);
  (- (62689710414685 / 1000000000000000000), 14%nat, 10, 4%nat);
  (- (55711118565645 / 100000000000000000000000), 3%nat, 50, 6%nat);
  (- (19905718354408 / 100000000000000), 6%nat, 44, 6%nat);
  (31777497330738 / 100000000000000, 6%nat, 46, 6%nat);
  (- (11841182425981 / 100000000000000), 6%nat, 50, 6%nat) ].
(** n, d, t, alpha, beta, gamma, epsilon for 52..54 (120-126) *)
Definition wp_C : list (R * nat * R * R * R * R * R) := [
  (- (31306260323435 / 1000000000000), 3%nat, 0, 20, 150, 121 / 100, 1);
  (31546140237781 / 1000000000000, 3%nat, 1, 20, 150, 121 / 100, 1);
  (- (25213154341695 / 10000000000), 3%nat, 4, 20, 250, 125 / 100, 1) ].
(** n, a, b, A, B, C, F, E for 55, 56 (128-140) *)
Definition wp_D : list (R * R * R * R * R * R * R * R) := [
  (- (14874640856724 / 100000000000000), 35 / 10, 85 / 100, 32 / 100, 2 / 10, 28, 700, 3 / 10);
  (31806110878444 / 100000000000000, 35 / 10, 95 / 100, 32 / 100, 2 / 10, 32, 800, 3 / 10) ].
(** 151-161 *)
Definition wp_id (tau delta : R) : helm :=
  mkHelm (ln delta + wp_no1 + wp_no2 * tau + wp_no3 * ln tau) (wp_no2 + wp_no3 / tau) (1 / delta) (- wp_no3 / tau ^ 2) 0 (-1 / delta ^ 2) (2 * wp_no3 / tau ^ 3) 0 0 (2 / delta ^ 3).
(** 163-173 *)
Definition wp_ein (x : R * R) (tau delta : R) : helm :=
  let '(n, g) := x in let ee := exp (g * tau) in
  mkHelm (n * ln (1 - 1 / ee)) (n * (g / (ee - 1))) 0 (- (n * ee * (g / (ee - 1)) ^ 2)) 0 0 (n * ee * (1 + ee) * (g / (ee - 1)) ^ 3) 0 0 0.
(** 197-210 *)
Definition wp_a (x : R * nat * R) (tau delta : R) : helm :=
  let '(n, d, t) := x in
  let A := n * delta ^ d * Rpower tau t in
  let A_d := INR d / delta * A in let A_t := t / tau * A in let A_dd := (INR d - 1) / delta * A_d in let A_tt := (t - 1) / tau * A_t in
  mkHelm A A_t A_d A_tt (t * INR d / (tau * delta) * A) A_dd ((t - 2) / tau * A_tt) (INR d / delta * A_tt) (t / tau * A_dd) ((INR d - 2) / delta * A_dd).
(** 222-237 *)
Definition wp_b (x : R * nat * R * nat) (tau delta : R) : helm :=
  let '(n, d, t, c) := x in
  let dc := delta ^ c in let ci := INR c in let di := INR d in
  let B := n * delta ^ d * Rpower tau t * exp (- dc) in
  let B_d := (di - ci * dc) / delta * B in let B_t := t / tau * B in
  let B_dd := (di - ci * dc - 1) / delta * B_d - dc * (ci / delta) ^ 2 * B in let B_tt := (t - 1) / tau * B_t in let B_dt := t / tau * B_d in
  mkHelm B B_t B_d B_tt B_dt B_dd ((t - 2) / tau * B_tt) ((t - 1) / tau * B_dt)
    ((di - ci * dc - 1) / delta * B_dt - ci * ci * dc / delta ^ 2 * B_t)
    ((di - ci * dc - 1) / delta * B_dd - (di - ci * dc - 1 + 2 * ci * ci * dc) / delta ^ 2 * B_d - ci * ci * dc * (ci - 2) / delta ^ 3 * B).
(** 249-268 *)
Definition wp_c (x : R * nat * R * R * R * R * R) (tau delta : R) : helm :=
  let '(n, d, t, al, be, ga, ep) := x in
  let x1d := INR d / delta - 2 * al * (delta - ep) in let x1t := t / tau - 2 * be * (tau - ga) in
  let x2d := INR d / delta ^ 2 + 2 * al in let x2t := t / tau ^ 2 + 2 * be in
  let C := n * delta ^ d * Rpower tau t * exp (- al * (delta - ep) ^ 2 - be * (tau - ga) ^ 2) in
  let C_d := x1d * C in let C_t := x1t * C in let C_dd := x1d * C_d - x2d * C in let C_tt := x1t * C_t - x2t * C in let C_dt := x1d * x1t * C in
  mkHelm C C_t C_d C_tt C_dt C_dd (x1t * C_tt - 2 * x2t * C_t + 2 * t / tau ^ 3 * C) (x1t * C_dt - x2t * C_d) (x1d * C_dt - x2d * C_t)
    (x1d * C_dd - 2 * x2d * C_d + 2 * INR d / delta ^ 3 * C).
(** 282-335, in the parts theta, psi, Delta, DeltaPow, D *)
Definition wp_theta (A E tau delta : R) : helm :=
  let dd := (delta - 1) ^ 2 in
  let th := 1 - tau + A * Rpower dd (1 / 2 / E) in
  let th_d := (th + tau - 1) / (delta - 1) / E in
  let th_dd := (1 / E - 1) * th_d / (delta - 1) in
  mkHelm th (-1) th_d 0 0 th_dd 0 0 0 ((1 / E - 1) * (th_dd / (delta - 1) - th_d / dd)).
Definition wp_psi (C F tau delta : R) : helm :=
  let psi := exp (- C * (delta - 1) ^ 2 - F * (tau - 1) ^ 2) in
  let p_d := -2 * C * (delta - 1) * psi in let p_t := -2 * F * (tau - 1) * psi in
  let p_dd := -2 * C * (psi + (delta - 1) * p_d) in let p_tt := -2 * F * (psi + (tau - 1) * p_t) in let p_dt := 4 * C * F * (delta - 1) * (tau - 1) * psi in
  mkHelm psi p_t p_d p_tt p_dt p_dd (-2 * F * (2 * p_t + (tau - 1) * p_tt)) (-2 * F * (p_d + (tau - 1) * p_dt)) (-2 * C * (p_t + (delta - 1) * p_dt)) (-2 * C * (2 * p_d + (delta - 1) * p_dd)).
Definition wp_Delta (a B : R) (th : helm) (delta : R) : helm :=
  let dd := (delta - 1) ^ 2 in
  let De := h0 th * h0 th + B * Rpower dd a in
  let De_d := 2 * (h0 th * hD th + a * (De - h0 th * h0 th) / (delta - 1)) in
  let De_dd := 2 * (hD th * hD th + h0 th * hDD th + a * ((De_d - 2 * h0 th * hD th) / (delta - 1) - (De - h0 th * h0 th) / (delta - 1) ^ 2)) in
  mkHelm De (-2 * h0 th) De_d 2 (-2 * hD th) De_dd 0 0 (-2 * hDD th)
    (2 * (3 * hD th * hDD th + h0 th * hDDD th + a * ((De_dd - 2 * hD th * hD th - 2 * h0 th * hDD th) / (delta - 1)
       - 2 * (De_d - 2 * h0 th * hD th) / (delta - 1) ^ 2 + 2 * (De - h0 th * h0 th) / (delta - 1) ^ 3))).
Definition wp_pow (b : R) (x : helm) : helm :=
  let De := h0 x in let p := Rpower De b in
  mkHelm p (b * hT x / De * p) (b * hD x / De * p)
    ((b * hTT x / De + b * (b - 1) * (hT x / De) ^ 2) * p) ((b * hTD x / De + b * (b - 1) * hD x * hT x / De / De) * p) ((b * hDD x / De + b * (b - 1) * (hD x / De) ^ 2) * p)
    ((b * hTTT x / De + 3 * b * (b - 1) * hT x * hTT x / De / De + b * (b - 1) * (b - 2) * (hT x / De) ^ 3) * p)
    ((b * hTTD x / De + b * (b - 1) * (hD x * hTT x + 2 * hT x * hTD x) / De / De + b * (b - 1) * (b - 2) * hT x * hT x * hD x / De ^ 3) * p)
    ((b * hTDD x / De + b * (b - 1) * (hT x * hDD x + 2 * hD x * hTD x) / De / De + b * (b - 1) * (b - 2) * hD x * hD x * hT x / De ^ 3) * p)
    ((b * hDDD x / De + 3 * b * (b - 1) * hD x * hDD x / De / De + b * (b - 1) * (b - 2) * (hD x / De) ^ 3) * p).
Definition wp_fin (n : R) (P s : helm) (delta : R) : helm :=
  mkHelm (n * h0 P * delta * h0 s) (n * delta * (hT P * h0 s + h0 P * hT s)) (n * (h0 P * (h0 s + delta * hD s) + hD P * delta * h0 s))
    (n * delta * (hTT P * h0 s + 2 * hT P * hT s + h0 P * hTT s))
    (n * (h0 P * (hT s + delta * hTD s) + delta * hD P * hT s + hT P * (h0 s + delta * hD s) + hTD P * delta * h0 s))
    (n * (h0 P * (2 * hD s + delta * hDD s) + 2 * hD P * (h0 s + delta * hD s) + hDD P * delta * h0 s))
    (n * delta * (hTTT P * h0 s + 3 * hTT P * hT s + 3 * hT P * hTT s + h0 P * hTTT s))
    (n * (hTT P * h0 s + 2 * hT P * hT s + h0 P * hTT s) + n * delta * (hTTD P * h0 s + hTT P * hD s + 2 * hTD P * hT s + 2 * hT P * hTD s + hD P * hTT s + h0 P * hTTD s))
    (n * (hTDD P * delta * h0 s + 2 * hTD P * (h0 s + delta * hD s) + hDD P * delta * hT s + hT P * (2 * hD s + delta * hDD s) + 2 * hD P * (hT s + delta * hTD s) + h0 P * (2 * hTD s + delta * hTDD s)))
    (n * (hDDD P * delta * h0 s + 3 * hDD P * (h0 s + delta * hD s) + 3 * hD P * (2 * hD s + delta * hDD s) + h0 P * (3 * hDD s + delta * hDDD s))).
Definition wp_d (x : R * R * R * R * R * R * R * R) (tau delta : R) : helm :=
  let '(n, a, b, A, B, C, F, E) := x in wp_fin n (wp_pow b (wp_Delta a B (wp_theta A E tau delta) delta)) (wp_psi C F tau delta) delta.
(** 349-358 *)
Definition wp_phi (tau delta : R) : helm :=
  hadd (hadd (wp_id tau delta) (hsum (fun x => wp_ein x tau delta) wp_no))
    (hadd (hadd (hadd (hsum (fun x => wp_a x tau delta) wp_A) (hsum (fun x => wp_b x tau delta) wp_B)) (hsum (fun x => wp_c x tau delta) wp_C)) (hsum (fun x => wp_d x tau delta) wp_D)).
(** 378-379 *)
Definition wp_R : R := 46151805 / 100000.
(** 360-392, from phi and its derivatives at tau, delta *)
Definition wp_dim (T : R) (p : helm) : helm :=
  let tau := wp_Tc / T in
  let tT := - wp_Tc / (T * T) in let tTT := 2 * wp_Tc / (T * T * T) in let tTTT := -6 * wp_Tc / (T * T * T * T) in let dD := 1 / wp_Dc in
  let pT := hT p * tT in let pD := hD p * dD in let pTT := hTT p * tT * tT + hT p * tTT in let pTD := hTD p * tT * dD in let pDD := hDD p * dD * dD in
  let pTTT := hTTT p * tT * tT * tau * T + 3 * hTT p * tT * tTT + hT p * tTTT in
  let pTTD := hTTD p * tT * tT * dD + hTD p * tTT * dD in let pTDD := hTDD p * tT * dD * dD in let pDDD := hDDD p * dD * dD * dD in
  mkHelm (wp_R * T * h0 p) (wp_R * T * pT + wp_R * h0 p) (wp_R * T * pD) (wp_R * T * pTT + 2 * wp_R * pT) (wp_R * T * pTD + wp_R * pD) (wp_R * T * pDD)
    (wp_R * T * pTTT + 3 * wp_R * pTT) (wp_R * T * pTTD + 2 * wp_R * pTD) (wp_R * T * pTDD + wp_R * pDD) (wp_R * T * pDDD).
(** the whole function; None: delta = 1, where the terms 55 and 56 are 0/0 *)
Definition wagnerPruss (T D : R) : helm := wp_dim T (wp_phi (wp_Tc / T) (D / wp_Dc)).
Definition wagnerPruss_opt (T D : R) : option helm := if isz (D - wp_Dc) then None else Some (wagnerPruss T D).

(** *** Haar, Gallagher and Kell; T, D are reduced *)
(** A0[0], A0[1]; A0[i] with i - 4 for i = 2..17 (60-79) *)
Definition hg_a0 : R := - (130840393653 / 10000000000).
Definition hg_a1 : R := - (85702042094 / 1000000000).
Definition hg_A0 : list (R * R) := [
  (765192919131 / 100000000000000, -2);
  (- (620600116069 / 1000000000000), -1);
  (- (106924329402 / 10000000000), 0);
  (- (280671377296 / 100000000000), 1);
  (119843634845 / 1000000000, 2);
  (- (823907389256 / 10000000000), 3);
  (555864146443 / 10000000000, 4);
  (- (31069812298 / 1000000000), 5);
  (136200239305 / 10000000000, 6);
  (- (457116129409 / 100000000000), 7);
  (115382128188 / 100000000000, 8);
  (- (214242224683 / 1000000000000), 9);
  (282800597384 / 10000000000000, 10);
  (- (250384152737 / 100000000000000), 11);
  (132952679669 / 1000000000000000, 12);
  (- (319277411208 / 100000000000000000), 13) ].
(** A1[i] with i (81-88) *)
Definition hg_A1 : list (R * R) := [
  (15383053 / 10000000, 0);
  (- (81048367 / 100000000), 1);
  (- (68305748 / 10000000), 2);
  (0, 3);
  (86756271 / 100000000, 4) ].
Definition hg_A20 : R := 42923415 / 10000000.
Definition hg_y0 : R := 59402227 / 1000000000.
Definition hg_y1 : R := - (28128238 / 1000000000).
Definition hg_y2 : R := 56826674 / 100000000000.
Definition hg_y3 : R := - (27987451 / 100000000000).
Definition hg_z0 : R := 317763 / 1000000.
(** A3, ki, li (101-156) *)
Definition hg_A3 : list (R * nat * nat) := [
  (- (76221190138079 / 10000000000000), 1%nat, 1%nat);
  (32661493707555 / 1000000000000, 1%nat, 2%nat);
  (11305763156821 / 1000000000000, 1%nat, 4%nat);
  (- (10015404767712 / 10000000000000), 1%nat, 6%nat);
  (12830064355028 / 100000000000, 2%nat, 1%nat);
  (- (28371416789846 / 100000000000), 2%nat, 2%nat);
  (24256279839182 / 100000000000, 2%nat, 4%nat);
  (- (99357645626725 / 1000000000000), 2%nat, 6%nat);
  (- (12275453013171 / 10000000000), 3%nat, 1%nat);
  (23077622506234 / 10000000000, 3%nat, 2%nat);
  (- (16352219929859 / 10000000000), 3%nat, 4%nat);
  (58436648297764 / 100000000000, 3%nat, 6%nat);
  (42365441415641 / 10000000000, 4%nat, 1%nat);
  (- (78027526961828 / 10000000000), 4%nat, 2%nat);
  (38855645739589 / 10000000000, 4%nat, 4%nat);
  (- (91225112529381 / 100000000000), 4%nat, 6%nat);
  (- (90143895703666 / 10000000000), 5%nat, 1%nat);
  (15196214817734 / 1000000000, 5%nat, 2%nat);
  (- (39616651358508 / 10000000000), 5%nat, 4%nat);
  (- (72027511617558 / 100000000000), 5%nat, 6%nat);
  (1114712670599 / 100000000, 6%nat, 1%nat);
  (- (1741206525221 / 100000000), 6%nat, 2%nat);
  (99918281207782 / 100000000000, 6%nat, 4%nat);
  (33504807153854 / 10000000000, 6%nat, 6%nat);
  (- (64752644922631 / 10000000000), 7%nat, 1%nat);
  (98323730907847 / 10000000000, 7%nat, 2%nat);
  (83877854108422 / 100000000000, 7%nat, 4%nat);
  (- (27919349903103 / 10000000000), 7%nat, 6%nat);
  (11112410081192 / 10000000000, 9%nat, 1%nat);
  (- (17287587261807 / 10000000000), 9%nat, 2%nat);
  (- (36233262795423 / 100000000000), 9%nat, 4%nat);
  (61139429010144 / 100000000000, 9%nat, 6%nat);
  (32968064728562 / 1000000000000, 3%nat, 0%nat);
  (10411239605066 / 100000000000, 3%nat, 3%nat);
  (- (3822587471259 / 100000000000), 1%nat, 3%nat);
  (- (20307478607599 / 100000000000), 5%nat, 3%nat) ].
(** A4, mi, ni, alpha, beta, ri, ti (158-185) *)
Definition hg_A4 : list (R * nat * nat * R * R * R * R) := [
  (- (32329494 / 10000000000), 2%nat, 0%nat, 34, 20000, 10038928 / 10000000, 98876821 / 100000000);
  (- (24139355 / 1000000000), 2%nat, 2%nat, 40, 20000, 10038928 / 10000000, 98876821 / 100000000);
  (79027651 / 100000000000, 2%nat, 0%nat, 30, 40000, 10038928 / 10000000, 99124013 / 100000000);
  (- (13362857 / 10000000), 4%nat, 0%nat, 1050, 25, 48778492 / 10000000, 41713659 / 100000000) ].
(** 201-214 *)
Definition hgk0 (t : R) : helm :=
  hadd (mkHelm ((hg_a0 + hg_a1 * t) * ln t) (hg_a0 / t + hg_a1 * (ln t + 1)) 0 (- hg_a0 / (t * t) + hg_a1 / t) 0 0 (2 * hg_a0 / (t * t * t) - hg_a1 / (t * t)) 0 0 0)
    (hsum (fun x : R * R => let '(a, e) := x in let aux := a * Rpower t e in
       mkHelm aux (aux * e / t) 0 (aux * e * (e - 1) / (t * t)) 0 0 (aux * e * (e - 1) * (e - 2) / (t * t * t)) 0 0 0) hg_A0).
(** 221-239 *)
Definition hgk1 (t d : R) : helm :=
  let s := hsum (fun x : R * R => let '(a, i) := x in let aux := d * a * Rpower t (1 - i) in
       mkHelm aux (- (aux * (i - 1) / t)) 0 (aux * (i - 1) * i / (t * t)) 0 0 (- (aux * (i - 1) * i * (i + 1) / (t * t * t))) 0 0 0) hg_A1 in
  mkHelm (h0 s) (hT s) (h0 s / d) (hTT s) (hT s / d) 0 (hTTT s) (hTT s / d) 0 0.
(** 241-300: y, x, u, the sum; r in the names is d *)
Definition hg_y (t d : R) : helm :=
  let t3 := / t ^ 3 in let t5 := / t ^ 5 in
  let y := d * (hg_y0 + hg_y1 * ln t + hg_y2 * t3 + hg_y3 * t5) in
  let y_t := d * (hg_y1 - 3 * hg_y2 * t3 - 5 * hg_y3 * t5) / t in
  let y_tt := d * (- hg_y1 + 12 * hg_y2 * t3 + 30 * hg_y3 * t5) / (t * t) in
  let y_rt := y_t / d in
  mkHelm y y_t (y / d) y_tt y_rt 0 (d * (2 * hg_y1 - 60 * hg_y2 * t3 - 210 * hg_y3 * t5) / (t * t * t)) (y_tt / d) (y_rt / d - y_t / (d * d)) 0.
Definition hg_x (y : helm) : helm :=
  let x := 1 / (1 - h0 y) in let x2 := x * x in
  let x_r := hD y * x2 in let x_t := hT y * x2 in
  let x_rr := hDD y * x2 + 2 * hD y * x_r * x in let x_tt := hTT y * x2 + 2 * hT y * x_t * x in let x_rt := hTD y * x2 + 2 * hD y * x_t * x in
  mkHelm x x_t x_r x_tt x_rt x_rr
    (hTTT y * x2 + 4 * hTT y * x_t * x + 2 * hT y * (x_tt * x + x_t * x_t))
    (hTTD y * x2 + 4 * hTD y * x_t * x + 2 * hD y * (x_tt * x + x_t * x_t))
    (hTDD y * x2 + 2 * (hTD y * x_r + hDD y * x_t) + 2 * hD y * (x_rt * x + x_r * x_t))
    (hDDD y * x2 + 4 * hDD y * x_r * x + 2 * hD y * (x_rr * x + x_r * x_r)).
Definition hg_u (x : helm) (d : R) : helm :=
  let v := h0 x in
  mkHelm (ln (d * v)) (hT x / v) (hD x / v + 1 / d) (hTT x / v - hT x * hT x / (v * v)) (hTD x / v - hD x * hT x / (v * v)) (hDD x / v - hD x * hD x / (v * v) - 1 / (d * d))
    (hTTT x / v - 3 * hTT x * hT x / (v * v) + 2 * hT x * hT x * hT x / (v * v * v))
    (hTTD x / v - (2 * hTD x * hT x + hTT x * hD x) / (v * v) + 2 * hT x * hT x * hD x / (v * v * v))
    (hTDD x / v - (2 * hTD x * hD x + hDD x * hT x) / (v * v) + 2 * hD x * hD x * hT x / (v * v * v))
    (hDDD x / v - 3 * hDD x * hD x / (v * v) + 2 * hD x * hD x * hD x / (v * v * v) + 2 / (d * d * d)).
Definition hg_c1 : R := - (130 / 3).
Definition hg_c2 : R := 169 / 6.
Definition hg_c3 : R := -14.
Definition hg_s (u x y : helm) (t : R) : helm :=
  let a := hg_A20 * t in
  let H := a * (h0 u + hg_c1 * h0 x + hg_c2 * h0 x * h0 x + hg_c3 * h0 y) in
  let HD := a * (hD u + hg_c1 * hD x + 2 * hg_c2 * h0 x * hD x + hg_c3 * hD y) in
  let HT := a * (hT u + hg_c1 * hT x + 2 * hg_c2 * h0 x * hT x + hg_c3 * hT y) + H / t in
  let HDD := a * (hDD u + hg_c1 * hDD x + 2 * hg_c2 * (h0 x * hDD x + hD x * hD x) + hg_c3 * hDD y) in
  let HTD := a * (hTD u + hg_c1 * hTD x + 2 * hg_c2 * (h0 x * hTD x + hD x * hT x) + hg_c3 * hTD y) + HD / t in
  let HTT := a * (hTT u + hg_c1 * hTT x + 2 * hg_c2 * (h0 x * hTT x + hT x * hT x) + hg_c3 * hTT y) + 2 * (HT / t - H / (t * t)) in
  mkHelm H HT HD HTT HTD HDD
    (a * (hTTT u + hg_c1 * hTTT x + 2 * hg_c2 * (3 * hT x * hTT x + h0 x * hTTT x) + hg_c3 * hTTT y) + 3 * (HTT - 2 * HT / t + H / (t * t)) / t)
    (a * (hTTD u + hg_c1 * hTTD x + 2 * hg_c2 * (hD x * hTT x + 2 * hT x * hTD x + h0 x * hTTD x) + hg_c3 * hTTD y) + 2 * (HTD - HD / t) / t)
    (a * (hTDD u + hg_c1 * hTDD x + 2 * hg_c2 * (hT x * hDD x + 2 * hD x * hTD x + h0 x * hTDD x) + hg_c3 * hTDD y) + HDD / t)
    (a * (hDDD u + hg_c1 * hDDD x + 2 * hg_c2 * (3 * hD x * hDD x + h0 x * hDDD x) + hg_c3 * hDDD y)).
Definition hgk2 (t d : R) : helm := let y := hg_y t d in let x := hg_x y in hg_s (hg_u x d) x y t.
(** 302-344; the derivatives set to zero at 322-326 do not matter for the values *)
Definition hg_lam (p : R * nat * nat) (t d : R) : helm :=
  let '(a, k, l) := p in
  let z := 1 - exp (- hg_z0 * d) in let z_r := hg_z0 * (1 - z) in let z_rr := - hg_z0 * z_r in let z_rrr := - hg_z0 * z_rr in
  let L := a * / t ^ l * z ^ k in
  let L_r := INR k * z_r * L / z in let L_t := - INR l * L / t in
  let L_rr := L_r * (z_rr / z_r + L_r / L - z_r / z) in let L_rt := L_r * L_t / L in let L_tt := L_t * (L_t / L - 1 / t) in
  let lp := (L_t / L) ^ 2 in
  mkHelm L L_t L_r L_tt L_rt L_rr
    (L_tt * (L_t / L - 1 / t) + L_t * (L_tt / L - lp + 1 / (t * t)))
    (- lp * L_r + (L_tt * L_r + L_rt * L_t) / L)
    (- (L_r / L) ^ 2 * L_t + (L_rr * L_t + L_rt * L_r) / L)
    (L_rr * (z_rr / z_r + L_r / L - z_r / z) + L_r * (z_rrr / z_r - (z_rr / z_r) ^ 2 + L_rr / L - (L_r / L) ^ 2 - z_rr / z + (z_r / z) ^ 2)).
Definition hgk3 (t d : R) : helm := hsum (fun p => hg_lam p t d) hg_A3.
(** 346-389 *)
Definition hg_th (p : R * nat * nat * R * R * R * R) (t d : R) : helm :=
  let '(a, m, n, al, be, ri, ti) := p in
  let delta := (d - ri) / ri in let tau := (t - ti) / ti in let dr := 1 / ri in let tt := 1 / ti in
  let dm := delta ^ m in let mi := INR m in let ni := INR n in
  let psi := (ni - al * mi * dm) * dr / delta in
  let psi_r := - (ni + al * mi * (mi - 1) * dm) * (dr / delta) ^ 2 in
  let psi_rr := (2 * ni - al * mi * (mi - 1) * (mi - 2) * dm) * (dr / delta) ^ 3 in
  let th := a * delta ^ n * exp (- al * dm - be * tau * tau) in
  let th_r := psi * th in let th_t := -2 * be * tau * tt * th in
  let th_rr := psi_r * th + psi * th_r in let th_tt := 2 * be * (2 * be * tau * tau - 1) * tt * tt * th in let th_rt := -2 * be * tau * tt * th_r in
  mkHelm th th_t th_r th_tt th_rt th_rr (-2 * be * (2 * tt * tt * th_t + tau * tt * th_tt)) (psi * th_tt) (psi_r * th_r + psi * th_rt) (psi_rr * th + 2 * psi_r * th_r + psi * th_rr).
Definition hgk4 (t d : R) : helm := hsum (fun p => hg_th p t d) hg_A4.
(** 26-29, 47 *)
Definition hg_T : R := 64727 / 100.
Definition hg_D : R := 317763 / 1000.
Definition hg_H : R := 6959589 / 100.
(** 393-432 *)
Definition hgk_sum (t r : R) : helm := hadd (hadd (hadd (hadd (hgk0 t) (hgk1 t r)) (hgk2 t r)) (hgk3 t r)) (hgk4 t r).
Definition hgk_dim (s : helm) : helm :=
  mkHelm (h0 s * hg_H) (hT s * (hg_H / hg_T)) (hD s * (hg_H / hg_D)) (hTT s * (hg_H / hg_T / hg_T)) (hTD s * (hg_H / hg_D / hg_T)) (hDD s * (hg_H / hg_D / hg_D))
    (hTTT s * (hg_H / hg_T / hg_T / hg_T)) (hTTD s * (hg_H / hg_D / hg_T / hg_T)) (hTDD s * (hg_H / hg_D / hg_D / hg_T)) (hDDD s * (hg_H / hg_D / hg_D / hg_D)).
Definition hgk (T D : R) : helm := hgk_dim (hgk_sum (T / hg_T) (D / hg_D)).
(** None: D is one of the four centres of the terms of hgk4, where psi is 0/0 *)
Definition hgk_opt (T D : R) : option helm := if existsb (fun p : R * nat * nat * R * R * R * R => let '(_, _, _, _, _, ri, _) := p in isz (D / hg_D - ri)) hg_A4 then None else Some (hgk T D).
