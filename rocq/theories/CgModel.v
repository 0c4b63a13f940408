(** Model of the Churakov-Gottschalk fluid of Substances/Gases/s_solmod2_.cpp:859-2443 for one component, and of GasCGF.cpp, over R.  Definitions only.
    [None]: not a finite number.  Line numbers without a file are those of s_solmod2_.cpp. *)
From Coq Require Import List Bool ZArith Reals.
Import ListNotations.
Open Scope R_scope.

Definition obind {A B : Type} (x : option A) (f : A -> option B) : option B := match x with Some a => f a | None => None end.
Notation "'do' x <- a ; b" := (obind a (fun x => b)) (at level 200, x name, a at level 100, b at level 200).
Definition odiv (a b : R) : option R := if Req_EM_T b 0 then None else Some (a / b).
Definition ltb (a b : R) : bool := if Rlt_dec a b then true else false.

(** 904-948 set_internal; s_solmod_.cpp sets R_CONST *)
Definition cPI : R := 3.141592653589793120. Definition cTWOPI : R := 6.283185307179586230. Definition cPISIX : R := 0.523598775598298927. Definition cRM : R := 1.12246204830937302.
Definition cDELTA : R := 1 / 100000.
Definition cR : R := 8.31439. Definition cNA : R := 0.6023. Definition cR_CONST : R := 8.31451.
Definition cP1 := 1.186892378996. Definition cP2 := -0.4721963005527. Definition cP3 := 3.259515855283. Definition cP4 := 3.055229342609. Definition cP5 := 1.095409321023.
Definition cP6 := 0.01282306659774. Definition cP7 := 0.0955712461425. Definition cP8 := 13.67807693107. Definition cP9 := 35.75464856619. Definition cP10 := 16.04724381643.

(** 1676-1684 RPA *)
Definition fi1 (n : R) : R := (1.20110 + (0.064890 + (-76.860 + (562.686 + (-2280.090 + (6266.840 + (-11753.40 + (14053.8 + (-9491.490 + 2731.030 * n) * n) * n) * n) * n) * n) * n) * n) * n) * n.
Definition fi2 (n : R) : R := (0.588890 + (-7.455360 + (40.57590 + (-104.8970 + (60.25470 + (390.6310 + (-1193.080 + (1576.350 + (-1045.910 + 283.7580 * n) * n) * n) * n) * n) * n) * n) * n) * n) * n * n.
Definition RPA (beta nuw : R) : R := (-12 * fi1 nuw + 192 * fi2 nuw * beta) * beta * beta / cPI.

(** 1688-1752 dHS: the start value, the polynomial F0 and F1, the loop of 21 rounds; a step that is not finite never passes the test, so the loop runs out and dB is returned *)
Definition hs_dB (beta : R) : R := (cP1 * exp (1 / 12 * ln beta) + cP2 * exp (7 / 12 * ln beta) + (cP3 + (cP4 + cP5 * beta) * beta) * beta) / ((1 + beta) * (1 + beta) * (1 + beta)).
Definition hs_delta (beta : R) : R := let t := sqrt beta in (cP6 + cP7 * t) / (1 + (cP8 + (cP9 + cP10 * t) * t) * t).
Definition hs_a3 (dB dbdl r : R) : R := (-1.5 * dB - 3.75 * dbdl) * r.
Definition hs_a4 (r : R) : R := 1.5 * r.
Definition hs_a6 (dB dbdl r : R) : R := (2 * dB + dbdl) * 0.25 * (r * r).
Definition hs_a7 (r : R) : R := -0.5 * (r * r).
Definition hs_a9 (dbdl r : R) : R := -2.89325 * (r * r) * r * dbdl.
Definition hs_a12 (dbdl r : R) : R := -0.755 * (r * r) * (r * r) * dbdl.
Definition hs_F0 (dB dbdl r d : R) : R :=
  let d2 := d * d in let d3 := d * d * d in
  (dB + dbdl) + (-1 + (hs_a3 dB dbdl r + (hs_a4 r + (hs_a6 dB dbdl r + (hs_a7 r + (hs_a9 dbdl r + hs_a12 dbdl r * d3) * d2) * d) * d2) * d) * d2) * d.
Definition hs_F1 (dB dbdl r d : R) : R :=
  let d2 := d * d in let d3 := d * d * d in
  -1 + (hs_a3 dB dbdl r * 3 + (hs_a4 r * 4 + (hs_a6 dB dbdl r * 6 + (hs_a7 r * 7 + (hs_a9 dbdl r * 9 + hs_a12 dbdl r * 12 * d3) * d2) * d) * d2) * d) * d2.
Fixpoint hs_loop (n : nat) (dB dbdl r d : R) : R :=
  match n with
  | O => dB
  | S n => match odiv (hs_F0 dB dbdl r d) (hs_F1 dB dbdl r d) with
           | None => dB
           | Some q => let dnew := d - q in if ltb (Rabs (dnew - d)) (1 / 10000000) then dnew else hs_loop n dB dbdl r dnew
           end
  end.
Definition dHS (beta ro : R) : R := let dB := hs_dB beta in hs_loop 21 dB (dB * hs_delta beta) (cPISIX * ro) dB.

(** s_solmod_.h:449-479 *)
Definition fI_6 (n : R) : option R := odiv (1 + (1.16965477132 + (-0.410564939543 + -0.516834310691 * n) * n) * n) ((1 + (-0.120078459237 + (-0.808712488307 + 0.321543801337 * n) * n) * n) * 3).
Definition fI_12 (n : R) : option R := odiv (1 + (-0.189396607904 + (-0.576898496254 + -0.0185167641359 * n) * n) * n) ((1 + (-2.18839961483 + (1.59897428009 + -0.392578806128 * n) * n) * n) * 9).
Definition fa0 (n : R) : R := (0.9985937977069455 + 0.5079834224407451 * n) / ((1 - n) * (1 - n)).
Definition fa1 (n : R) : R := (1.021887697885469 + (-5.136619463333883 + -5.196188074016755 * n) * n) / ((1 - n) * (1 - n) * (1 - n)).
Definition fa2 (n : R) : R := ((-6.049240839050804 + (18.67848155616692 + 20.10652684217768 * n) * n) * n) / ((1 - n) * (1 - n) * ((1 - n) * (1 - n))).
Definition fa3 (n : R) : R := ((9.896491419756988 + (14.6738380473899 + (-77.44825116542995 + -4.82871082941229 * n) * n) * n) * n) / ((1 - n) * (1 - n) * ((1 - n) * (1 - n) * (1 - n))).
(** 1756-1832 FWCA without its memory of the last call (see [wca_call]) *)
Definition FWCA (T ro : R) : option R :=
  if Rle_dec T 0 then None else
  let beta := 1 / T in let d := dHS beta ro in let nu := cPISIX * d * d * d * ro in let t := 1 - nu / 16 in
  if Rle_dec t 0 then None else
  let nuw := nu * t in let dW := d * exp (1 / 3 * ln t) in
  if Req_EM_T nuw 1 then None else
  do F0 <- odiv ((4 - 3 * nu) * nu) ((1 - nu) * (1 - nu));
  let a0 := fa0 nuw in let a1 := fa1 nuw in let a2 := fa2 nuw in let a3 := fa3 nuw in
  do I6 <- fI_6 nuw; do I12 <- fI_12 nuw;
  do rm1 <- odiv cRM dW;
  let dW3 := dW * dW * dW in let dW6 := 1 / (dW3 * dW3) in let dW12 := dW6 * dW6 in
  let rm2 := rm1 * rm1 in let rm3 := rm1 * rm2 in let rm4 := rm2 * rm2 in let rm5 := rm3 * rm2 in
  let I2 := (a0 / 4 + a1 / 12 + a2 / 24 + a3 / 24) * dW6 + (a0 / 10 + a1 / 90 + a2 / 720 + a3 / 5040) * (- dW12) + (a0 - a1 / 3 + a2 / 12 - a3 / 60) / 8
            + (a0 - a1 + a2 / 2 - a3 / 6) * rm2 * (-9) / 40 + (a1 - a2 + a3 / 2) * rm3 * (-2) / 9 + (a2 - a3) * rm4 * (-9) / 64 + a3 * (-3) / 35 * rm5 in
  Some (F0 + 48 * nuw * (I12 * dW12 - I6 * dW6 + I2) * beta + RPA beta nuw).
(** 1836-1856, 1873-1882 *)
Definition ZWCA (T ro : R) : option R := do a1 <- FWCA T (ro * (1 + cDELTA)); do a0 <- FWCA T ro; Some (1 + (a1 - a0) / cDELTA).
Definition UWCA (T ro : R) : option R := do b0 <- odiv 1 T; do t1 <- odiv 1 (b0 * (1 + cDELTA)); do a1 <- FWCA t1 ro; do a0 <- FWCA T ro; Some ((a1 - a0) / (b0 * (1 + cDELTA) - b0)).
Definition J6LJ (T ro : R) : option R := do b <- odiv 1 T; do Z <- ZWCA T ro; do U <- UWCA T ro; odiv (4 * b * U - Z + 1) (-16 * cPI * ro * b).
(** 1576-1598 K23_13 without its memory *)
Definition K23 (T ro : R) : option R :=
  if Rle_dec T 0 then None else let e := ln T in
  Some (exp ((-1.050534 * (ro * ro * e) + 1.747476 * (ro * ro) + 1.749366 * (ro * e) + -1.999227 * ro + -0.661046 * e + -3.028720) / 3)).

(** the four parameters of the component at T, 1203-1206, and what EOSPARAM::init 2365-2396 and ParamMix 2411-2443 make of them for one component of fraction 1 *)
Record eos : Type := mkEos { e_sig : R; e_eps : R; e_mu : R; e_al : R }.
Definition eosPT (c : list R) (T : R) : option eos :=
  let k := fun i => nth i c 0 in do a <- odiv (k 8%nat) (T + k 9%nat); do b <- odiv (k 10%nat) (T + k 11%nat);
  Some (mkEos (k 0%nat + k 4%nat * exp (T * k 5%nat)) (k 1%nat + k 6%nat * exp (T * k 7%nat)) (k 2%nat + a) (k 3%nat + b)).
Definition s3 (e : eos) : R := e_sig e * e_sig e * e_sig e.
Definition m2r (e : eos) : R := e_mu e * e_mu e / (1.38048 / 10000).
(** 1886-2008 FTOTALMIX *)
Definition FTOTAL (T ro : R) (e : eos) : option R :=
  let s := s3 e in let ep := s * e_eps e in let rt := cNA * ro in
  do em <- odiv ep s; do Ta <- odiv T em; do A0 <- FWCA Ta (s * rt);
  do Tb <- odiv T (e_eps e); do Jd <- J6LJ Tb (s * rt); do A2' <- odiv (- (m2r e * m2r e * Jd / s) * cTWOPI * rt) (3 * (T * T));
  do Tc <- odiv (T * s) ep;
  do AP <- (if Req_EM_T A2' 0 then Some 0 else
            do K <- K23 Tc (s * rt); do p <- (if Rle_dec (s * s * s) 0 then None else Some (Rpower (s * s * s) (- (1 / 3))));
            let A3 := m2r e * m2r e * m2r e * (K * K * K) * p * 32 * sqrt (14 * cPI / 5) * (rt * rt) * cPI * cPI * cPI / (135 * T * (T * T)) in odiv A2' (1 - A3 / A2'));
  do Ji <- J6LJ Tc (s * rt); do A1 <- odiv (- ((e_al e * m2r e + e_al e * m2r e) * Ji / s) * cTWOPI * rt) T;
  Some (A0 + A1 + AP).

(** *** the parts that use F only as a function of the density (mol/cm3) *)
(** 2029-2037 ZTOTALMIX *)
Definition ZTOTAL (F : R -> option R) (ro : R) : option R := do a1 <- F (ro * (1 + cDELTA)); do a0 <- F ro; Some (1 + (a1 - a0) / cDELTA).

(** 2072-2100 choose: the index with the smallest positive P - p, and the one with the largest P - p that is not positive; an index that is not found keeps its old value *)
Fixpoint choose_at (l : list (option R)) (P : R) (i : nat) (dp dm : R) (x1 x2 : nat) : nat * nat :=
  match l with
  | [] => (x1, x2)
  | None :: l => choose_at l P (S i) dp dm x1 x2
  | Some p :: l =>
    let t := P - p in
    if Rlt_dec 0 t then (if Rlt_dec t dp then choose_at l P (S i) t dm i x2 else choose_at l P (S i) dp dm x1 x2)
    else (if Rlt_dec dm t then choose_at l P (S i) dp t x1 i else choose_at l P (S i) dp dm x1 x2)
  end.
Definition choose (l : list (option R)) (P : R) (x1 x2 : nat) : nat * nat := choose_at l P 0 10000000 (- 10000000) x1 x2.

Inductive found : Type := Ideal | At (ro : R) | Line (ro : R) | TooHigh | NoNumber.
Definition near (p : option R) (P tol : R) : bool := match p with Some p => ltb (Rabs (p - P)) tol | None => false end.
Definition oop (f : R -> R -> R) (a b : option R) : option R := do x <- a; do y <- b; Some (f x y).
Definition oquot (a b : option R) : option R := do x <- a; do y <- b; odiv x y.
(** 2244-2247, 2253-2256: the straight line through the two points *)
Definition line (P ro0 ro1 : R) (p0 p1 : option R) : found :=
  match oquot (oop Rminus p1 p0) (Some (ro1 - ro0)) with
  | None => NoNumber
  | Some a => match p1 with Some p1 => match odiv (P - (p1 - a * ro1)) a with Some r => Line r | None => NoNumber end | None => NoNumber end
  end.
(** 2187-2249: [pr] the pressure as a function of the reduced density; the indices x1, x2 are kept between the rounds *)
Section Search.
Variable pr : R -> option R.
Variable P : R.
Definition opr (r : option R) : option R := do x <- r; pr x.
Fixpoint search (n : nat) (ro0 ro1 : R) (p0 p1 : option R) (x1 x2 : nat) : found :=
  match n with
  | O => line P ro0 ro1 p0 p1
  | S n =>
    let X0 := oop Rminus (Some P) p0 in
    let f0 := oquot (Some (ro1 - ro0)) (oop Rminus p1 p0) in
    let d2 := oop Rplus (Some ro0) (oop Rmult f0 X0) in
    let p2 := opr d2 in
    if near p2 P (1 / 100000) then match d2 with Some r => At r | None => NoNumber end else
    let X1 := oop Rmult X0 (oop Rminus (Some P) p1) in
    let f1 := oquot (oop Rminus d2 (Some ro1)) (oop Rminus p2 p1) in
    let f0 := oquot (oop Rminus f1 f0) (oop Rminus p2 p0) in
    let d3 := oop Rplus d2 (oop Rmult f0 X1) in
    let p3 := opr d3 in
    if near p3 P (1 / 1000000) then match d3 with Some r => At r | None => NoNumber end else
    let X2 := oop Rmult X1 (oop Rminus (Some P) p2) in
    let f2 := oquot (oop Rminus d3 d2) (oop Rminus p3 p2) in
    let f1 := oquot (oop Rminus f2 f1) (oop Rminus p3 p1) in
    let f0 := oquot (oop Rminus f1 f0) (oop Rminus p3 p0) in
    let d4 := oop Rplus d3 (oop Rmult f0 X2) in
    let p4 := opr d4 in
    if near p4 P (1 / 1000000) then match d4 with Some r => At r | None => NoNumber end else
    let '(x1, x2) := choose [p0; p1; p2; p3; p4] P x1 x2 in
    let dens := [Some ro0; Some ro1; d2; d3; d4] in let pres := [p0; p1; p2; p3; p4] in
    match nth x1 dens None, nth x2 dens None with
    | Some r0, Some r1 =>
      let q0 := nth x1 pres None in let q1 := nth x2 pres None in
      if ltb (Rabs (r1 - r0)) (1 / 1000) then line P r0 r1 q0 q1 else search n r0 r1 q0 q1 x1 x2
    | _, _ => NoNumber
    end
  end.
(** 2120-2140, 2151-2171: the first density of the list whose pressure exceeds P, with the one before it *)
Fixpoint first_above (l : list R) (before : option (R * option R)) : option (option (R * option R) * (R * option R)) :=
  match l with
  | [] => None
  | r :: l => let p := pr r in match p with Some q => if Rlt_dec P q then Some (before, (r, p)) else first_above l (Some (r, p)) | None => first_above l (Some (r, p)) end
  end.
Definition ROMIN : R := 1 / 100.
Definition grid1 : list R := ROMIN :: 2 * ROMIN :: map (fun i => ROMIN + INR i * ((0.9 - ROMIN) / 14)) (seq 2 13).
Definition grid2 : list R := map (fun i => ROMIN + INR i * ((3 - ROMIN) / 14)) (seq 1 14).
Definition rototal : found :=
  match first_above grid1 None with
  | Some (None, _) => Ideal
  | Some (Some (r0, p0), (r1, p1)) => search 20 r0 r1 p0 p1 0 0
  | None => let r := ROMIN + INR 14 * ((0.9 - ROMIN) / 14) in
    match first_above grid2 (Some (r, pr r)) with
    | Some (Some (r0, p0), (r1, p1)) => search 20 r0 r1 p0 p1 0 0
    | _ => TooHigh
    end
  end.
End Search.
(** 2104-2118, 2142-2145 and the returns: P in MPa, density in mol/cm3; TooHigh returns -1 *)
Definition cg_pressure (F : R -> option R) (T s : R) (r : R) : option R := let f0 := 1 / (s * cNA) in do Z <- ZTOTAL F (r * f0); Some (Z * r * (cR * T * f0)).
Definition ROTOTAL (F : R -> option R) (T s P : R) : option R :=
  match rototal (cg_pressure F T s) P with
  | Ideal => odiv P (cR * T)
  | At r | Line r => Some (r * (1 / (s * cNA)))
  | TooHigh => Some (-1)
  | NoNumber => None
  end.

(** 1194-1303: fugacity (bar), volume (J/bar), density.  A negative density: the local variable FugPure is read without having been written *)
Inductive cgres (A : Type) : Type := CgOk (a : A) | CgNaN | CgUndefined.
Arguments CgOk {A} a. Arguments CgNaN {A}. Arguments CgUndefined {A}.
Record cgfug : Type := mkFug { g_fug : R; g_vol : R; g_ro : R }.
Definition CGFugacity (F : R -> option R) (s Pbar T : R) : cgres cgfug :=
  match ROTOTAL F T s (Pbar / 10) with
  | None => CgNaN
  | Some ro =>
    if Rlt_dec ro 0 then CgUndefined else if Rle_dec (cR * T * ro / 0.1) 0 then CgNaN else
    match F ro with
    | None => CgNaN
    | Some F0 =>
      let Z := Pbar / 10 / (cR * T * ro) in let ax := Z - 1 + ln (cR * T * ro / 0.1) in
      let dx := 1 * cDELTA in let F1 := F0 * (1 + dx) in let Fx := (F1 - F0) / dx in
      CgOk (mkFug (if ltb Fx 100 then exp (ax + Fx) else 0) (0.1 / ro) ro)
    end
  end.
(** 1308-1347: F at T and at T + T DELTA (with the parameters of that temperature), at one density *)
Definition cg_S (F0 F1 : R) : R := - ((F1 - F0) / cDELTA + F0) * cR_CONST.
Definition cg_H (T F0 F1 Z : R) : R := F0 * T * cR_CONST + T * cg_S F0 F1 + Z * cR_CONST * T.
(** 2265-2303 for a fluid given by F (temperature, density) and the cube of sigma as a function of the temperature *)
Record cgprops : Type := mkCg { cg_phi : R; cg_enth : R; cg_entr : R; cg_v : R }.
Definition CGcalc (F : R -> R -> option R) (s : R -> R) (Tmin T Pbar : R) : cgres cgprops :=
  if negb (ltb T Tmin) && ltb T 10000 && negb (ltb Pbar (1 / 100000)) && ltb Pbar 100000 then
    match CGFugacity (F T) (s T) Pbar T with
    | CgOk a =>
      match CGFugacity (F (T + T * cDELTA)) (s (T + T * cDELTA)) Pbar (T + T * cDELTA) with
      | CgOk b =>
        match ZTOTAL (F T) (g_ro b), F T (g_ro b), F (T + T * cDELTA) (g_ro b) with
        | Some Z, Some F0, Some F1 => CgOk (mkCg (g_fug a / Pbar) (cg_H T F0 F1 Z) (cg_S F0 F1) (g_vol a))
        | _, _, _ => CgNaN
        end
      | CgNaN => CgNaN | CgUndefined => CgUndefined
      end
    | CgNaN => CgNaN | CgUndefined => CgUndefined
    end
  else CgOk (mkCg 1 0 0 (8.31451 * T / Pbar)).
(** the fluid of twelve coefficients; reading Cemp[0..11] (2278-2279) from a shorter array is undefined behaviour *)
Definition cg_F (c : list R) (T ro : R) : option R := do e <- eosPT c T; FTOTAL T ro e.
Definition cg_s (c : list R) (T : R) : R := match eosPT c T with Some e => s3 e | None => 0 end.
Definition CGcalcFugPure (c : list R) (Tmin T Pbar : R) : cgres cgprops :=
  if Nat.ltb (length c) 12 then CgUndefined else CGcalc (cg_F c) (cg_s c) Tmin T Pbar.
(** GasCGF.cpp:9-23: critical_parameters[0..6] copied into an array of seven; a zero pressure is replaced *)
Definition gasCGF (critical : list R) (Tlow TK Pbar : R) : cgres cgprops :=
  let P := if Req_EM_T Pbar 0 then Pbar + 1 / 100000 else Pbar in
  if Nat.ltb (length critical) 7 then CgUndefined else CGcalcFugPure (firstn 7 critical) Tlow TK P.

(** *** the static variables of FWCA 1758-1777 and K23_13 1578-1597: last arguments and last result, zero at the start *)
Record memo : Type := mkMemo { m_T : R; m_ro : R; m_val : option R }.
Definition memo0 : memo := mkMemo 0 0 (Some 0).
Definition memo_call (f : R -> R -> option R) (m : memo) (a : R * R) : memo * option R :=
  if Req_EM_T (fst a) (m_T m) then (if Req_EM_T (snd a) (m_ro m) then (m, m_val m) else let v := f (fst a) (snd a) in (mkMemo (fst a) (snd a) v, v))
  else let v := f (fst a) (snd a) in (mkMemo (fst a) (snd a) v, v).
Fixpoint memo_run (f : R -> R -> option R) (m : memo) (l : list (R * R)) : list (option R) :=
  match l with [] => [] | a :: l => let '(m', v) := memo_call f m a in v :: memo_run f m' l end.
