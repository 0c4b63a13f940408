(** Models of the mineral equations of state, over the values of the ThermoScalars:
      Substances/Solids/SolidMurnaghanHP98.cpp:8-64, SolidHPLandau.cpp:9-91, SolidBerman88.cpp:9-57,
      SolidBMGottschalk.cpp:14-188.
    Temperatures in K, pressures in bar (P = Pbar), volumes in J/bar.  [sqrt] stands for sqrt and
    pow(.,0.5), [Rpower] for pow with a positive base, [x^n] for pow with a whole exponent.
    Status messages, logging and the bounds check are left out.  Definitions only. *)
From Coq Require Import List Bool Reals.
Import ListNotations.
Open Scope R_scope.

(** the properties a model reads and changes *)
Record mprop : Type := mkMP { mG : R; mH : R; mS : R; mV : R; mCp : R; mU : R; mA : R }.
(** internal_energy and helmholtz_energy are set from the other properties *)
Definition with_UA (g h s v c T P : R) : mprop := mkMP g h s v c (h - P * v) (h - P * v - T * s).

Definition neqb (x y : R) : bool := if Req_EM_T x y then false else true.
Definition gtb (x y : R) : bool := if Rlt_dec y x then true else false.

(** *** Murnaghan, SolidMurnaghanHP98.cpp *)
(** a0 is isobaric_expansivity*1e-05, k0 isothermal_compresibility, Pst in bar (10-18) *)
Record murpar : Type := mkMur { u_V : R; u_k : R; u_a : R; u_T : R; u_P : R }.
Definition c15 : R := 15 / 100000.
(** 28-30 *)
Definition kap (m : murpar) (T : R) : R := u_k m * (1 - c15 * (T - u_T m)).
Definition vt (m : murpar) (T : R) : R := u_V m * (1 + u_a m * (T - u_T m) - 20 * u_a m * (sqrt T - sqrt (u_T m))).
Definition w4 (k P : R) : R := 1 + 4 * (P / 1000) / k.
(** 33-44 *)
Definition mur_g (m : murpar) (T P : R) : R := 1 / 3 * vt m T * kap m T * (Rpower (w4 (kap m T) P) (3 / 4) - 1) * 1000.
Definition mur_s (m : murpar) (T P : R) : R :=
  - (u_V m * kap m T / 3 * (u_a m - 10 * u_a m * / sqrt T) * (Rpower (w4 (kap m T) P) (3 / 4) - 1)
     - vt m T * u_k m / 3 * c15 * (Rpower (w4 (kap m T) P) (3 / 4) - 1)
     + vt m T * (P / 1000) * c15 / (1 - c15 * (T - u_T m)) * Rpower (w4 (kap m T) P) (- (1 / 4))) * 1000.
Definition mur_h (m : murpar) (T P : R) : R := mur_g m T P + T * mur_s m T P.
Definition mur_v (m : murpar) (T P : R) : R := vt m T * Rpower (1 - 4 * (P / 1000) / (kap m T + 4 * (P / 1000))) (1 / 4).
Definition mur_c (m : murpar) (T P : R) : R :=
  - T * (5 / 3 * u_V m * u_a m * kap m T / (T * sqrt T) * (Rpower (w4 (kap m T) P) (3 / 4) - 1)
         - 2 / 3 * u_V m * (u_a m - 10 * u_a m / sqrt T) * u_k m * c15 * (Rpower (w4 (kap m T) P) (3 / 4) - 1)
         + 2 * u_V m * (u_a m - 10 * u_a m / sqrt T) * (P / 1000) * c15 / (1 - c15 * (T - u_T m)) * Rpower (w4 (kap m T) P) (- (1 / 4))
         - vt m T * (P / 1000) ^ 2 * c15 ^ 2 / ((1 - c15 * (T - u_T m)) ^ 3 * u_k m) * Rpower (w4 (kap m T) P) (- (5 / 4))) * 1000.
(** the test of line 26 *)
Definition mur_on (m : murpar) (T P : R) : bool :=
  (neqb (P - u_P m) 0 || neqb (T - u_T m) 0) && gtb (Rabs (u_V m)) (/ 1000000000) && gtb (Rabs (u_a m)) (/ 1000000000) && gtb (Rabs (u_k m)) (/ 1000000000).
(** 26-60 *)
Definition murnaghan (m : murpar) (T P : R) (t : mprop) : mprop :=
  if mur_on m T P
  then with_UA (mG t + mur_g m T P) (mH t + mur_h m T P) (mS t + mur_s m T P) (mV t + mur_v m T P) (mCp t + mur_c m T P) T P
  else with_UA (mG t + u_V m * (P - u_P m)) (mH t + u_V m * (P - u_P m)) (mS t) (u_V m) (mCp t) T P.

(** *** Landau, SolidHPLandau.cpp *)
(** l_Tc is the transition temperature in degrees centigrade; k298, a0 as above (25-31) *)
Record lanpar : Type := mkLan { l_Tc : R; l_S : R; l_V : R; l_k : R; l_a : R; l_T : R }.
(** 33-34 *)
Definition smax (l : lanpar) : R := if Rle_dec (l_S l) 0 then / 10 ^ 20 else l_S l.
Definition C_to_K : R := 27315 / 100.
Definition tc0 (l : lanpar) : R := l_Tc l + C_to_K.
(** 36-43; with Vmax = 0 the pressure term is left out, which is the same number *)
Definition tcr (l : lanpar) (P : R) : R := (if Req_EM_T (l_V l) 0 then l_Tc l else l_Tc l + l_V l / smax l * P) + C_to_K.
(** pow(x, 1/4): 0 at 0; a negative base (NaN) is not modelled *)
Definition root4 (x : R) : R := if Rlt_dec 0 x then Rpower x (1 / 4) else 0.
(** 45, 47-56 *)
Definition q298 (l : lanpar) : R := root4 (1 - l_T l / tc0 l).
Definition qq (l : lanpar) (T P : R) : R := if Rlt_dec T (tcr l P) then root4 (1 - T / tcr l P) else 0.
Definition dqq (l : lanpar) (T P : R) : R :=
  if Rlt_dec T (tcr l P) then - T * l_V l / (4 * Rpower (1 + T / tcr l P) (3 / 4) * tcr l P ^ 2 * smax l) else 0.
(** 58-65 *)
Definition lkT (l : lanpar) (T : R) : R := l_k l * (1 - c15 * (T - l_T l)).
Definition lvb (l : lanpar) (T : R) : R := l_V l * q298 l ^ 2 * (1 + l_a l * (T - l_T l) - 20 * l_a l * (sqrt T - sqrt (l_T l))).
Definition livdp (l : lanpar) (T P : R) : R := lvb l T * lkT l T / 3 * (Rpower (w4 (lkT l T) P) (3 / 4) - 1) * 1000.
Definition lidv (l : lanpar) (T P : R) : R :=
  (l_V l * q298 l ^ 2 * lkT l T / 3 * (l_a l - 10 * l_a l * / sqrt T) * (Rpower (w4 (lkT l T) P) (3 / 4) - 1)
   - lvb l T * l_k l / 3 * c15 * (Rpower (w4 (lkT l T) P) (3 / 4) - 1)
   + lvb l T * (P / 1000) * c15 / (1 - c15 * (T - l_T l)) * Rpower (w4 (lkT l T) P) (- (1 / 4))) * 1000.
(** 66 *)
Definition lsmq (l : lanpar) : R := smax l * tc0 l * (q298 l ^ 2 - q298 l ^ 6 / 3).
(** 69-85; both branches of line 69 compute the same values *)
Definition lan_g (l : lanpar) (T P : R) : R :=
  lsmq l - T * smax l * q298 l ^ 2 + livdp l T P + smax l * ((T - tcr l P) * qq l T P ^ 2 + tcr l P * qq l T P ^ 6 / 3).
Definition lan_s (l : lanpar) (T P : R) : R := smax l * (q298 l ^ 2 - qq l T P ^ 2) - lidv l T P.
Definition lan_h (l : lanpar) (T P : R) : R :=
  lsmq l - smax l * tcr l P * (qq l T P ^ 2 - qq l T P ^ 6 / 3) + livdp l T P - T * lidv l T P.
Definition lan_v (l : lanpar) (T P : R) : R :=
  lvb l T + 2 * smax l * (T - tcr l P) * qq l T P * dqq l T P - smax l * qq l T P ^ 2 * l_V l / smax l + tcr l P * qq l T P ^ 2 * dqq l T P
  + l_V l / smax l * qq l T P ^ 3 / 3.
Definition lan_c (l : lanpar) (T P : R) : R :=
  if Rlt_dec T (tcr l P) then T * smax l / (2 * sqrt (tcr l P) * sqrt (tcr l P - T)) else 0.
(** the whole function; the volume is replaced, not added to (74, 81) *)
Definition landau (l : lanpar) (T P : R) (t : mprop) : mprop :=
  with_UA (mG t + lan_g l T P) (mH t + lan_h l T P) (mS t + lan_s l T P) (lan_v l T P) (mCp t + lan_c l T P) T P.

(** *** Berman, SolidBerman88.cpp *)
Record berpar : Type := mkBer { b_0 : R; b_1 : R; b_2 : R; b_3 : R; b_4 : R; b_V : R; b_T : R; b_P : R }.
(** 16 *)
Definition ts2 (b : berpar) : R := b_T b * b_T b.
Section Berman.
Variables (b : berpar) (T P : R).
(** 33-43 *)
Definition ber_VP : R := b_V b * (P - b_P b).
Definition ber_VT : R := b_V b * (T - b_T b).
Definition ber_g : R := ber_VP + (b_0 b * (T - b_T b) * ber_VP + b_1 b * ber_VP * ts2 b + b_2 b * ber_VP * ts2 b * (T - b_T b)
  + b_3 b * ber_VP * (P - b_P b) / 2 + b_4 b * ber_VP * ((P - b_P b) * (P - b_P b)) / 3).
Definition ber_h : R := ber_VP + (- b_0 b * b_T b * ber_VP - b_1 b * ber_VP * (T + b_T b) * (T - b_T b) + b_2 b * ber_VP * ts2 b * (2 * T + b_T b)
  + b_3 b * ber_VP * (P - b_P b) / 2 + b_4 b * ber_VP * ((P - b_P b) * (P - b_P b)) / 3).
Definition ber_s : R := - b_0 b * ber_VP - b_1 b * ber_VP * 2 * (T - b_T b) - b_2 b * ber_VP * 3 * ts2 b.
Definition ber_v : R := b_V b + (b_0 b * ber_VT + b_1 b * ber_VT * (T - b_T b) + b_2 b * ber_VT * ts2 b + b_3 b * ber_VP + b_4 b * ber_VP * (P - b_P b)).
End Berman.
(** 30-46: at the reference point only the volume is set *)
Definition berman (b : berpar) (T P : R) (t : mprop) : mprop :=
  if neqb (P - b_P b) 0 || neqb (T - b_T b) 0
  then with_UA (mG t + ber_g b T P) (mH t + ber_h b T P) (mS t + ber_s b T P) (ber_v b T P) (mCp t) T P
  else mkMP (mG t) (mH t) (mS t) (b_V b) (mCp t) (mU t) (mA t).

(** *** Birch-Murnaghan, SolidBMGottschalk.cpp; pressures in MPa, volumes in cm3 *)
(** the pressure of the equation of state: veq + P of 45-47 *)
Definition bm_p (vt k kp kpp v : R) : R :=
  let x := Rpower (vt / v) (2 / 3) in
  3 / 2 * k * (1 + 3 / 4 * (kp - 4) * (x - 1) + 3 / 8 * (143 / 9 - 7 * kp + kp * kp + kpp * k) * (x - 1) * (x - 1)) * (x - 1) * Rpower (vt / v) (5 / 3).
(** dveq of 48-51 *)
Definition bm_dp (vt k kp kpp v : R) : R :=
  let x := Rpower (vt / v) (2 / 3) in
  k * vt * (vt * vt * (4509 + kp * kp * (243 - 99 * x) + 9 * kpp * k * (27 - 11 * x) + 9 * kp * (-207 + 77 * x) - 1573 * x)
            - 21 * (199 - 75 * kp + 9 * kp * kp + 9 * kpp * k) * vt * Rpower (vt / v) (1 / 3) * v
            + 5 * (239 - 81 * kp + 9 * kp * kp + 9 * kpp * k) * x * v * v) / (48 * v * v * v * v).
(** pint of 19-23 *)
Definition bm_pint (vt k kp kpp v : R) : R :=
  let x := Rpower (vt / v) (2 / 3) in
  (-3 * k * vt * (6 * (199 - 75 * kp + 9 * kp * kp + 9 * kpp * k) * v * vt * Rpower (vt / v) (1 / 3)
                  + vt * vt * (-668 + kp * (276 - 63 * x) + 9 * kp * kp * (-4 + x) + 9 * kpp * k * (-4 + x) + 143 * x)
                  + v * v * (287 + kp * kp * (9 - 36 * x) + 9 * kpp * k * (1 - 4 * x) - 956 * x + kp * (-87 + 324 * x)))) / (128 * v * v).
(** BM_IntVol (14-26) *)
Definition bm_int (P Pref vt v k kp kpp : R) : R := - Pref * vt + P * v - bm_pint vt k kp kpp v.
(** BM_Volume (31-59): the while loop with its counter; [d] is vvnew - vvold *)
Fixpoint bm_newton (n : nat) (P vt k kp kpp d v : R) : R :=
  if gtb (Rabs d) (/ 10 ^ 10)
  then match n with
       | O => v
       | S n' => let v' := v - (bm_p vt k kp kpp v - P) / bm_dp vt k kp kpp v / 2 in bm_newton n' P vt k kp kpp (v' - v) v'
       end
  else v.
Definition bm_volume (P vt k kp kpp vstart : R) : R := bm_newton 50 P vt k kp kpp 1 vstart.
(** the coefficients read (81-89): BMConst[0..2], [5..8] *)
Record bmpar : Type := mkBM { g_1 : R; g_2 : R; g_3 : R; g_k : R; g_d : R; g_kp : R; g_kpp : R }.
Definition bm_read (l : list R) : option bmpar :=
  match l with a1 :: a2 :: a3 :: _ :: _ :: k :: d :: kp :: kpp :: _ => Some (mkBM a1 a2 a3 k d kp kpp) | _ => None end.
Section BM.
(** [solve] stands for the calls of BM_Volume: P, vt, kt0, kp, kpp, vstart *)
Variable solve : R -> R -> R -> R -> R -> R -> R.
Variables (b : bmpar) (Pref Tref v0 : R).
(** 97-118 *)
Definition bm_k (T : R) : R := g_k b + g_d b * (T - Tref).
Definition bm_given : bool := negb (gtb (/ 10 ^ 20) (Rabs (g_kpp b))).
Definition bm_auto (T : R) : R := - ((35 / 9 + (3 - g_kp b) * (4 - g_kp b)) / bm_k T).
Definition bm_kpp (T : R) : R := if bm_given then g_kpp b else bm_auto T.
(** kppTplus and kppTminus stay 0.0 when kpp is given (76, 102-107) *)
Definition bm_kpp_inc (T : R) : R := if bm_given then 0 else bm_auto T.
Definition bm_vt (T : R) : R := v0 * exp (g_1 b * (T - Tref) + g_2 b / 2 * (T * T - Tref * Tref) + g_3 b * (- 1 / T + 1 / Tref)).
(** 121-124 *)
Definition bm_vv (T P : R) : R := solve P (bm_vt T) (bm_k T) (g_kp b) (bm_kpp T) (bm_vt T * exp (- 1 / bm_k T * (P - Pref))).
(** 127-128, 138-139 *)
Definition bm_vinc (T P T' : R) : R := solve P (bm_vt T') (bm_k T') (g_kp b) (bm_kpp_inc T') (bm_vv T P).
Definition bm_g (T P : R) : R := bm_int P Pref (bm_vt T) (bm_vv T P) (bm_k T) (g_kp b) (bm_kpp T).
Definition bm_ginc (T P T' : R) : R := bm_int P Pref (bm_vt T') (bm_vinc T P T') (bm_k T') (g_kp b) (bm_kpp_inc T').
(** 140-143 *)
Definition bm_s (T P : R) : R := (bm_ginc T P (T + 1 / 10) - bm_ginc T P (T - 1 / 10)) / (2 * (1 / 10)).
Definition bm_h (T P : R) : R := bm_g T P + T * bm_s T P.
End BM.
(** 149-188; V0, Pst, Tst are the substance's reference volume, pressure (bar) and temperature *)
Inductive bm_out : Type :=
| BmThrow                 (* fewer than 8 coefficients: exception (161-164) *)
| BmUB                    (* exactly 8: BMConst[8] is read past the end (89) *)
| BmOk (t : mprop).
Definition bm_gottschalk (l : list R) (V0 Tst Pst T Pbar : R) (t : mprop) : bm_out :=
  let P := Pbar / 10 in let Pr := Pst / 10 in
  if Nat.ltb (length l) 8 then BmThrow
  else if neqb (P - Pr) 0 || neqb (T - Tst) 0 then
    match bm_read l with
    | None => BmUB
    | Some b => BmOk (with_UA (mG t + bm_g bm_volume b Pr Tst (V0 * 10) T P) (mH t + bm_h bm_volume b Pr Tst (V0 * 10) T P) (mS t + bm_s bm_volume b Pr Tst (V0 * 10) T P)
                        (mV t + (V0 + bm_vv bm_volume b Pr Tst (V0 * 10) T P / 10)) (mCp t) T Pbar)
    end
  else BmOk t.
