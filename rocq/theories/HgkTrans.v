(** Viscosity, thermal conductivity and surface tension of water: viscos, thcond, surten and the transport half of dimHGK,
    Substances/Solvent/WaterHGK-JNgems.cpp, and which record carries them.
    Outside: dimLVS, which calls the same three functions near the critical point; a thermal conductivity for a negative compressibility
    (pow of a negative number).  Arithmetic is that of the real numbers.  *)
From Coq Require Import List Bool Arith Reals.
From Verif Require Import GemsModel GemsRun HgkSat.
Import ListNotations.
Open Scope R_scope.

(** 2324-2331: b[7][6] *)
Definition vb : list (list R) :=
  [[5132047 / 10000000; 3205656 / 10000000; 0; 0; - (7782567 / 10000000); 1885447 / 10000000];
   [2151778 / 10000000; 7317883 / 10000000; 1241044 / 1000000; 1476783 / 1000000; 0; 0];
   [- (2818107 / 10000000); - (1070786 / 1000000); - (1263184 / 1000000); 0; 0; 0];
   [1778064 / 10000000; 460504 / 1000000; 2340379 / 10000000; - (4924179 / 10000000); 0; 0];
   [- (417661 / 10000000); 0; 0; 1600435 / 10000000; 0; 0];
   [0; - (1578386 / 100000000); 0; 0; 0; 0];
   [0; 0; 0; - (3629481 / 1000000000); 0; 0]].
(** 2393-2404: bL[5][6] *)
Definition bL : list (list R) :=
  [[13293046 / 10000000; - (40452437 / 100000000); 2440949 / 10000000; 18660751 / 1000000000; - (12961068 / 100000000); 44809953 / 1000000000];
   [17018363 / 10000000; - (22156845 / 10000000); 16511057 / 10000000; - (76736002 / 100000000); 37283344 / 100000000; - (1120316 / 10000000)];
   [52246158 / 10000000; - (10124111 / 1000000); 49874687 / 10000000; - (27297694 / 100000000); - (43083393 / 100000000); 13333849 / 100000000];
   [87127675 / 10000000; - (95000611 / 10000000); 43786606 / 10000000; - (91783782 / 100000000); 0; 0];
   [- (18525999 / 10000000); 9340469 / 10000000; 0; 0; 0; 0]].
(** 2405-2413: bu[6][5] *)
Definition bu : list (list R) :=
  [[501938 / 1000000; 235622 / 1000000; - (274637 / 1000000); 145831 / 1000000; - (270448 / 10000000)];
   [162888 / 1000000; 789393 / 1000000; - (743539 / 1000000); 263129 / 1000000; - (253093 / 10000000)];
   [- (130356 / 1000000); 673665 / 1000000; - (959456 / 1000000); 347247 / 1000000; - (267758 / 10000000)];
   [907919 / 1000000; 1207552 / 1000000; - (687343 / 1000000); 213486 / 1000000; - (822904 / 10000000)];
   [- (551119 / 1000000); 670665 / 10000000; - (497089 / 1000000); 100754 / 1000000; 602253 / 10000000];
   [146543 / 1000000; - (84337 / 1000000); 195286 / 1000000; - (32932 / 1000000); - (202595 / 10000000)]].
(** 2321, 2392: a, au; 2391: aL *)
Definition va : list R := [181583 / 10000000; 177624 / 10000000; 105287 / 10000000; - (36744 / 10000000)].
Definition aL : list R := [2022230 / 1000000; 1411166 / 100000; 5255970 / 1000000; - (2018700 / 1000000)].
Definition at2 (m : list (list R)) (r c : nat) : R := nth c (nth r m []) 0.

(** the nested loops 2357-2363, 2438-2445, 2457-2464: [while (++i <= hi) { while (++j <= hj) { sum += ... } }].
    [i] and [k] are the C variables plus one (both start at -1); the inner loop hands its counter on, as the code does.
    The fuel is hj + 2 and hi + 2, one more than the loops can use from -1 *)
Fixpoint inner (fuel : nat) (f : nat -> R) (hj k : nat) (s : R) : nat * R :=
  match fuel with
  | O => (k, s)
  | S n => if k <=? hj then inner n f hj (S k) (s + f k) else (S k, s)
  end.
Fixpoint outer (fuel : nat) (f : nat -> nat -> R) (hi hj i k : nat) (s : R) : R :=
  match fuel with
  | O => s
  | S n => if i <=? hi then let r := inner (S (S hj)) (f i) hj k s in outer n f hi hj (S i) (fst r) (snd r) else s
  end.
Definition nested (f : nat -> nat -> R) (hi hj : nat) : R := outer (S (S hi)) f hi hj 0 0 0.
Definition i4 : list nat := [0; 1; 2; 3]%nat.

Definition Tstar : R := 64727 / 100.
Definition Dstar : R := 317763 / 1000.
Definition Pstar : R := 22115000.
Definition ustar : R := 1 / 10 ^ 6.
Definition gt (a b : R) : bool := if Rlt_dec b a then true else false.
Definition le (a b : R) : bool := if Rle_dec a b then true else false.
(** viscos, 2318-2379; kelvin, bar, kg/m3, 1/Pa; kg/(m s) *)
Definition visc_out (Tk Pbars : R) : bool :=
  let TdegC := Tk - 27315 / 100 in
  gt Pbars (5000 + 1 / 100) || (gt Pbars (3500 + 1 / 100) && gt TdegC (150 + 1 / 100)) ||
  (gt Pbars (3000 + 1 / 100) && gt TdegC (600 + 1 / 100)) || gt TdegC (900 + 1 / 100).
Definition u0 (T : R) : R := ustar * sqrt T / gsum (fun i => nth i va 0 / T ^ i) i4.
Definition u2 (T D Dkgm3 betaPa : R) : R :=
  if le (997 / 1000) T && le T (10082 / 10000) && le (755 / 1000) D && le D (12900 / 10000) then
    let xt := Pstar / Dstar ^ 2 * betaPa * Dkgm3 ^ 2 in
    if Rlt_dec xt 22 then 1 else 922 / 1000 * Rpower xt (263 / 10000)
  else 1.
Definition viscos (Tk Pbars Dkgm3 betaPa : R) : R :=
  if visc_out Tk Pbars then 0 else
  let T := Tk / Tstar in
  let D := Dkgm3 / Dstar in
  let sum := nested (fun i j => at2 vb j i * (1 / T - 1) ^ i * (D - 1) ^ j) 5 6 in
  u0 T * exp (D * sum) * u2 T D Dkgm3 betaPa.

(** thcond, 2386-2474; W/(m K) *)
Definition cond_out (Tk Pbars : R) : bool :=
  let TdegC := Tk - 27315 / 100 in
  gt Pbars (4000 + 1 / 100) || (gt Pbars (2000 + 1 / 100) && gt TdegC (125 + 1 / 100)) ||
  (gt Pbars (1500 + 1 / 100) && gt TdegC (400 + 1 / 100)) || gt TdegC (800 + 1 / 100).
Definition thcond (Tk Pbars Dkgm3 alph betaPa : R) : R :=
  if cond_out Tk Pbars then 0 else
  let T := Tk / Tstar in
  let D := Dkgm3 / Dstar in
  let L0 := sqrt T / gsum (fun i => nth i aL 0 / T ^ i) i4 in
  let L1 := exp (D * nested (fun i j => at2 bL i j * (1 / T - 1) ^ i * (D - 1) ^ j) 4 5) in
  let u1 := exp (D * nested (fun i j => at2 bu i j * (1 / T - 1) ^ i * (D - 1) ^ j) 5 4) in
  let xt := Pstar / Dstar ^ 2 * betaPa * Dkgm3 ^ 2 in
  let dPdT := Tstar / Pstar * alph / betaPa in
  let L2 := 37711 / 10 ^ 12 / (u0 T * u1) * (T / D) ^ 2 * dPdT ^ 2 * pw xt (4678 / 10000) * pw D (5 / 10) *
            exp (- (1866 / 100) * (T - 1) ^ 2 - (D - 1) ^ 4) in
  L0 * L1 + L2.

(** surten, 2245-2272; N/m.  [None]: pow(Tnorm, v) of a negative number, not a number *)
Definition surten (Tsatur : R) : option R :=
  let Tcrit := 647067 / 1000 in
  let Tcstar := 999686 / 1000000 in
  if gt (27316 / 100) Tsatur || gt Tsatur Tcrit then Some 0 else
  let Tnorm := if Rle_dec (Tcrit - 1 / 10 ^ 10) Tsatur then 0 else (Tcstar - Tsatur / Tstar) / Tcstar in
  if Rlt_dec Tnorm 0 then None else Some (2358 / 10000 * pw Tnorm (1256 / 1000) * (1 + - (625 / 1000) * Tnorm)).

(** dimHGK, 2669-2709, the transport part; un.fvd, un.fvk, un.fst, un.fc of 526-550 for id = 1, ih = 4 (404-408), un.ft = 1.
    Reported unchanged by propertiesWaterHGKgems 53-61, 74-82 *)
Definition un_fvd : R := 10.
Definition un_fvk : R := 10000.
Definition un_fst : R := 1000.
Definition un_fc : R := 1 / 100 * (23901 / 100000).
Record trans := mkTrans { t_visc : R; t_cond : R; t_surf : option R; t_diff : R; t_prandtl : R; t_visck : R }.
Definition dim_trans (isat : nat) (t p d : R) (f : fcts) : trans :=
  let Cpw := cpd f * gascon * un_fh * 1 in
  let Betaw := 1 / (d * dpdd f * un_fp) in
  let Alphaw := d * dvdt f in
  let pbars := p * 10 in
  let dkgm3 := d * 1000 in
  let betaPa := Betaw * un_fp / 10 ^ 6 in
  let CpJKkg := Cpw / un_fh / 1 * 1000 in
  let Viscw := viscos t pbars dkgm3 betaPa * un_fvd in
  let Tcondw := thcond t pbars dkgm3 Alphaw betaPa * un_fc * 1 in
  let Surtenw := match isat with 0%nat | 2%nat => Some 0 | _ => option_map (fun s => s * un_fst) (surten t) end in
  let Tdiffw := Tcondw / un_fc / 1 / (dkgm3 * CpJKkg) * un_fvk in
  let Prndtlw := if Req_EM_T Tcondw 0 then 0 else Viscw / un_fvd * CpJKkg / (Tcondw / un_fc / 1) in
  mkTrans Viscw Tcondw Surtenw Tdiffw Prndtlw (Viscw / un_fvd / dkgm3 * un_fvk).
(** HGKeqn 1717-1766: GemsRun.HGKeqn and HgkSat.HGKeqn_sat with this half of the records; the block of 1747 calls dimHGK with isat = 1 (1751) *)
Definition trans_of (isat : nat) (T P d e : R) : trans := dim_trans isat T P d (thm T d (base (bb T) e T) (resid T e) (ideal T)).
Definition HGKeqn_trans (T P Psat ps dll : R) : trans * trans :=
  let f1 := denHGK P (guess2 T dll) T in
  let f0 := denHGK P (guess3 T P ps dll) T in
  if gt (P * 10) Psat && gt (647126 / 1000) T then
    let f3 := denHGK P 0 T in (trans_of 0 T P (f_dens f1) (f_eval f1), trans_of 1 T P (f_dens f0) (f_eval f3))
  else (trans_of 0 T P (f_dens f1) (f_eval f1), trans_of 0 T P (f_dens f0) (f_eval f0)).
Definition sat_trans (q : satur) (T : R) : trans * trans :=
  (trans_of 1 T (press T (q_dL q)) (q_dL q) (q_dL q), trans_of 1 T (press T (q_dV q)) (q_dV q) (q_dV q)).
