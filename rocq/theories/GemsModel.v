(** Water of Haar, Gallagher and Kell (1984) with the dielectric constant of Johnson and Norton (1991), as GEMS computes them:
      Substances/Solvent/WaterHGK-JNgems.cpp.
    The functions of that file communicate through members (a1.rt, el, ac, ba, qq, res, id, fct, wr); here every function returns what it writes.
    Sums are written as sums over the tables of the file, in the order of the file.  Not modelled: the near-critical equation LVSeqn, the viscosity,
    the thermal conductivity, the surface tension, the validity regions valTP and valTD.  Arithmetic is that of the real numbers. *)
From Coq Require Import List Bool ZArith Reals.
Import ListNotations.
Open Scope R_scope.

Definition gsum {X : Type} (f : X -> R) (l : list X) : R := fold_left (fun s x => s + f x) l 0.

(** WaterHGK-JNgems.cpp:236-238: gascon, tz, aa, uref, sref; 264: g1, g2, gf; 281-282: EXPTOL; 299-301: Ttr *)
Definition gascon : R := (461522 / 1000000).
Definition tz : R := (647073 / 1000).
Definition aa : R := 1.
Definition uref : R := (- (4328455039 / 1000000)).
Definition sref : R := (76180802 / 10000000).
Definition g1 : R := 11.
Definition g2 : R := (44333333333333 / 1000000000000).
Definition gf : R := (35 / 10).
Definition EXPTOL : R := (- (6735 / 10)).
Definition Ttr : R := (27316 / 100).
(** 240-262: g, ii, jj of the first 36 terms *)
Record t36 := mkT36 { a_g : R; a_ii : nat; a_jj : nat }.
Definition terms36 : list t36 :=
  [mkT36 (- (53062968529023 / 100000000000)) 0 2; mkT36 (22744901424408 / 10000000000) 0 3; mkT36 (78779333020687 / 100000000000) 0 5; mkT36 (- (69830527374994 / 1000000000000)) 0 7;
   mkT36 (17863832875422 / 1000000000) 1 2; mkT36 (- (39514731563338 / 1000000000)) 1 3; mkT36 (33803884280753 / 1000000000) 1 5; mkT36 (- (13855050202703 / 1000000000)) 1 7;
   mkT36 (- (2563743661326 / 10000000)) 2 2; mkT36 (48212575981415 / 100000000) 2 3; mkT36 (- (3418301696966 / 10000000)) 2 5; mkT36 (12223156417448 / 100000000) 2 7;
   mkT36 (11797433655832 / 10000000) 3 2; mkT36 (- (21734810110373 / 10000000)) 3 3; mkT36 (1082995216862 / 1000000) 3 5; mkT36 (- (25441998064049 / 100000000)) 3 7;
   mkT36 (- (31377774947767 / 10000000)) 4 2; mkT36 (52911910757704 / 10000000) 4 3; mkT36 (- (13802577177877 / 10000000)) 4 5; mkT36 (- (25109914369001 / 100000000)) 4 7;
   mkT36 (46561826115608 / 10000000) 5 2; mkT36 (- (72752773275387 / 10000000)) 5 3; mkT36 (41774246148294 / 100000000) 5 5; mkT36 (14016358244614 / 10000000) 5 7;
   mkT36 (- (31555231392127 / 10000000)) 6 2; mkT36 (47929666384584 / 10000000) 6 3; mkT36 (40912664781209 / 100000000) 6 5; mkT36 (- (13626369388386 / 10000000)) 6 7;
   mkT36 (69625220862664 / 100000000) 8 2; mkT36 (- (10834900096447 / 10000000)) 8 3; mkT36 (- (22722827401688 / 100000000)) 8 5; mkT36 (3836548600066 / 10000000) 8 7;
   mkT36 (68833257944332 / 10000000000) 2 1; mkT36 (21757245522644 / 1000000000) 2 4; mkT36 (- (2662794482977 / 1000000000)) 0 4; mkT36 (- (70730418082074 / 1000000000)) 4 4].
(** 240-262 and 272-276: g, ii, jj, adz, aad, atz, aat of the last four *)
Record t4 := mkT4 { e_g : R; e_k : nat; e_km : nat; e_dz : R; e_ad : R; e_tz : R; e_at : R }.
Definition terms4 : list t4 :=
  [mkT4 (- (225 / 1000)) 2 0 (319 / 1000) 34 640 20000;
   mkT4 (- (168 / 100)) 2 2 (319 / 1000) 40 640 20000;
   mkT4 (55 / 1000) 2 0 (319 / 1000) 30 (6416 / 10) 40000;
   mkT4 (-93) 4 0 (155 / 100) 1050 270 25].
(** 266-270 *)
Definition bp : list R := [(7478629 / 10000000); (- (3540782 / 10000000)); 0; 0; (7159876 / 1000000000); 0; (- (3528426 / 1000000000)); 0; 0; 0].
Definition bq : list R := [(11278334 / 10000000); 0; (- (5944001 / 10000000)); (- (5010996 / 1000000)); 0; (63684256 / 100000000); 0; 0; 0; 0].

(** bb, 2172-2200 *)
Record ell := mkEll { b1 : R; b2 : R; b1t : R; b2t : R; b1tt : R; b2tt : R }.
Fixpoint vv (t : R) (i : nat) : R := match i with O => 1 | S j => vv t j * tz / t end.
Definition bb_i : list nat := [2; 3; 4; 5; 6; 7; 8; 9]%nat.
Definition bb (t : R) : ell :=
  let p i := nth i bp 0 in let q i := nth i bq 0 in
  let B1t := p 1%nat * vv t 1 / tz + gsum (fun i => - (INR (i - 1) * p i * vv t (i - 1) / t)) bb_i in
  let B2t := 0 + gsum (fun i => - (INR (i - 1) * q i * vv t (i - 1) / t)) bb_i in
  mkEll (p 0%nat + p 1%nat * ln (1 / vv t 1) + gsum (fun i => p i * vv t (i - 1)) bb_i)
        (q 0%nat + gsum (fun i => q i * vv t (i - 1)) bb_i)
        B1t B2t
        (gsum (fun i => p i * INR (i - 1) * INR (i - 1) * vv t (i - 1) / t / t) bb_i - B1t / t)
        (gsum (fun i => q i * INR (i - 1) * INR (i - 1) * vv t (i - 1) / t / t) bb_i - B2t / t).

(** base, 2622-2654 *)
Record basef := mkBase { yb : R; zb : R; dzb : R; ab : R; gb : R; ub : R; sb : R; hb : R; cvb : R; dpdtb : R }.
Definition base (e : ell) (d t : R) : basef :=
  let y := 25 / 100 * b1 e * d in
  let x := 1 - y in
  let z0 := (1 + g1 * y + g2 * y * y) / (x * x * x) in
  let z := z0 + 4 * y * (b2 e / b1 e - gf) in
  let dz0 := (g1 + 2 * g2 * y) / (x * x * x) + 3 * (1 + g1 * y + g2 * y * y) / (x * x * x * x) in
  let dz := dz0 + 4 * (b2 e / b1 e - gf) in
  let a := - ln x - (g2 - 1) / x + (2816666667 / 100000000) / x / x + 4 * y * (b2 e / b1 e - gf) + (15166666667 / 1000000000) + ln (d * t * gascon / (101325 / 1000000)) in
  let u := - t * b1t e * (z - 1 - d * b2 e) / b1 e - d * t * b2t e in
  let bb2tt := t * t * b2tt e in
  let cv := 2 * u + (z0 - 1) * (((t * b1t e / b1 e) * (t * b1t e / b1 e)) - t * t * b1tt e / b1 e)
    - d * (bb2tt - gf * b1tt e * t * t) - (t * b1t e / b1 e) * (t * b1t e / b1 e) * y * dz0 in
  mkBase y z dz a (a + z) u (u - a) (z + u) cv (z / t + d * (dz * b1t e / 4 + b2t e - b2 e / b1 e * b1t e)).

(** resid, 2511-2620 *)
Record resf := mkRes { q0 : R; q5 : R; ar : R; sr : R; ur : R; cvr : R; dpdtr : R }.
Fixpoint qr (d : R) (n : nat) : R := match n with O => 0 | S O => d * d * exp (- aa * d) | S m => qr d m * (1 - exp (- aa * d)) end.
Fixpoint qt (t : R) (n : nat) : R := match n with O => t / tz | S m => qt t m * (tz / t) end.
Definition qzr (d : R) (i : nat) : R := qr d (i + 2).
Definition qzt (t : R) (i : nat) : R := qt t (i + 1).
(** 2546-2564, one term: qp, its part of q5, of ar, dadt, dpdtr, cvr *)
Definition qp36 (x : t36) (t d : R) : R :=
  let k := S (a_ii x) in let l := a_jj x in
  if Nat.eqb k 1 then a_g x * aa * qr d 1 * qzt t (l - 1) else a_g x * aa * qzr d (k - 2) * qzt t (l - 1).
Definition q5_36 (x : t36) (t d : R) : R :=
  let k := S (a_ii x) in let e := exp (- aa * d) in aa * (2 / d - aa * (1 - e * INR (k - 1) / (1 - e))) * qp36 x t d.
Definition ar36 (x : t36) (t d : R) : R :=
  let k := S (a_ii x) in let l := a_jj x in a_g x * qzr d (k - 1) * qzt t (l - 1) / (d * d * exp (- aa * d)) / INR k / (gascon * t).
Definition dfdt36 (x : t36) (t d : R) : R :=
  let k := S (a_ii x) in let l := a_jj x in (1 - exp (- aa * d)) ^ k * (1 - INR l) * qzt t l / tz / INR k.
Definition dpt36 (x : t36) (t d : R) : R :=
  let k := S (a_ii x) in dfdt36 x t d * (d * d * exp (- aa * d)) * aa * INR k / (1 - exp (- aa * d)).
Definition cvr36 (x : t36) (t d : R) : R := a_g x * (INR (a_jj x) * dfdt36 x t d) / gascon.
(** 2570-2611, one of the last four terms *)
Definition del4 (x : t4) (d : R) : R := let del := d / e_dz x - 1 in if Rlt_dec (Rabs del) (1 / 10000000000) then 1 / 10000000000 else del.
Definition ex1_4 (x : t4) (d : R) : R := - e_ad x * del4 x d ^ e_k x.
Definition dex4 (x : t4) (d : R) : R := if Rlt_dec (ex1_4 x d) EXPTOL then 0 else exp (ex1_4 x d) * del4 x d ^ e_km x.
Definition tau4 (x : t4) (t : R) : R := t / e_tz x - 1.
Definition ex2_4 (x : t4) (t : R) : R := - e_at x * tau4 x t * tau4 x t.
Definition tex4 (x : t4) (t : R) : R := if Rle_dec (ex2_4 x t) EXPTOL then 0 else exp (ex2_4 x t).
Definition q10_4 (x : t4) (t d : R) : R := dex4 x d * tex4 x t.
Definition qm4 (x : t4) (d : R) : R := INR (e_km x) / del4 x d - INR (e_k x) * e_ad x * del4 x d ^ (e_k x - 1).
Definition fct4 (x : t4) (t d : R) : R := qm4 x d * d * d * q10_4 x t d / e_dz x.
Definition q5t4 (x : t4) (t d : R) : R :=
  let del := del4 x d in
  fct4 x t d * (2 / d + qm4 x d / e_dz x)
  - (d / e_dz x) * (d / e_dz x) * q10_4 x t d * (INR (e_km x) / del / del + INR (e_k x) * INR (e_k x - 1) * e_ad x * del ^ (e_k x - 2)).
Definition resid (t d : R) : resf :=
  let rt := gascon * t in
  let dadt := gsum (fun x => a_g x * dfdt36 x t d) terms36 + gsum (fun x => - (2 * e_g x * e_at x * tau4 x t * q10_4 x t d / e_tz x)) terms4 in
  let A := gsum (fun x => ar36 x t d) terms36 + gsum (fun x => q10_4 x t d * e_g x / rt) terms4 in
  let s := - dadt / gascon in
  let q2a := gsum (fun x => t * e_g x * (4 * e_at x * ex2_4 x t + 2 * e_at x) * q10_4 x t d / e_tz x / e_tz x) terms4 in
  mkRes (gsum (fun x => qp36 x t d) terms36 + gsum (fun x => e_g x * fct4 x t d) terms4)
        (gsum (fun x => q5_36 x t d) terms36 + gsum (fun x => q5t4 x t d * e_g x) terms4)
        A s (A + s)
        (gsum (fun x => cvr36 x t d) terms36 + q2a / gascon)
        (gsum (fun x => a_g x * dpt36 x t d) terms36 + gsum (fun x => - (2 * e_g x * e_at x * tau4 x t * fct4 x t d / e_tz x)) terms4).

(** ideal, 2116-2146 *)
Record idf := mkId { ai : R; gi : R; si : R; ui : R; hi : R; cvi : R; cpi : R }.
Definition c_id : list R :=
  [(19730271018 / 1000000000); (209662681977 / 10000000000); (- (483429455355 / 1000000000000)); (605743189245 / 100000000000); (2256023885 / 100000000); (- (987532442 / 100000000));
   (- (43135538513 / 10000000000)); (458155781 / 1000000000); (- (47754901883 / 1000000000000)); (41238460633 / 10000000000000); (- (27929052852 / 100000000000000)); (14481695261 / 1000000000000000);
   (- (56473658748 / 100000000000000000)); (16200446 / 1000000000000000); (- (3303822796 / 10000000000000000000)); (451916067368 / 100000000000000000000000); (- (370734122708 / 10000000000000000000000000)); (137546068238 / 1000000000000000000000000000)].
Definition id_i : list nat := [2; 3; 4; 5; 6; 7; 8; 9; 10; 11; 12; 13; 14; 15; 16; 17]%nat.
Definition ideal (t : R) : idf :=
  let c i := nth i c_id 0 in
  let tt := t / 100 in let tl := ln tt in
  let em i := powerRZ tt (Z.of_nat i - 5) in
  let gi := - (c 0%nat / tt + c 1%nat) * tl + gsum (fun i => - (c i * em i)) id_i in
  let hi := c 1%nat + c 0%nat * (1 - tl) / tt + gsum (fun i => c i * IZR (Z.of_nat i - 5) * em i) id_i in
  let cpi := c 1%nat - c 0%nat / tt + gsum (fun i => c i * IZR (Z.of_nat i - 5) * IZR (Z.of_nat i - 4) * em i) id_i in
  mkId (gi - 1) gi ((hi - 1) - (gi - 1)) (hi - 1) hi (cpi - 1) cpi.

(** thmHGK, 2658-2678: ad, gd, sd, ud, hd, cvd, cpd, dpdt, dvdt, dpdd.  The density is that handed over; everything else is what bb, base, resid and ideal have left *)
Record fcts := mkF { ad : R; gd : R; sd : R; ud : R; hd : R; cvd : R; cpd : R; dpdt : R; dvdt : R; dpdd : R }.
Definition thm (t d : R) (B : basef) (r : resf) (i : idf) : fcts :=
  let rt := gascon * t in
  let z := zb B + q0 r / rt / d in
  let dd := rt * (zb B + yb B * dzb B) + q5 r in
  let a := ab B + ar r + ai i - uref / t + sref in
  let u := ub B + ur r + ui i - uref / t in
  let pt := rt * d * dpdtb B + dpdtr r in
  let cv := cvb B + cvr r + cvi i in
  mkF a (a + z) (sb B + sr r + si i - sref) u (u + z) cv (cv + t * pt * pt / (d * d * dd * gascon)) pt (pt / dd / d / d) dd.
(** calcv2 1671-1705, calcv3 1637-1667 with a given density, and denHGK 2218: the pressure in MPa *)
Definition press (t d : R) : R := gascon * t * d * zb (base (bb t) d t) + q0 (resid t d).
Definition state_at (t d : R) : fcts := thm t d (base (bb t) d t) (resid t d) (ideal t).

(** dalHGK, 2864-3013 *)
Definition b_dd (e : ell) (t d : R) : R :=
  let x := 1 - 25 / 100 * b1 e * d in
  gascon * t * ((b1 e / 4 / x) * (1 - (g2 - 1) / x + (g1 + g2 + 1) / x / x) + b2 e - b1 e * gf + 1 / d).
Definition b_2dd (e : ell) (t d : R) : R :=
  let x := 1 - 25 / 100 * b1 e * d in
  gascon * t * ((b1 e * b1 e / 16 / x / x) * (1 - 2 * (g2 - 1) / x + 3 * (g1 + g2 + 1) / x / x) - 1 / d / d).
Definition b_2ddt (e : ell) (t d : R) : R :=
  let y := 25 / 100 * b1 e * d in let x := 1 - y in
  gascon * t * ((b1t e / 4 / x / x) * (1 - (g2 - 1) * (1 + y) / x + (g1 + g2 + 1) * (1 + 2 * y) / x / x) + b2t e - gf * b1t e) + b_dd e t d / t.
Definition b_2dtp (e : ell) (t d al : R) : R :=
  let y := 25 / 100 * b1 e * d in let x := 1 - y in let dydtp := (d / 4) * (b1t e - b1 e * al) in
  b_dd e t d / t + gascon * t * ((b1 e * dydtp / 4 / x / x / x) * (1 - g2 + 2 * (g1 + g2 + 1) / x)
    + ((x * b1t e + b1 e * dydtp) / 4 / x / x) * (1 - (g2 - 1) / x + (g1 + g2 + 1) / x / x) + b2t e - gf * b1t e + al / d).
Definition b_3ddt (e : ell) (t d al : R) : R :=
  let y := 25 / 100 * b1 e * d in let x := 1 - y in let dydtp := (d / 4) * (b1t e - b1 e * al) in
  b_2dd e t d / t + gascon * t * ((b1 e * b1 e * dydtp / 8 / x / x / x / x) * (1 - g2 + 3 * (g1 + g2 + 1) / x)
    + (b1 e * (x * b1t e + b1 e * dydtp) / 8 / x / x / x) * (1 - 2 * (g2 - 1) / x + 3 * (g1 + g2 + 1) / x / x) - 2 * al / d / d).
Definition b_3dtt (e : ell) (t d al : R) : R :=
  let y := 25 / 100 * b1 e * d in let x := 1 - y in let dydtp := (d / 4) * (b1t e - b1 e * al) in
  (b_2ddt e t d - b_dd e t d / t) / t + gascon * t * ((b1t e * dydtp / 2 / x / x / x / x) * (1 - g2 + (g1 + g2 + 1) * (2 + y) / x)
    + ((x * b1tt e + 2 * b1t e * dydtp) / 4 / x / x / x) * (1 - (g2 - 1) * (1 + y) / x + (g1 + g2 + 1) * (1 + 2 * y) / x / x) + b2tt e - gf * b1tt e)
  + (t * b_2dtp e t d al - b_dd e t d) / t / t.
(** 2926-2951, one of the first 36 terms; here l = jj - 1 *)
Definition r_dd36 (x : t36) (t d : R) : R :=
  let e1 := exp (- aa * d) in let e2 := 1 - e1 in a_g x * (tz / t) ^ (a_jj x - 1) * e2 ^ a_ii x * e1.
Definition r_2dd36 (x : t36) (t d : R) : R :=
  let e1 := exp (- aa * d) in let e2 := 1 - e1 in a_g x * e1 * (tz / t) ^ (a_jj x - 1) * e2 ^ a_ii x * (INR (a_ii x) * e1 / e2 - 1).
Definition r_2ddt36 (x : t36) (t d : R) : R :=
  let e1 := exp (- aa * d) in let e2 := 1 - e1 in - (a_g x * e1 * INR (a_jj x - 1) * e2 ^ a_ii x * (tz / t) ^ a_jj x / tz).
Definition r_2dtp36 (x : t36) (t d al : R) : R :=
  let e1 := exp (- aa * d) in let e2 := 1 - e1 in
  a_g x * e1 * e2 ^ a_ii x * (tz / t) ^ (a_jj x - 1) * (d * al - INR (a_jj x - 1) / t - INR (a_ii x) * e1 * d * al / e2).
Definition r_3ddt36 (x : t36) (t d al : R) : R :=
  let e1 := exp (- aa * d) in let e2 := 1 - e1 in let xt := (tz / t) ^ (a_jj x - 1) in
  a_g x * (INR (a_ii x) * d * al * e1 * e1 * xt * powerRZ e2 (Z.of_nat (S (a_ii x)) - 3)
    + e1 * xt * e2 ^ a_ii x * (INR (a_ii x) * e1 / e2 - 1) * (d * al - INR (a_jj x - 1) / t - INR (a_ii x) * d * al * e1 / e2)).
Definition r_3dtt36 (x : t36) (t d al : R) : R :=
  let e1 := exp (- aa * d) in let e2 := 1 - e1 in
  a_g x * INR (a_jj x - 1) * e1 * e2 ^ a_ii x * (tz / t) ^ a_jj x / tz * (INR (a_jj x) / t + d * al * INR (a_ii x) * e1 / e2 - d * al).
(** 2957-3004, one of the last four *)
Definition x12_4 (x : t4) (t d : R) : R := (if Rlt_dec (ex1_4 x d) EXPTOL then 0 else exp (ex1_4 x d)) * tex4 x t.
Definition r_dd4 (x : t4) (t d : R) : R := e_g x * del4 x d ^ e_km x * x12_4 x t d / e_dz x * qm4 x d.
Definition r_2dd4 (x : t4) (t d : R) : R :=
  e_g x * del4 x d ^ e_km x * x12_4 x t d / e_dz x / e_dz x
  * (qm4 x d * qm4 x d - INR (e_km x) / e_dz x / e_dz x - e_ad x * INR (e_k x) * INR (e_k x - 1) * del4 x d ^ (e_k x - 2)).
Definition r_2ddt4 (x : t4) (t d : R) : R := - (e_g x * 2 * e_at x * tau4 x t * x12_4 x t d * del4 x d ^ e_km x / e_tz x / e_dz x * qm4 x d).
Definition r_2dtp4 (x : t4) (t d al : R) : R :=
  let k := e_k x in let l := e_km x in let del := del4 x d in let A := e_ad x in let di := e_dz x in
  e_g x / di * (d * al * del ^ l * x12_4 x t d / di / del / del * (INR l + A * INR k * INR (k - 1) * del ^ k)
    + qm4 x d * (x12_4 x t d * (del ^ l * (INR k * A * d * al * del ^ (k - 1) / di - 2 * e_at x * tau4 x t / e_tz x) - INR l * d * al * powerRZ del (Z.of_nat l - 1) / di))).
Definition r_3ddt4 (x : t4) (t d al : R) : R :=
  let k := e_k x in let l := e_km x in let del := del4 x d in let A := e_ad x in let di := e_dz x in
  let term1 := INR l * d * al / di / del / del + A * INR k * INR (k - 1) * d * al * del ^ (k - 2) / di in
  let term2 := 2 * qm4 x d * term1 - 2 * INR l * d * al / di / del / del / del + A * INR k * INR (k - 1) * INR (k - 2) * powerRZ del (Z.of_nat k - 3) * d * al / di in
  let term3 := qm4 x d * qm4 x d - INR l / del / del - A * INR k * INR (k - 1) * del ^ (k - 2) in
  let term4 := A * INR k * del ^ (k - 1) * d * al / di - 2 * e_at x * tau4 x t / e_tz x in
  let term5 := x12_4 x t d * del ^ l * term4 - x12_4 x t d * INR l * powerRZ del (Z.of_nat l - 1) * d * al / di in
  e_g x / di / di * (del ^ l * x12_4 x t d * term2 + term3 * term5).
Definition r_3dtt4 (x : t4) (t d al : R) : R :=
  let k := e_k x in let l := e_km x in let del := del4 x d in let A := e_ad x in let di := e_dz x in let tau := tau4 x t in
  - (2 * e_g x * e_at x / e_tz x / di * (tau * del ^ l * x12_4 x t d * d * al / del / del / di * (INR l + A * INR k * INR (k - 1) * del ^ k)
    + qm4 x d * (del ^ l * x12_4 x t d * (A * INR k * d * al * tau * del ^ (k - 1) / di + (1 - 2 * e_at x * tau * tau) / e_tz x - tau * INR l * d * al / di / del)))).
Definition dal (t d al : R) : R :=
  let e := bb t in
  let dd := b_dd e t d + (gsum (fun x => r_dd36 x t d) terms36 + gsum (fun x => r_dd4 x t d) terms4) in
  let d2dd := b_2dd e t d + (gsum (fun x => r_2dd36 x t d) terms36 + gsum (fun x => r_2dd4 x t d) terms4) in
  let d2ddt := b_2ddt e t d + (gsum (fun x => r_2ddt36 x t d) terms36 + gsum (fun x => r_2ddt4 x t d) terms4) in
  let d2dtp := b_2dtp e t d al + (gsum (fun x => r_2dtp36 x t d al) terms36 + gsum (fun x => r_2dtp4 x t d al) terms4) in
  let d3ddt := b_3ddt e t d al + (gsum (fun x => r_3ddt36 x t d al) terms36 + gsum (fun x => r_3ddt4 x t d al) terms4) in
  let d3dtt := b_3dtt e t d al + (gsum (fun x => r_3dtt36 x t d al) terms36 + gsum (fun x => r_3dtt4 x t d al) terms4) in
  (d3dtt * (2 * dd + d * d2dd) - d2ddt * (2 * d2dtp + d * d3ddt - d * al * d2dd)) / (2 * dd + d * d2dd) / (2 * dd + d * d2dd).

(** JN91, 2789-2846 *)
Record die := mkDie { eps : R; dedP : R; dedT : R; d2edT2 : R }.
Definition Tref : R := 29815 / 100.
Definition jn_c (T : R) (j : nat) : R := let Tn := T / Tref in
  match j with
  | 0%nat => 1
  | 1%nat => (1470333593 / 100000000) / Tn
  | 2%nat => (2128462733 / 10000000) / Tn + (- (1154445173 / 10000000)) + (1955210915 / 100000000) * Tn
  | 3%nat => (- (833034798 / 10000000)) / Tn + (3213240048 / 100000000) * Tn + (- (6694098645 / 1000000000)) * Tn ^ 2
  | _ => (- (3786202045 / 100000000)) / Tn ^ 2 + (6887359646 / 100000000) / Tn + (- (2729401652 / 100000000))
  end.
Definition jn_dc (T : R) (j : nat) : R :=
  match j with
  | 0%nat => 0
  | 1%nat => - (1470333593 / 100000000) * Tref / T ^ 2
  | 2%nat => - (2128462733 / 10000000) * Tref / T ^ 2 + (1955210915 / 100000000) / Tref
  | 3%nat => - (- (833034798 / 10000000)) * Tref / T ^ 2 + (3213240048 / 100000000) / Tref + 2 * (- (6694098645 / 1000000000)) * T / Tref ^ 2
  | _ => -2 * (- (3786202045 / 100000000)) * Tref ^ 2 / T ^ 3 - (6887359646 / 100000000) * Tref / T ^ 2
  end.
Definition jn_dc2 (T : R) (j : nat) : R :=
  match j with
  | 0%nat => 0
  | 1%nat => 2 * (1470333593 / 100000000) * Tref / T ^ 3
  | 2%nat => 2 * (2128462733 / 10000000) * Tref / T ^ 3
  | 3%nat => 2 * (- (833034798 / 10000000)) * Tref / T ^ 3 + 2 * (- (6694098645 / 1000000000)) / Tref ^ 2
  | _ => 6 * (- (3786202045 / 100000000)) * Tref ^ 2 / T ^ 4 + 2 * (6887359646 / 100000000) * Tref / T ^ 3
  end.
Definition jn_j : list nat := [0; 1; 2; 3; 4]%nat.
Definition jn91 (T D beta alpha daldT : R) : die :=
  mkDie (gsum (fun j => jn_c T j * D ^ j) jn_j)
        (gsum (fun j => INR j * jn_c T j * D ^ j) jn_j * beta)
        (gsum (fun j => D ^ j * (jn_dc T j - INR j * alpha * jn_c T j)) jn_j)
        (gsum (fun j => D ^ j * (jn_dc2 T j - INR j * (alpha * jn_dc T j + jn_c T j * daldT) - INR j * alpha * (jn_dc T j - INR j * alpha * jn_c T j))) jn_j).
(** epsBrn 2851-2859 and Born92 2281-2314: eps, Z, Q, Y, X; all zero above 1000 C or 5000 bar *)
Record born := mkBorn { w_eps : R; w_Z : R; w_Q : R; w_Y : R; w_X : R }.
Definition epsBrn (e : die) : born :=
  let Y := 1 / eps e ^ 2 * dedT e in
  mkBorn (eps e) (-1 / eps e) (1 / eps e ^ 2 * dedP e) Y (1 / eps e ^ 2 * d2edT2 e - 2 * eps e * Y ^ 2).
Definition born92 (TK Pbars D betab alphaK daldT : R) : born :=
  if Rlt_dec (1000 + 1 / 1000) (TK - 27315 / 100) then mkBorn 0 0 0 0 0
  else if Rlt_dec (5000 + 1 / 1000) Pbars then mkBorn 0 0 0 0 0
  else epsBrn (jn91 TK D betab alphaK daldT).

(** unit 526-550 with it = id = ip = itripl = 1, ih = 4 (404-408): ft = 1, fd = 1, fp = 10, fh; tpset 2152-2170 *)
Definition un_fp : R := 10.
Definition un_fh : R := (4305816 / 1000000).
Definition cal_to_J : R := 4184 / 1000.
Record triple := mkTri { tr_S : R; tr_G : R; tr_H : R; tr_U : R; tr_A : R }.
Definition tpset (w : triple) : triple :=
  let conv := un_fh * cal_to_J in
  mkTri (tr_S w / conv * un_fh) (tr_G w / conv * un_fh) (tr_H w / conv * un_fh) (tr_U w / conv * un_fh) (tr_A w / conv * un_fh).
(** dimHGK 2681-2727 with triple 2479-2490.  [d] is the density handed over, [e] what bb left *)
Record wprops := mkWp { w_A : R; w_G : R; w_S : R; w_U : R; w_H : R; w_Cv : R; w_Cp : R; w_speed : R; w_beta : R; w_alpha : R; w_dal : R; w_born : born; w_albe : R }.
Definition dim (t p d : R) (f : fcts) (w : triple) : wprops :=
  let rt := gascon * t in
  let tri := tpset w in
  let beta := 1 / (d * dpdd f * un_fp) in
  let alpha := d * dvdt f in
  let dA := dal t d alpha in
  let bo := born92 t (p * 10) (d * 1000 / 1000) (beta * un_fp / 10) alpha dA in
  let S := sd f * gascon * un_fh * 1 + tr_S tri in
  let H := hd f * rt * un_fh in
  let U := ud f * rt * un_fh in
  let TS := t * S - Ttr * tr_S tri in
  mkWp (U - TS + tr_A tri) (H - TS + tr_G tri) S (U + tr_U tri) (H + tr_H tri)
       (cvd f * gascon * un_fh * 1) (cpd f * gascon * un_fh * 1) (sqrt (Rabs (cpd f * dpdd f * 1000 / cvd f)) * 100)
       beta alpha dA bo (alpha / beta).

(** thermoPropertiesWaterHGKgems 11-43, propertiesWaterHGKgems 45-151, electroPropertiesWaterJNgems 153-218: the outputs of one record and one density, [P] in bar *)
Definition H2OMolarMass : R := (18015268 / 1000000).
Record therm := mkTherm { o_G : R; o_H : R; o_S : R; o_Cp : R; o_Cv : R; o_V : R; o_A : R; o_U : R }.
Definition therm_out (w : wprops) (dens : R) : therm :=
  mkTherm (w_G w * cal_to_J) (w_H w * cal_to_J) (w_S w * cal_to_J) (w_Cp w * cal_to_J) (w_Cv w * cal_to_J) (1 / dens * H2OMolarMass * (1 / 10)) (w_A w * cal_to_J) (w_U w * cal_to_J).
Record solv := mkSolv { o_rho : R; o_rhoT : R; o_rhoTT : R; o_rhoP : R; o_alpha : R; o_beta : R; o_dal : R }.
Definition solv_out (w : wprops) (dens : R) : solv :=
  let alp := w_alpha w in let bet := w_beta w / 100000 in let rho := dens * 1000 in
  mkSolv rho (- alp * rho) (rho * (alp ^ 2 - w_dal w)) (bet * rho) alp bet (w_dal w).
Record elec := mkElec { o_eps : R; o_epsT : R; o_epsTT : R; o_epsP : R; o_Z : R; o_Y : R; o_Q : R; o_X : R }.
Definition elec_out (w : wprops) : elec :=
  let b := w_born w in
  mkElec (w_eps b) (w_Y b * w_eps b ^ 2) ((w_X b + 2 * w_eps b * w_Y b ^ 2) * w_eps b ^ 2) (w_Q b * w_eps b ^ 2) (w_Z b) (w_Y b) (w_Q b / 100000) (w_X b).
