(** The reaction functions with the derivatives their ThermoScalars carry:
      Reactions/LogK_function_of_T.cpp:53-185, FrantzMarshall.cpp:6-59, RyzhenkoBryzgalyn.cpp:5-79, DolejsManning2010.cpp:6-51,
      ThermoModelsReaction.cpp:64-132 (the temperature in K and the pressure divided by 1e5).
    T in K, P in Pa.  Coefficients are doubles.  The coefficients A[0] and A[2] found from the heat capacity are taken with .val
    (LogK_function_of_T.cpp:122-127), so the value model's list [A_of_C] stands for them.  Definitions only. *)
From Coq Require Import List Bool Reals String.
Import ListNotations.
From Verif Require Import ThermoScalarModel MineralModel CarryModel ReacModel.
Open Scope R_scope.

(** the reference properties of a reaction, as read *)
Record rts : Type := mkRts { xG : TS; xH : TS; xS : TS; xCp : TS; xV : TS; xK : TS; xTr : R; xA : list R; xC : list R }.
(** ThermoPropertiesReaction, ThermoProperties.h *)
Record rprop : Type := mkRP { oK : TS; oLn : TS; oG : TS; oH : TS; oS : TS; oCp : TS; oV : TS; oA : TS; oU : TS }.
(** sta.first != notdefined *)
Definition isdef (x : TS) : bool := negb (status_eqb (fst (sta x)) notdefined).
Definition sc_of (x : TS) : sc := mkSc (val x) (isdef x).

(** 146-154 *)
Definition lgK7T (a : list R) (T : R) : TS :=
  ts_add (ts_add (ts_add (ts_add (ts_add (d_add_ts (at_ a 0) (d_mul_ts (at_ a 1) (TK T))) (d_div_ts (at_ a 2) (TK T))) (d_mul_ts (at_ a 3) (ts_log (TK T))))
    (d_div_ts (at_ a 4) (ts_mul (TK T) (TK T)))) (d_mul_ts (at_ a 5) (ts_mul (TK T) (TK T)))) (d_div_ts (at_ a 6) (ts_pow_d (TK T) (1 / 2))).
Definition H7T (a : list R) (T : R) : TS :=
  d_mul_ts Rln10 (ts_sub (ts_add (ts_sub (ts_add (ts_sub_d (d_mul_ts (at_ a 1) (ts_mul (TK T) (TK T))) (at_ a 2)) (d_mul_ts (at_ a 3) (TK T))) (d_div_ts (2 * at_ a 4) (TK T)))
    (d_mul_ts (2 * at_ a 5) (ts_mul (ts_mul (TK T) (TK T)) (TK T)))) (d_mul_ts (1 / 2 * at_ a 6) (ts_pow_d (TK T) (1 / 2)))).
Definition S7T (a : list R) (T : R) : TS :=
  d_mul_ts Rln10 (ts_add (ts_add (ts_sub (ts_add (d_add_ts (at_ a 0) (d_mul_ts (2 * at_ a 1) (TK T))) (d_mul_ts (at_ a 3) (d_add_ts 1 (ts_log (TK T))))) (d_div_ts (at_ a 4) (ts_mul (TK T) (TK T))))
    (d_mul_ts (3 * at_ a 5) (ts_mul (TK T) (TK T)))) (d_div_ts (1 / 2 * at_ a 6) (ts_pow_d (TK T) (1 / 2)))).
Definition Cp5T (c : list R) (T : R) : TS :=
  ts_add (ts_add (ts_add (d_add_ts (at_ c 0) (d_mul_ts (at_ c 1) (TK T))) (d_div_ts (at_ c 2) (ts_mul (TK T) (TK T)))) (d_mul_ts (at_ c 4) (ts_mul (TK T) (TK T))))
    (d_div_ts (at_ c 3) (ts_pow_d (TK T) (1 / 2))).
(** 161-182 *)
Definition finTS (e : rts) (T P : R) (lg H S Cp : TS) : rprop :=
  let G := ts_mul_d (ts_mul (ts_neg (ts_mul_d (TK T) Rgas)) lg) lg_to_ln in
  let U := if is_zero (val H) then ts_default else ts_sub H (ts_mul (Pbar P) (xV e)) in
  let A := if is_zero (val H) then ts_default else ts_sub U (ts_mul (TK T) S) in
  mkRP lg (ts_mul_d lg lg_to_ln) G H S Cp (xV e) A U.
(** 75-78 *)
Definition HTS (e : rts) (T : R) : TS := if isdef (xS e) && isdef (xG e) && negb (isdef (xH e)) then ts_add (xG e) (ts_mul (xS e) (TK T)) else xH e.
Definition STS (e : rts) (T : R) : TS := if isdef (xH e) && isdef (xG e) && negb (isdef (xS e)) then ts_div (ts_sub (xH e) (xG e)) (TK T) else xS e.
(** 53-185 *)
Definition logKTS (e : rts) (ce : CE) (T P : R) : option rprop :=
  let H := HTS e T in let S := STS e T in
  let ce := match ce with EK3 => determineMethod (sc_of H) (sc_of S) (sc_of (xCp e)) | c => c end in
  let Cp := xCp e in let Tr := xTr e in
  match ce with
  | EK0 => Some (finTS e T P (xK e) H S Cp)
  | EK1 => Some (finTS e T P (ts_div_d (ts_div (ts_neg (xG e)) (TK T)) Rln10) (xG e) S Cp)
  | EK2 => Some (finTS e T P (ts_div_d (ts_sub S (ts_div H (TK T))) Rln10) H S Cp)
  | EK3 => Some (finTS e T P (ts_div_d (ts_sub (ts_sub S (ts_div H (TK T))) (ts_mul Cp (ts_sub (d_sub_ts 1 (d_div_ts Tr (TK T))) (ts_log (ts_div_d (TK T) Tr))))) Rln10)
             (ip_add H (ts_mul Cp (ts_sub_d (TK T) Tr))) (ip_add S (ts_mul Cp (ts_log (ts_div_d (TK T) Tr)))) Cp)
  | LGK | LGX =>
      let a := match xA e, xC e with [], _ :: _ => A_of_C (resize 5 (xC e)) (val S) (val H) T | a, [] => match a with [] => [] | _ => resize 7 a end | a, _ => a end in
      let c := match xC e, xA e with [], _ :: _ => C_of_A a | c, [] => match c with [] => [] | _ => resize 5 c end | c, _ => c end in
      if Nat.leb 7 (List.length a) && Nat.leb 5 (List.length c) then Some (finTS e T P (lgK7T a T) (H7T a T) (S7T a T) (Cp5T c T)) else None
  end.

(** *** the density models; the properties of water as the solvent model hands them over *)
Record wts : Type := mkWts { w_rho : TS; w_alp : TS; w_bet : TS; w_dal : TS }.
Section Density.
Variables (w : wts) (T P : R).
Let tn (n : R) : TS := ts_pow_d (TK T) n.
(** FrantzMarshall.cpp:11-19, RyzhenkoBryzgalyn.cpp:11-19 *)
Definition RHO_ : TS := ts_div_d (w_rho w) 1000.
Definition dRHOdT_ : TS := ts_mul (ts_neg (w_alp w)) RHO_.
Definition d2RHO_ : TS := ts_mul RHO_ (ts_sub (ts_pow_d (w_alp w) 2) (w_dal w)).
Definition rl10 : TS := ts_mul_d RHO_ LN10.
Definition r2l10 : TS := ts_mul_d (ts_pow_d RHO_ 2) LN10.
(** FrantzMarshall.cpp:6-59 *)
Definition frantzTS (co : list R) : option rprop :=
  match co with
  | a :: b :: c :: d :: e :: f :: g :: _ =>
      let BET := ts_mul_d (w_bet w) 100000 in
      let dRHOdP := ts_mul BET RHO_ in
      let efg := ts_add (d_add_ts e (d_div_ts f (TK T))) (d_div_ts g (tn 2)) in
      let logK := ts_add (ts_add (ts_add (d_add_ts a (d_div_ts b (TK T))) (d_div_ts c (tn 2))) (d_div_ts d (tn 3))) (ts_mul efg (ts_log10 RHO_)) in
      let fg := ts_sub (d_div_ts (- f) (tn 2)) (d_div_ts (2 * g) (tn 3)) in
      let dJ := ts_add (ts_add (ts_sub (ts_sub (d_div_ts (- b) (tn 2)) (d_div_ts (2 * c) (tn 3))) (d_div_ts (3 * d) (tn 4))) (ts_mul fg (ts_log10 RHO_)))
                  (ts_mul (ts_div (ts_mul_d efg 1) rl10) dRHOdT_) in
      let d2J := ts_add (ts_sub (ts_add (ts_add (ts_add (ts_add (d_div_ts (2 * b) (tn 3)) (d_div_ts (6 * c) (tn 4))) (d_div_ts (12 * d) (tn 5)))
                   (ts_mul (ts_add (d_div_ts (2 * f) (tn 3)) (d_div_ts (6 * g) (tn 4))) (ts_log10 RHO_)))
                   (ts_mul (ts_div (ts_mul_d (d_mul_ts 2 fg) 1) rl10) dRHOdT_))
                   (ts_mul (ts_div (ts_mul_d efg 1) r2l10) (ts_pow_d dRHOdT_ 2)))
                   (ts_mul (ts_div (ts_mul_d efg 1) rl10) d2RHO_) in
      let G := ts_mul (ts_mul_d (d_mul_ts (- Rgas) (TK T)) LN10) logK in
      let S := d_mul_ts (Rgas * LN10) (ts_add logK (ts_mul dJ (TK T))) in
      let Cp := ts_mul (d_mul_ts (Rgas * LN10) (TK T)) (ts_add (d_mul_ts 2 dJ) (ts_mul d2J (TK T))) in
      let V := ts_mul (d_mul_ts (- Rgas * LN10) (TK T)) (ts_mul (ts_div (ts_mul_d efg 1) rl10) dRHOdP) in
      let H := ts_add G (ts_mul S (TK T)) in
      let U := ts_sub H (ts_mul (Pbar P) V) in
      Some (mkRP ts_default (ts_mul_d logK lg_to_ln) G H S Cp V (ts_sub U (ts_mul (TK T) S)) U)
  | _ => None
  end.
(** RyzhenkoBryzgalyn.cpp:5-79 *)
Definition ryzhenkoTS (co : list R) : option rprop :=
  match co with
  | pK298 :: A :: B :: _ =>
      let dRHOdP := ts_mul (w_bet w) RHO_ in
      let efg := ts_add (d_add_ts rb_e (d_div_ts rb_f (TK T))) (d_div_ts rb_g (tn 2)) in
      let pKwTP := ts_neg (ts_add (ts_add (ts_add (d_add_ts rb_a (d_div_ts rb_b (TK T))) (d_div_ts rb_c (tn 2))) (d_div_ts rb_d (tn 3))) (ts_mul efg (ts_log10 RHO_))) in
      let zzA := d_add_ts A (d_div_ts B (TK T)) in
      let BB := ts_div_d (ts_sub pKwTP (d_div_ts (rb_pKw298 * T298) (TK T))) rb_zz in
      let pKTP := ts_add (d_mul_ts pK298 (d_div_ts T298 (TK T))) (ts_mul zzA BB) in
      let logK := ts_neg pKTP in
      let G := ts_mul (ts_mul_d (ts_mul_d pKTP LN10) Rgas) (TK T) in
      let E := ts_add (ts_add_d (d_mul_ts rb_e (TK T)) rb_f) (d_div_ts rb_g (TK T)) in
      let I := ts_sub_d (ts_add (ts_add (ts_add (ts_add_d (d_mul_ts rb_a (TK T)) rb_b) (d_div_ts rb_c (TK T))) (d_div_ts rb_d (tn 2))) (ts_mul E (ts_log10 RHO_))) (- rb_pKw298 * T298) in
      let J := d_add_ts A (d_div_ts B (TK T)) in
      let eg := d_sub_ts rb_e (d_div_ts rb_g (tn 2)) in
      let dI := ts_add (ts_add (ts_sub (d_sub_ts rb_a (d_div_ts rb_c (tn 2))) (d_div_ts (2 * rb_d) (tn 3))) (ts_mul eg (ts_log10 RHO_))) (ts_mul (ts_div (ts_mul_d E 1) rl10) dRHOdT_) in
      let dJ := d_div_ts (- B) (tn 2) in
      let d2I := ts_add (ts_sub (ts_add (ts_add (ts_add (d_div_ts (2 * rb_c) (tn 3)) (d_div_ts (6 * rb_d) (tn 4))) (ts_mul (d_div_ts (2 * rb_g) (tn 3)) (ts_log10 RHO_)))
                   (ts_mul (ts_div (ts_mul_d (d_mul_ts 2 eg) 1) rl10) dRHOdT_))
                   (ts_mul (ts_div (ts_mul_d E 1) r2l10) (ts_pow_d dRHOdT_ 2)))
                   (ts_mul (ts_div (ts_mul_d E 1) rl10) d2RHO_) in
      let d2J := d_div_ts (2 * B) (tn 3) in
      let S := d_mul_ts (Rgas * LN10 / rb_zz) (ts_add (ts_mul dI J) (ts_mul dJ I)) in
      let Cp := ts_mul (d_mul_ts (Rgas * LN10 / rb_zz) (TK T)) (ts_add (ts_add (ts_mul d2I J) (ts_mul (d_mul_ts 2 dI) dJ)) (ts_mul d2J I)) in
      let V := ts_mul (ts_mul (ts_div (ts_mul_d (d_mul_ts (- Rgas * LN10 / rb_zz) E) 1) rl10) dRHOdP) (d_add_ts A (d_div_ts B (TK T))) in
      let H := ts_add G (ts_mul S (TK T)) in
      let U := ts_sub H (ts_mul (Pbar P) V) in
      Some (mkRP logK (ts_mul_d logK lg_to_ln) G H S Cp (ts_mul_d V 100000) (ts_sub U (ts_mul (TK T) S)) U)
  | _ => None
  end.
(** DolejsManning2010.cpp:6-51; its wrapper calls frantzTS (ThermoModelsReaction.cpp:33-39) *)
Definition dolejsTS (co : list R) : option rprop :=
  match co with
  | a :: b :: c :: d :: e :: _ =>
      let BET := ts_mul_d (w_bet w) 100000 in let lT := ts_log (TK T) in let lr := ts_log RHO_ in
      let lnK := d_mul_ts (- 1 / Rgas) (ts_add (ts_add (ts_add (ts_add_d (d_div_ts a (TK T)) b) (d_mul_ts c lT)) (d_mul_ts d (TK T))) (d_mul_ts e lr)) in
      let S := ts_add (ts_sub (ts_sub (d_sub_ts (- b) (d_mul_ts c (d_add_ts 1 lT))) (d_mul_ts (2 * d) (TK T))) (d_mul_ts e lr)) (ts_mul (d_mul_ts e (TK T)) (w_alp w)) in
      let H := ts_add (ts_sub (d_sub_ts a (d_mul_ts c (TK T))) (d_mul_ts d (tn 2))) (ts_mul (d_mul_ts e (tn 2)) (w_alp w)) in
      let Cp := ts_add (ts_add (d_sub_ts (- c) (d_mul_ts (2 * d) (TK T))) (ts_mul (d_mul_ts (2 * e) (TK T)) (w_alp w))) (ts_mul (d_mul_ts e (tn 2)) (w_dal w)) in
      let V := ts_mul (d_mul_ts e (TK T)) BET in
      let G := ts_sub H (ts_mul (TK T) S) in
      let logK := ts_mul_d lnK ln_to_lg in
      let U := ts_sub H (ts_mul (Pbar P) V) in
      Some (mkRP ts_default (ts_mul_d logK lg_to_ln) G H S Cp V (ts_sub U (ts_mul (TK T) S)) U)
  | _ => None
  end.
End Density.
