(** The saturation curve of the water of Haar, Gallagher and Kell and the saturated states: PsHGK, corr, pcorr, HGKsat, the saturated half of
    HGKeqn and the choice of the record, Substances/Solvent/WaterHGK-JNgems.cpp.  GemsRun has the unsaturated half with the pressure and the
    liquid density of pcorr as oracles; here they are computed.
    Outside: tcorr, TsHGK and TdPsdT, which calculateWaterHGKgems never reaches (it sets iopt = 2 only with isat = 0), the near-critical equation
    (LvsFlow), what base does for a packing fraction of 1 or more.  Arithmetic is that of the real numbers.  *)
From Coq Require Import List Bool Arith Reals.
From Verif Require Import GemsModel GemsRun.
Import ListNotations.
Open Scope R_scope.

(** pow(w, e) for w >= 0 and e > 0 *)
Definition pw (w e : R) : R := if Req_EM_T w 0 then 0 else Rpower w e.
(** PsHGK, 2712-2736; MPa *)
Definition ps_a : list R :=
  [- (78889166 / 10000000); 25514255 / 10000000; - (6716169 / 1000000); 33239495 / 1000000;
   - (10538479 / 100000); 17435319 / 100000; - (14839348 / 100000); 48631602 / 1000000].
Definition ps_i : list nat := [0; 1; 2; 3; 4; 5; 6; 7]%nat.
Definition ps_low (t : R) : R := 1 / 10 * exp (63573118 / 10000000 - 8858843 / 1000 / t + 60756335 / 100000 * Rpower t (- (6 / 10))).
Definition ps_high (t : R) : R :=
  let v := t / (64725 / 100) in
  let w := Rabs (1 - v) in
  let b := gsum (fun i => let z := INR (i + 1) in nth i ps_a 0 * pw w ((z + 1) / 2)) ps_i in
  22093 / 1000 * exp (b / v).
Definition PsHGK (t : R) : R := if Rle_dec t 314 then ps_low t else ps_high t.

(** corr, 2741-2770: the densities of liquid and vapour at pressure [p], and (Gl - Gv) / RT.  The members base and resid leave belong to the density
    they were last called with ([f_eval]), the compressibility factor of thmHGK to the one handed over *)
Definition gibbs_of (T d e : R) : R := gd (thm T d (base (bb T) e T) (resid T e) (ideal T)).
Definition liq_guess (T dL : R) : R := if Rle_dec dL 0 then 111 / 100 - 4 / 10000 * T else dL.
Definition vap_guess (T p dV : R) : R := if Rle_dec dV 0 then p / (gascon * T) else dV.
Definition floorV (d : R) : R := if Rlt_dec d (5 / 10 ^ 7) then 5 / 10 ^ 7 else d.
Definition corr_dL (T p dL : R) : R := f_dens (denHGK p (liq_guess T dL) T).
Definition corr_dV (T p dV : R) : R := floorV (f_dens (denHGK p (vap_guess T p dV) T)).
Definition delg (T p dL dV : R) : R :=
  gibbs_of T (corr_dL T p dL) (f_eval (denHGK p (liq_guess T dL) T)) - gibbs_of T (corr_dV T p dV) (f_eval (denHGK p (vap_guess T p dV) T)).

(** pcorr, 2492-2506: a do-while loop without a limit.  [Unfinished]: the fuel ran out.  [NotANumber]: the densities coincide and dp divides by zero.
    [q_p] is the pressure returned; [q_at], not in the code, the one the densities were computed at *)
Record satur := mkSat { q_p : R; q_dL : R; q_dV : R; q_at : R }.
Inductive search_sat := Unfinished | NotANumber (dL dV : R) | Found (q : satur).
Fixpoint pc (fuel : nat) (T p dL dV : R) : search_sat :=
  match fuel with
  | O => Unfinished
  | S fuel =>
    let g := delg T p dL dV in
    let l := corr_dL T p dL in
    let v := corr_dV T p dV in
    if Req_EM_T (1 / v - 1 / l) 0 then NotANumber l v else
    let p' := p + g * gascon * T / (1 / v - 1 / l) in
    if Rlt_dec (1 / 10 ^ 4) (Rabs g) then pc fuel T p' l v else Found (mkSat p' l v p)
  end.
Definition pcorr (fuel : nat) (T : R) : search_sat := pc fuel T (PsHGK T) 0 0.

(** HGKsat, 1603-1633, isat = 0 and iopt = 2: a pressure within PTOL (273-274) of the saturation pressure is replaced by it;
    the local isat it sets does not reach aSpc.isat *)
Definition Tc : R := 647067 / 1000.
Definition Pc : R := 22046 / 1000.
Definition PTOL : R := 1 / 10 ^ 6.
Definition snap (q : satur) (T P : R) : R :=
  if (if Rlt_dec Tc T then true else false) || (if Rlt_dec T Ttr then true else false) || (if Rlt_dec Pc P then true else false) then P
  else if Rle_dec (Rabs (P - q_p q)) PTOL then q_p q else P.
(** HGKeqn, 1717-1766, isat = 0: GemsRun with what pcorr found.  Line 1747 reads aSta.Pres, to which Pres points *)
Definition unsat (w : triple) (q : satur) (T P Psat : R) : outcome := HGKeqn w T (snap q T P) Psat (q_p q) (q_dL q).
(** isat = 1, iopt = 1: calcv2 1680-1686 and calcv3 1644-1650 keep the densities of pcorr and recompute the pressure from each; what lines 1734-1739
    write first is wl with Dens[1], then 1741-1743 wr with Dens[0].  The block of 1747 needs isat = 0 *)
Record saturated := mkSatd { wl_w : wprops; wl_d : R; wr_w : wprops; wr_d : R }.
Definition HGKeqn_sat (w : triple) (q : satur) (T : R) : saturated :=
  let v := record_of w T (press T (q_dV q)) (q_dV q) (q_dV q) in
  let l := record_of w T (press T (q_dL q)) (q_dL q) (q_dL q) in
  mkSatd v (q_dV q) l (q_dL q).
(** calculateWaterHGKgems 512-519: Dens[0] is divided by un.fd twice, Dens[1] once; un.fd is 1 for the unit set chosen at 404 (ffd[1], 2649) *)
Definition un_fd : R := 1.
(** 14-43, 47-92: at saturation state 0 reads wr and Dens[0], state 1 wl and Dens[1]; [None]: neither branch *)
Definition at_sat (w : triple) (q : satur) (T : R) (state : nat) : option therm :=
  let s := HGKeqn_sat w q T in
  match state with
  | 1%nat => Some (therm_out (wl_w s) (wl_d s / un_fd))
  | 0%nat => Some (therm_out (wr_w s) (wr_d s / un_fd / un_fd))
  | _ => None
  end.
