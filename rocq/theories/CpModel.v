(** Models of thermoPropertiesEmpCpIntegration (Substances/EmpiricalCpIntegration.cpp:11-262) and
    thermoPropertiesEntropyCpIntegration (Substances/StandardEntropyCpIntegration.cpp:8-37), over
    the values of the ThermoScalars.  [sqrt x] stands for pow(x,0.5) and std::sqrt, [ln] for log.
    Logging and status messages are left out.  Definitions only. *)
From Coq Require Import List Bool Reals.
Import ListNotations.
Open Scope R_scope.

(** value, exception, undefined behaviour (an index outside a vector) *)
Inductive cres (A : Type) : Type := COk (a : A) | CThrow | CUB.
Arguments COk {A}. Arguments CThrow {A}. Arguments CUB {A}.
Definition cbind {A B : Type} (x : cres A) (f : A -> cres B) : cres B :=
  match x with COk a => f a | CThrow => CThrow | CUB => CUB end.
(** operator[] on a vector *)
Definition idx {A : Type} (l : list A) (i : nat) : cres A := match nth_error l i with Some x => COk x | None => CUB end.

(** what the function reads of the substance *)
Record cpdat : Type := mkCp { ints : list (list R); coeffs : list (list R); trans : list (list R);
  cTr : R; cG : R; cH : R; cS : R }.
(** reported properties; A, U and Cv are left as they were *)
Record cprop : Type := mkP { pG : R; pH : R; pS : R; pCp : R; pV : R }.

Definition Rleb (x y : R) : bool := if Rle_dec x y then true else false.
Definition Rltb (x y : R) : bool := if Rlt_dec x y then true else false.

(** the interval search (45-59): an empty interval sets k = 0 and the search goes on *)
Fixpoint search (l : list (list R)) (i : nat) (k : option nat) (T : R) : cres (option nat) :=
  match l with
  | [] => COk k
  | [] :: l' => search l' (S i) (Some 0%nat) T
  | [lo] :: l' => if Rleb lo T then CUB else search l' (S i) k T
  | (lo :: hi :: _) :: l' => if (Rleb lo T && Rltb T hi)%bool then COk (Some i) else search l' (S i) k T
  end.
(** with the outside cases (61-66) *)
Definition select_k (l : list (list R)) (T : R) : cres (option nat) :=
  cbind (search l 0 None T) (fun k =>
  match k with
  | Some i => COk (Some i)
  | None =>
      cbind (idx l 0) (fun f => cbind (idx f 0) (fun lo => cbind (idx l (length l - 1)) (fun e => cbind (idx e 1) (fun hi =>
      let k1 := if Rleb T lo then Some 0%nat else None in
      COk (if Rltb hi T then Some (length l - 1)%nat else k1)))))
  end).

(** copying up to 16 coefficients over the previous ones (75-80, 136-141) *)
Definition overlay (c ac : list R) : list R := firstn 16 (c ++ skipn (length c) ac).
Definition zeros : list R := repeat 0 16.
Definition a_ (l : list R) (i : nat) : R := nth i l 0.

(** 82-91; 1/2 is an integer division, so that pow(TK, (1/2)) is pow(TK, 0) *)
Definition Cpf (c : list R) (T : R) : R :=
  a_ c 0 + a_ c 1 * T + a_ c 2 / (T * T) + a_ c 3 / sqrt T + a_ c 4 * (T * T) + a_ c 5 * (T * T * T) +
  a_ c 6 * (T * T * T * T) + a_ c 7 / (T * T * T) + a_ c 8 / T + a_ c 9 * T ^ 0.
(** 143-152 *)
Definition Sint (c : list R) (Tr T : R) : R :=
  a_ c 0 * ln (T / Tr) + a_ c 1 * (T - Tr) + a_ c 2 * (1 / Tr ^ 2 - 1 / (T * T)) / 2 + a_ c 3 * 2 * (1 / sqrt Tr - 1 / sqrt T) +
  a_ c 4 * (T * T - Tr ^ 2) / 2 + a_ c 5 * (T ^ 3 - Tr ^ 3) / 3 + a_ c 6 * (T ^ 4 - Tr ^ 4) / 4 + a_ c 7 * (1 / Tr ^ 3 - 1 / T ^ 3) / 3 +
  a_ c 8 * (1 / Tr - 1 / T) + a_ c 9 * 2 * (sqrt T - sqrt Tr).
(** 154-163 *)
Definition Gint (c : list R) (Tr T : R) : R :=
  a_ c 0 * (T * ln (T / Tr) - (T - Tr)) + a_ c 1 * (T - Tr) ^ 2 / 2 + a_ c 2 * (T - Tr) ^ 2 / T / Tr ^ 2 / 2 +
  a_ c 3 * 2 * (sqrt T - sqrt Tr) * (sqrt T - sqrt Tr) / sqrt Tr + a_ c 4 * (T ^ 3 + 2 * Tr ^ 3 - 3 * T * Tr ^ 2) / 6 +
  a_ c 5 * (T ^ 4 + 3 * Tr ^ 4 - 4 * T * Tr ^ 3) / 12 + a_ c 6 * (T ^ 4 * T + 4 * Tr ^ 4 * Tr - 5 * T * Tr ^ 4) / 20 +
  a_ c 7 * (Tr ^ 3 - 3 * T ^ 2 * Tr + 2 * T ^ 3) / 6 / T ^ 2 / Tr ^ 3 + a_ c 8 * (T / Tr - 1 - ln (T / Tr)) +
  a_ c 9 * 2 * (2 * T * sqrt T - 3 * T * sqrt Tr + Tr * sqrt Tr) / 3.
(** 165-174 *)
Definition Hint (c : list R) (Tr T : R) : R :=
  a_ c 0 * (T - Tr) + a_ c 1 * (T ^ 2 - Tr ^ 2) / 2 + a_ c 2 * (1 / Tr - 1 / T) + a_ c 3 * 2 * (sqrt T - sqrt Tr) +
  a_ c 4 * (T ^ 3 - Tr ^ 3) / 3 + a_ c 5 * (T ^ 4 - Tr ^ 4) / 4 + a_ c 6 * (T ^ 4 * T - Tr ^ 4 * Tr) / 5 +
  a_ c 7 * (1 / Tr ^ 2 - 1 / T ^ 2) / 2 + a_ c 8 * ln (T / Tr) + a_ c 9 * 2 * (T * sqrt T - Tr * sqrt Tr) / 3.

(** state of the loop: coefficients, transition counter, S, G, H, V *)
Record cst : Type := mkSt { ac : list R; ft : nat; sS : R; sG : R; sH : R; sV : R }.
(** phase transition (122-132) on S, H, V *)
Definition transition (t : list R) (st : cst) : cst :=
  mkSt (ac st) (S (ft st))
       (if Nat.ltb 1 (length t) then sS st + a_ t 1 else sS st) (sG st)
       (if Nat.ltb 2 (length t) then sH st + a_ t 2 else sH st)
       (if Nat.ltb 3 (length t) then sV st + a_ t 3 else sV st).
(** one pass of the loop (93-175): interval [j] of [0..k] *)
Definition cpstep (d : cpdat) (T : R) (k j : nat) (st : cst) : cres cst :=
  cbind (if Nat.eqb j k then COk T else cbind (idx (ints d) j) (fun r => idx r 1)) (fun TK =>
  cbind (match j with O => COk (cTr d) | S _ => cbind (idx (ints d) j) (fun r => idx r 0) end) (fun TrK =>
  cbind (match j with
         | O => COk st
         | S _ => match trans d with
                  | [] => CThrow
                  | _ => cbind (idx (trans d) (ft st)) (fun t => cbind (idx t 0) (fun Tt =>
                         COk (if Rleb Tt TrK then transition t st else st)))
                  end
         end) (fun st1 =>
  cbind (idx (coeffs d) j) (fun c =>
  let a := overlay c (ac st1) in
  let G := sG st1 - sS st1 * (TK - TrK) in
  COk (mkSt a (ft st1) (sS st1 + Sint a TrK TK) (G - Gint a TrK TK) (sH st1 + Hint a TrK TK) (sV st1)))))).
Definition cploop (d : cpdat) (T : R) (k : nat) (st : cst) : cres cst :=
  fold_left (fun r j => cbind r (cpstep d T k j)) (seq 0 (S k)) (COk st).
(** the whole function; k = -1 after the search indexes Cp_coeff[-1] *)
Definition empCp (d : cpdat) (T : R) : cres cprop :=
  match coeffs d with
  | [] => CThrow
  | _ =>
      cbind (select_k (ints d) T) (fun ko =>
      match ko with
      | None => CUB
      | Some k =>
          cbind (idx (coeffs d) k) (fun c =>
          let a := overlay c zeros in
          cbind (cploop d T k (mkSt a 0 (cS d) (cG d) (cH d) 0)) (fun st =>
          COk (mkP (sG st) (sH st) (sS st) (Cpf a T) (sV st))))
      end)
  end.

(** thermoPropertiesEntropyCpIntegration; [dS], [dCp] tell whether S and Cp are defined *)
Definition constCp (Tr G H S Cp : R) (dS dCp : bool) (T : R) : cprop :=
  let G1 := if dS then G - S * (T - Tr) else G in
  if dCp then mkP (G1 - Cp * (T * ln (T / Tr) - (T - Tr))) (H + Cp * (T - Tr)) (S + Cp * ln (T / Tr)) Cp 0
  else mkP G1 H S Cp 0.
