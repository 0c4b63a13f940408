(** C108: the pressure a caller hands to a water model by reference, and the requests refused.  Theorems only.  *)
From Coq Require Import Bool List Reals Lra String.
From Verif Require Import GemsRun HgkSat HgkRoute SolventCalls SolventCallsPf.
Open Scope R_scope.

(** Haar-Gallagher-Kell: after an answer the variable holds the pressure asked, or the saturation pressure (both in Pa): always below 611.732 Pa,
    never above when the two pressures are 10^-9 Pa or more apart *)
Theorem C108_pressure : forall (A : Type) pf (body : triple -> bool -> R -> R -> bool -> nat -> A) T P state ref a P',
  hgk_call pf body T P state ref = (Done a, P') ->
  (P < 611732 / 1000 -> P' = PsHGK T * 1000000) /\
  (611732 / 1000 <= P -> (T <= 647067 / 1000 -> 1 / 10 ^ 9 <= Rabs (P - Rabs (PsHGK T * 1000000))) -> P' = P) /\
  (P' = P \/ P' = PsHGK T * 1000000).
Proof. exact @hgk_pressure. Qed.
Print Assumptions C108_pressure.

(** asking again with the variable the first answer left gives the same answer *)
Theorem C108_again : 
  (forall (A : Type) pf (body : triple -> bool -> R -> R -> bool -> nat -> A) T P state ref a P', T <= 647067 / 1000 \/ 611732 / 1000 <= P ->
     hgk_call pf body T P state ref = (Done a, P') -> hgk_call pf body T P' state ref = (Done a, P')) /\
  (forall (W A : Type) psat (state_of : R -> R -> nat -> option W) (out : R -> W -> triple -> A) T P state ref a P', 0 < psat T ->
     rea_call psat state_of out T P state ref = (Done a, P') -> rea_call psat state_of out T P' state ref = (Done a, P')).
Proof. exact (conj (@hgk_again) rea_again). Qed.
Print Assumptions C108_again.
(** water at its vapour pressure and 100 degrees *)
Example C108_case : forall pf, exists a, hgk_call pf (fun _ isat Tk Pb _ _ => (isat, Tk, Pb)) (37315 / 100) 0 0 "NEA_HGK" = (Done a, PsHGK (37315 / 100) * 1000000) /\
  fst (fst a) = true /\ snd (fst a) = 37315 / 100.
Proof. exact sat_case. Qed.

(** the dielectric properties belong to the very state of the solvent properties, whatever the pressure asked *)
Theorem C108_electro : forall (A B : Type) pf (body : triple -> bool -> R -> R -> bool -> nat -> A) (diel : triple -> bool -> R -> R -> bool -> nat -> B) T P state a P',
  T <= 647067 / 1000 \/ 611732 / 1000 <= P -> hgk_call pf body T P state "NEA_HGK" = (Done a, P') ->
  exists w isat Tk Pb near, a = body w isat Tk Pb near state /\ P' = Pb * 100000 /\ electro_hgk pf body diel T P state = (Done (a, diel w isat Tk Pb near state), P').
Proof. exact electro_same. Qed.
Print Assumptions C108_electro.

(** the models of Reaktoro leave the pressure asked, and the saturation pressure for 0 *)
Theorem C108_reaktoro : forall (W A : Type) psat (state_of : R -> R -> nat -> option W) (out : R -> W -> triple -> A) T P state ref o P',
  rea_call psat state_of out T P state ref = (o, P') -> (P <> 0 -> P' = P) /\ (P = 0 -> P' = psat T \/ o = Refused /\ P' = 0).
Proof. exact rea_pressure. Qed.
Print Assumptions C108_reaktoro.
Example C108_reaktoro_case : rea_call (fun _ => 3) (fun T P _ => Some (T, P)) (fun _ w _ => w) 300 0 0 "NEA_IAPWS" = (Done (300, 3), 3).
Proof. exact rea_case. Qed.

(** Refused: a request that throws leaves the pressure divided by 10^5, for it was turned into bar and not back.  A program that catches the exception
    and asks again, above 647.067 K and from 30001 bar, gets an answer for a pressure 10^5 times lower. *)
Theorem C108_refused_refuted : forall (A : Type) pf (body : triple -> bool -> R -> R -> bool -> nat -> A) T P state ref,
  (triple_at ref = None -> hgk_call pf body T P state ref = (Refused, P / 100000)) /\
  (forall q, hgk_call pf body T P state ref = (Refused, q) -> q = P / 100000 \/ q = PsHGK T * 1000000 / 100000) /\
  (triple_at ref <> None -> 647067 / 1000 < T <= 227315 / 100 -> 30001 * 100000 <= P <= 4693 * 10 ^ 10 ->
     hgk_call pf body T P state ref = (Refused, P / 100000) /\ exists a, hgk_call pf body T (P / 100000) state ref = (Done a, P / 100000)).
Proof. exact refused. Qed.
Print Assumptions C108_refused_refuted.
Example C108_refused_case : triple_at "SUPCRT92" = None /\ triple_at "NEA_HGK" <> None /\ 647067 / 1000 < 700 <= 227315 / 100 /\ 30001 * 100000 <= 4000000000 <= 4693 * 10 ^ 10.
Proof. exact refused_case. Qed.

(** Zhang and Duan: the states accepted, with the pressure left alone; the declared lower limit of 273.15 K is none of the conditions *)
Theorem C108_zhang_duan : forall (A : Type) (f : R -> R -> A) T P, snd (zd_call f T P) = P /\
  (0 <= T <= 227315 / 100 /\ 10 ^ 8 <= P <= 3 * 10 ^ 10 -> fst (zd_call f T P) = Done (f T (P / 100000))) /\
  (~ (0 <= T <= 227315 / 100 /\ 10 ^ 8 <= P <= 3 * 10 ^ 10) -> fst (zd_call f T P) = Refused).
Proof. exact zd_iff. Qed.
Print Assumptions C108_zhang_duan.
Theorem C108_frozen_refuted : forall (A : Type) (f : R -> R -> A) T, 0 <= T < 27315 / 100 -> fst (zd_call f T (10 ^ 9)) = Done (f T 10000).
Proof. exact frozen. Qed.
Print Assumptions C108_frozen_refuted.
Example C108_frozen_case : 0 <= 1 < 27315 / 100. Proof. lra. Qed.
