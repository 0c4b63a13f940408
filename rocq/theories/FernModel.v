(** Model of epsilonF, WaterElectroFernandez1997.cpp:9-42, over R.  Definitions only.  [None]: the result is not a finite number. *)
From Coq Require Import List Bool ZArith Reals.
Import ListNotations.
Open Scope R_scope.

(** 9-16: exponents of the density (all whole numbers), exponents of the temperature, coefficients; the last coefficient is n[11] *)
Definition fTerms : list (nat * R * R) :=
  [(1%nat, 0.25, 0.978224486826); (1%nat, 1, -0.957771379375); (1%nat, 2.5, 0.237511794148); (2%nat, 1.5, 0.714692244396); (3%nat, 1.5, -0.298217036956); (3%nat, 2.5, -0.108863472196);
   (4%nat, 2, 0.0949327488264); (5%nat, 2, -0.00980469816509); (6%nat, 5, 0.0000165167634970); (7%nat, 0.5, 0.0000937359795772); (10%nat, 10, -0.00000000012317921872)].
Definition f_n11 : R := 0.00196096504426.
Definition f_Tc : R := 647.096.
Definition f_rhoc : R := 322.
(** 22-27: the powers of ten are kept apart *)
Definition f_k : R := 1.380658 / 10 ^ 23.
Definition f_Na : R := 6.0221367 * 10 ^ 23.
Definition f_alfa : R := 1.636 / 10 ^ 40.
Definition f_eps0 : R := 8.854187817 / 10 ^ 12.
Definition f_mu : R := 6.138 / 10 ^ 30.
Definition f_M : R := 0.018015268.
(** 31-35: the base of the power 1.2 *)
Definition f_base (T : R) : R := f_Tc / 228 / (f_Tc / T) - 1.
Definition f_g (T rho : R) : R :=
  fold_left (fun g t => g + snd t * (rho / f_rhoc) ^ fst (fst t) * Rpower (f_Tc / T) (snd (fst t))) fTerms (1 + f_n11 * (rho / f_rhoc) / Rpower (f_base T) 1.2).
(** 37-39 *)
Definition f_A (T rho : R) : R := f_Na * f_mu ^ 2 * rho * f_g T rho / f_M / f_eps0 / f_k / T.
Definition f_B (rho : R) : R := f_Na * f_alfa * rho / 3 / f_M / f_eps0.
Definition f_eps (A B : R) : R := (1 + A + 5 * B + sqrt (9 + 2 * A + 18 * B + A ^ 2 + 10 * A * B + 9 * B ^ 2)) / 4 / (1 - B).
(** pow of a negative number is not a number, of zero makes the quotient infinite or 0/0; T = 0 and B = 1 divide by zero; a negative radicand is not a number *)
Definition epsilonF (T rho : R) : option R :=
  if Req_EM_T T 0 then None else if Rle_dec (f_base T) 0 then None else if Req_EM_T (f_B rho) 1 then None
  else if Rlt_dec (9 + 2 * f_A T rho + 18 * f_B rho + f_A T rho ^ 2 + 10 * f_A T rho * f_B rho + 9 * f_B rho ^ 2) 0 then None
  else Some (f_eps (f_A T rho) (f_B rho)).
