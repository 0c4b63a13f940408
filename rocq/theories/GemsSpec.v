(** Regions and quantities the statements about water of Haar, Gallagher and Kell speak of.  *)
From Coq Require Import List Bool ZArith Reals.
From Coquelicot Require Import Coquelicot.
From Verif Require Import GemsModel.
Open Scope R_scope.

Notation diff2 := differentiable_pt_lim.
(** A state away from the switches of the last four terms: not within 1e-10 of their densities, not where their exponents are exactly EXPTOL; the packing fraction below 1 *)
Definition away (T D : R) (x : t4) : Prop :=
  1 / 10000000000 < Rabs (D / e_dz x - 1) /\ - e_ad x * (D / e_dz x - 1) ^ e_k x <> EXPTOL /\ - e_at x * (T / e_tz x - 1) * (T / e_tz x - 1) <> EXPTOL.
Definition regular (T D : R) : Prop := 0 < T /\ 0 < D /\ b1 (bb T) <> 0 /\ 25 / 100 * b1 (bb T) * D < 1 /\ forall x, In x terms4 -> away T D x.
(** [rho], g/cm3, is a continuous solution of p(T, rho) = P, P in MPa, around (T, P) *)
Definition solves (rho : R -> R -> R) (T P : R) : Prop := continuity_2d_pt rho T P /\ locally_2d (fun t p => press t (rho t p) = p) T P.
(** what the code reports along it *)
Definition wat (w : triple) (rho : R -> R -> R) (t p : R) : wprops := dim t p (rho t p) (state_at t (rho t p)) w.
Definition thermo (w : triple) (rho : R -> R -> R) (t p : R) : therm := therm_out (wat w rho t p) (rho t p).
Definition solvent (w : triple) (rho : R -> R -> R) (t p : R) : solv := solv_out (wat w rho t p) (rho t p).
Definition dielectric (w : triple) (rho : R -> R -> R) (t p : R) : elec := elec_out (wat w rho t p).
(** energies in J/g: the molar outputs divide by this *)
Definition molar : R := un_fh * cal_to_J.
(** the surplus of the Helmholtz energy, J/g: 28.16666667 stands in base (2638) where (g1 + g2 + 1) / 2 belongs *)
Definition surplus (t d : R) : R := (2816666667 / 100000000 - (g1 + g2 + 1) / 2) * gascon * t / (1 - 25 / 100 * b1 (bb t) * d) ^ 2.
(** no part of the second of the last four terms: the temperature cuts it off *)
Definition cut (T : R) : Prop := - 20000 * (T / 640 - 1) * (T / 640 - 1) < EXPTOL.
