(** What it means for reported reaction properties to be those of one Gibbs energy function. *)
From Coq Require Import Reals.
From Coquelicot Require Import Coquelicot.
From Verif Require Import ReacModel.
Open Scope R_scope.

(** [q T] are the properties reported at temperature T (fixed pressure) *)
Record consistent_T (q : R -> tpr) (T : R) : Prop := mkCons {
  c_G : dG (q T) = dH (q T) - T * dS (q T);
  c_S : is_derive (fun t : R => dG (q t)) T (- dS (q T));
  c_Cp : is_derive (fun t : R => dH (q t)) T (dCp (q T));
  c_CpT : is_derive (fun t : R => dS (q t)) T (dCp (q T) / T) }.
(** equilibrium constant: G = -R T lnK and van 't Hoff's equation; [L] is the number used for ln 10 *)
Definition equilibrium (L : R) (q : R -> tpr) (T : R) : Prop :=
  lnK (q T) = lgK (q T) * L /\ dG (q T) = - Rgas * T * lnK (q T) /\
  is_derive (fun t : R => lnK (q t)) T (dH (q T) / (Rgas * T ^ 2)).
(** energies *)
Definition energies (t : tpr) (T P : R) : Prop := dU t = dH t - P * dV t /\ dA t = dU t - T * dS t.

(** *** water: density, alpha, beta, dalpha/dT given as functions of T and P (Pa) that belong together *)
Record water_ok (w : R -> R -> water) (T P : R) : Prop := mkWok {
  w_pos : 0 < rho (w T P);
  w_T : is_derive (fun t : R => rho (w t P)) T (- alp (w T P) * rho (w T P));
  w_a : is_derive (fun t : R => alp (w t P)) T (dal (w T P));
  w_P : is_derive (fun p : R => rho (w T p)) P (bet (w T P) * rho (w T P)) }.
(** volume in J/bar is the derivative of G by the pressure in bar *)
Definition volume_ok (q : R -> tpr) (P : R) : Prop := is_derive (fun p : R => dG (q p)) P (dV (q P) / 100000).
