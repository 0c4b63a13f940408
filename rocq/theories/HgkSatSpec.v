(** What the statements about saturation speak of.  *)
From Coq Require Import Reals.
From Verif Require Import GemsModel GemsSpec HgkSat.
Open Scope R_scope.

(** [d], g/cm3, is a mechanically stable state of the equation whose pressure is [p], MPa, within one part in a million *)
Definition settled (T p d : R) : Prop := 0 < d <= 19 / 10 /\ 0 < dpdd (state_at T d) /\ Rabs (1 - press T d / p) < 1 / 10 ^ 6.
(** both densities are states at the pressure of the last round; the Gibbs energies differ by at most 1e-4 RT; the pressure returned has been
    moved once more, by that difference over the difference of the volumes *)
Definition main (T : R) (q : satur) : Prop :=
  settled T (q_at q) (q_dL q) /\ settled T (q_at q) (q_dV q) /\ q_dL q <> q_dV q /\
   Rabs (gd (state_at T (q_dL q)) - gd (state_at T (q_dV q))) <= 1 / 10 ^ 4 /\
   q_p q - q_at q = gascon * T * (gd (state_at T (q_dL q)) - gd (state_at T (q_dV q))) / (1 / q_dV q - 1 / q_dL q).
