(** C79: the dielectric constant of Fernandez et al. (1997). *)
From Coq Require Import List Bool ZArith Reals Lra.
From Coquelicot Require Import Coquelicot.
From Verif Require Import FernModel FernPf FernCrit.
Open Scope R_scope.

(** Above 228 K and below the density where the polarisability term reaches 1 there is a value, and it is the only positive solution of the equation of Harris and Alder
    (e - 1)(2e + 1) = B (e + 2)(2e + 1) + A e. *)
Theorem C79_equation : forall T rho, 228 < T -> 0 <= rho < 3 * f_M * f_eps0 / (f_Na * f_alfa) -> exists e, epsilonF T rho = Some e /\ 0 < e /\
  forall y, 0 < y -> ((y - 1) * (2 * y + 1) = f_Na * f_alfa * rho / 3 / f_M / f_eps0 * (y + 2) * (2 * y + 1) + f_Na * f_mu ^ 2 * rho * f_g T rho / f_M / f_eps0 / f_k / T * y <-> y = e).
Proof. exact fern_equation. Qed.
Print Assumptions C79_equation.
(** Some 4857 kg/m3. *)
Theorem C79_limit : 4857 < 3 * f_M * f_eps0 / (f_Na * f_alfa) < 4858.
Proof. exact f_limit_bounds. Qed.
Print Assumptions C79_limit.
(** It is above 1 where the correlation factor is not negative (and the density not zero), it is 1 at zero density, and there its slope is that of a gas of polarisable dipoles. *)
Theorem C79_above_one : forall T rho e, 228 < T -> 0 < rho < 3 * f_M * f_eps0 / (f_Na * f_alfa) -> 0 <= f_g T rho -> epsilonF T rho = Some e -> 1 < e.
Proof. exact fern_above. Qed.
Print Assumptions C79_above_one.
Example C79_above_one_example : 228 < f_Tc /\ 0 < f_rhoc < 4857 /\ 0 <= f_g f_Tc f_rhoc. Proof. destruct g_crit as [A B]. unfold f_Tc, f_rhoc in *. repeat split; try lra. Qed.
Theorem C79_low_density : forall T, 228 < T -> epsilonF T 0 = Some 1 /\
  is_derive (fun rho : R => match epsilonF T rho with Some e => e | None => 0 end) 0 (f_Na / (f_M * f_eps0) * (f_alfa + f_mu ^ 2 / (3 * f_k * T))).
Proof. exact fern_low. Qed.
Print Assumptions C79_low_density.
(** At the critical point of water it is between 5.35 and 5.37. *)
Theorem C79_critical : exists e, epsilonF 647.096 322 = Some e /\ 5.35 < e < 5.37.
Proof. exact eps_crit. Qed.
Print Assumptions C79_critical.
(** At and below 228 K there is no number: the formula takes a power of a number that is not positive. *)
Theorem C79_cold_refuted : forall T rho, T <= 228 -> epsilonF T rho = None.
Proof. exact epsilonF_cold. Qed.
Print Assumptions C79_cold_refuted.
