(** The compensated Redlich-Kwong fluids in published form, independent of the model.  T in K, P in bar, volumes in J/bar. *)
From Coq Require Import Reals.
From Verif Require Import GasSpec.
Open Scope R_scope.

(** Redlich-Kwong attraction a / sqrt T; a is tabulated in kJ^2 kbar^-1 K^(1/2) mol^-2 *)
Definition att (a T : R) : R := 1000 * a / sqrt T.
(** its slope, from that of a *)
Definition datt (a da T : R) : R := 1000 * (da / sqrt T - a / (2 * (T * sqrt T))).
(** pressure of the Redlich-Kwong fluid of density r *)
Definition p_mrk (a b T r : R) : R := Rgas * T * r / (1 - b * r) - att a T * r ^ 2 / (1 + b * r).
(** co-volumes and attraction of CO2 and of H2O above its critical temperature (Holland and Powell 1991) *)
Definition b_co2 : R := 3.057.
Definition a_co2 (T : R) : R := 659.8 + 0.21078 * T - 6.3976e-4 * T ^ 2.
Definition b_h2o : R := 1.465.
Definition a_h2o_hot (T : R) : R := 1113.4 - 0.22291 * (T - 673) - 3.8022e-4 * (T - 673) ^ 2 + 1.7791e-7 * (T - 673) ^ 3.
Definition a_h2o_gas (T : R) : R := 1113.4 + 5.8487 * (673 - T) - 2.1370e-2 * (673 - T) ^ 2 + 6.8133e-5 * (673 - T) ^ 3.
Definition a_h2o_liq (T : R) : R := 1113.4 - 0.88517 * (673 - T) + 4.53e-3 * (673 - T) ^ 2 - 1.3183e-5 * (673 - T) ^ 3.
(** the pressure correction of the volume above P0, c sqrt (P-P0) + d (P-P0) + e (P-P0)^(1/4) in kbar *)
Definition vcorr (c d e P0 P : R) : R := if Rlt_dec P0 P then c * sqrt ((P - P0) / 1000) + d * ((P - P0) / 1000) + e * sqrt (sqrt ((P - P0) / 1000)) else 0.
(** the corresponding-states fluids: volume of a fluid with critical temperature Tc (K) and pressure Pc (kbar) at T and p (kbar) *)
Definition cs_a (Tc Pc T : R) : R := 5.45963e-5 * (Tc ^ 2 * sqrt Tc) / Pc - 8.6392e-6 * (Tc * sqrt Tc) / Pc * T.
Definition cs_b (Tc Pc : R) : R := 9.18301e-4 * Tc / Pc.
Definition cs_c (Tc Pc T : R) : R := (-3.30558e-5 * Tc + 2.30524e-6 * T) / (Pc * sqrt Pc).
Definition cs_d (Tc Pc T : R) : R := (6.93054e-7 * Tc - 8.38293e-8 * T) / Pc ^ 2.
Definition cs_volume (Tc Pc T p : R) : R :=
  let rt := Rgas / 1000 * T in let a := cs_a Tc Pc T in let b := cs_b Tc Pc in
  rt / p + b - a * (Rgas / 1000) * sqrt T / ((rt + b * p) * (rt + 2 * b * p)) + cs_c Tc Pc T * sqrt p + cs_d Tc Pc T * p.
