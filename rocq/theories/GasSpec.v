(** The cubic equations of state and what a pure-fluid result must satisfy, independent of the model. *)
From Coq Require Import Reals.
Open Scope R_scope.

(** the gas constant in J/(mol K) *)
Definition Rgas : R := 8.31451.
(** pressure of a fluid of molar volume v: Redlich-Kwong and Peng-Robinson form *)
Definition eos_rk (a b T v : R) : R := Rgas * T / (v - b) - a / (v * (v + b)).
Definition eos_pr (a b T v : R) : R := Rgas * T / (v - b) - a / (v ^ 2 + 2 * b * v - b ^ 2).
(** residual Gibbs energy of a fluid of molar volume v: the integral of v - R T / P from zero pressure *)
Definition gres_rk (a b T P v : R) : R := P * v - Rgas * T - Rgas * T * ln (P * (v - b) / (Rgas * T)) - a / b * ln ((v + b) / v).
Definition gres_pr (a b T P v : R) : R :=
  P * v - Rgas * T - Rgas * T * ln (P * (v - b) / (Rgas * T)) - a / (2 * sqrt 2 * b) * ln ((v + (1 + sqrt 2) * b) / (v + (1 - sqrt 2) * b)).
(** residual enthalpy, with the slope of a *)
Definition hres_rk (a da b T P v : R) : R := P * v - Rgas * T - (a - T * da) / b * ln ((v + b) / v).
Definition hres_pr (a da b T P v : R) : R := P * v - Rgas * T - (a - T * da) / (2 * sqrt 2 * b) * ln ((v + (1 + sqrt 2) * b) / (v + (1 - sqrt 2) * b)).
(** attraction and co-volume of the three models *)
Definition alpha (k T Tc : R) : R := (1 + k * (1 - sqrt (T / Tc))) ^ 2.
Definition a_srk (Tc Pc w T : R) : R := 0.42747 * Rgas ^ 2 * Tc ^ 2 / Pc * alpha (0.48 + 1.574 * w - 0.176 * w ^ 2) T Tc.
Definition b_srk (Tc Pc : R) : R := 0.08664 * Rgas * Tc / Pc.
Definition k_pr (w : R) : R := if Rle_dec w 0.491 then 0.37464 + 1.54226 * w - 0.26992 * w ^ 2 else 0.379642 + 1.48503 * w - 0.164423 * w ^ 2 + 0.0166666 * w ^ 3.
Definition a_pr (Tc Pc w T : R) : R := 0.457235529 * Rgas ^ 2 * Tc ^ 2 / Pc * alpha (k_pr w) T Tc.
Definition b_pr (Tc Pc : R) : R := 0.0777960739 * Rgas * Tc / Pc.
Definition k_sv (w k1 k2 k3 Tr : R) : R :=
  0.378893 + 1.4897153 * w - 0.17131848 * w ^ 2 + 0.0196554 * w ^ 3 + (k1 + k2 * (k3 - Tr) * (1 - sqrt Tr)) * (1 + sqrt Tr) * (0.7 - Tr).
Definition a_sv (Tc Pc w k1 k2 k3 T : R) : R :=
  0.457235 * Rgas ^ 2 * Tc ^ 2 / Pc * alpha (if Rle_dec Tc T then k_sv w 0 0 0 (T / Tc) else k_sv w k1 k2 k3 (T / Tc)) T Tc.
Definition b_sv (Tc Pc : R) : R := 0.077796 * Rgas * Tc / Pc.
