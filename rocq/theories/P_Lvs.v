(** Property theorems: water near the critical point (C88, C89). *)
From Coq Require Import List Reals Lra.
From Coquelicot Require Import Coquelicot.
From Verif Require Import RDeriv LvsModel LvsSpec LvsTab LvsWit LvsUse.
Open Scope R_scope.

(** Along every path of states: alpha, beta and dP/dD are the derivatives of the density and of the pressure. *)
Theorem C88_mechanical : forall c T D r th x T' D' r' th', lvs_constants c -> path c T D r th x T' D' r' th' -> regular c (D x) (r x) (th x) ->
  let w := thmLVS c (T x) (D x) (r x) (th x) in
  exists P', is_derive (fun y => Pof c (T y) (r y) (th y)) x P' /\ P' = h_alpha w / h_beta w * T' + dPdD c (T x) (D x) (r x) (th x) * D' /\ D' = - h_alpha w * D x * T' + h_beta w * D x * P'.
Proof. exact mechanical. Qed.
Print Assumptions C88_mechanical.
(** The energies and the entropy belong to one fundamental equation. *)
Theorem C88_energies : forall c T D r th x T' D' r' th' P', lvs_constants c -> path c T D r th x T' D' r' th' -> regular c (D x) (r x) (th x) -> is_derive (fun y => Pof c (T y) (r y) (th y)) x P' ->
  let w y := thmLVS c (T y) (D y) (r y) (th y) in let P := Pof c (T x) (r x) (th x) in
  is_derive (fun y => h_A (w y)) x (- h_S (w x) * T' + 1000 * P / D x ^ 2 * D') /\
  is_derive (fun y => h_G (w y)) x (- h_S (w x) * T' + 1000 / D x * P') /\
  is_derive (fun y => h_U (w y)) x (h_Cv (w x) * T' + (1000 * P - 1000 * T x * (h_alpha (w x) / h_beta (w x))) / D x ^ 2 * D') /\
  is_derive (fun y => h_H (w y)) x (h_Cp (w x) * T' + 1000 / D x * (1 - T x * h_alpha (w x)) * P') /\
  is_derive (fun y => h_S (w y)) x (h_Cv (w x) / T x * T' - 1000 * (h_alpha (w x) / h_beta (w x)) / D x ^ 2 * D').
Proof. exact energies. Qed.
Print Assumptions C88_energies.
Theorem C88_relations : forall c T D r th, lvs_constants c -> solves c T D r th -> regular c D r th ->
  let w := thmLVS c T D r th in
  h_Cp w = h_Cv w + 1000 * T * h_alpha w ^ 2 / (D * h_beta w) /\ h_A w = h_U w - T * h_S w /\ h_G w = h_H w - T * h_S w /\ h_H w = h_U w + 1000 * Pof c T r th / D /\ h_beta w * (D * dPdD c T D r th) = 1.
Proof. exact heats. Qed.
Print Assumptions C88_relations.
Theorem C88_sound : forall c T D r th, lvs_constants c -> solves c T D r th -> regular c D r th -> let w := thmLVS c T D r th in
  h_Cv w <> 0 -> 0 <= h_Cp w / h_Cv w * dPdD c T D r th -> h_speed w ^ 2 = 1000000 * (h_Cp w / h_Cv w * dPdD c T D r th).
Proof. exact sound. Qed.
Print Assumptions C88_sound.
(** Through every state there are paths with any slopes of r and theta, and one of constant pressure parametrised by the temperature. *)
Theorem C88_paths : forall c T0 D0 r0 th0 r' th' x, lvs_constants c -> solves c T0 D0 r0 th0 ->
  exists T D r th T' D', path c T D r th x T' D' r' th' /\ T x = T0 /\ D x = D0 /\ r x = r0 /\ th x = th0 /\
  T' = T0 ^ 2 / l_Tc c * (ar2 c r0 th0 * r' + a02 c r0 th0 * th') /\ D' = l_rc c * ((ar1 c r0 th0 * r' + a01 c r0 th0 * th') + l_p11 c * (ar2 c r0 th0 * r' + a02 c r0 th0 * th')).
Proof. exact path_exists. Qed.
Print Assumptions C88_paths.
Theorem C88_isobars : forall c T0 D0 r0 th0 x, lvs_constants c -> solves c T0 D0 r0 th0 -> regular c D0 r0 th0 ->
  exists T D r th D' r' th', path c T D r th x 1 D' r' th' /\ T x = T0 /\ D x = D0 /\ r x = r0 /\ th x = th0 /\ is_derive (fun y => Pof c (T y) (r y) (th y)) x 0.
Proof. exact isobar_exists. Qed.
Print Assumptions C88_isobars.
(** The constants of the program are those of one potential to one part in 10^14. *)
Theorem C88_table : lvs_constants co_exact /\ Forall2 (fun a b => Rabs (a - b) <= Rabs b / 10 ^ 14) (fields co_) (fields co_exact).
Proof. exact (conj exact_constants table_close). Qed.
Print Assumptions C88_table.
Theorem C88_determinant : forall t, Rabs t <= 1 -> 0 < gx co_exact t.
Proof. exact gx_pos. Qed.
Print Assumptions C88_determinant.
(** a state at 653.6 K near the critical density *)
Example C88_example : solves co_exact (T_of co_exact (1 / 100) 0) (D_of co_exact (1 / 100) 0) (1 / 100) 0 /\ regular co_exact (D_of co_exact (1 / 100) 0) (1 / 100) 0 /\ T_of co_exact (1 / 100) 0 = 647067 / 990.
Proof. exact (conj st (conj reg T1v)). Qed.

(** The temperature derivative of the expansion coefficient at constant pressure is what dalLVS returns less [excess]. *)
Theorem C89_dal_partial : forall c T D r th x T' D' r' th', lvs_constants c -> path c T D r th x T' D' r' th' -> regular c (D x) (r x) (th x) -> is_derive (fun y => Pof c (T y) (r y) (th y)) x 0 ->
  let a y := h_alpha (thmLVS c (T y) (D y) (r y) (th y)) in let P := Pof c (T x) (r x) (th x) in
  is_derive a x ((dalLVS c (D x) (T x) P (a x) (r x) (th x) - excess c (D x) (T x) P (a x) (r x) (th x)) * T').
Proof. exact dal. Qed.
Print Assumptions C89_dal_partial.
Theorem C89_dal_iff : forall c T D r th x D' r' th', lvs_constants c -> path c T D r th x 1 D' r' th' -> regular c (D x) (r x) (th x) -> is_derive (fun y => Pof c (T y) (r y) (th y)) x 0 ->
  let a y := h_alpha (thmLVS c (T y) (D y) (r y) (th y)) in let P := Pof c (T x) (r x) (th x) in
  is_derive a x (dalLVS c (D x) (T x) P (a x) (r x) (th x)) <-> excess c (D x) (T x) P (a x) (r x) (th x) = 0.
Proof. exact dal_iff. Qed.
Print Assumptions C89_dal_iff.
(** It is not 0 at 653.6 K near the critical density: the slope reported is too large. *)
Theorem C89_dal_refuted : exists c T D r th x D' r' th', lvs_constants c /\ path c T D r th x 1 D' r' th' /\ regular c (D x) (r x) (th x) /\ (650 < T x < 660 /\ 300 < D x < 323 /\ Rabs (th x) < 1) /\ is_derive (fun y => Pof c (T y) (r y) (th y)) x 0 /\
  exists s, is_derive (fun y => h_alpha (thmLVS c (T y) (D y) (r y) (th y))) x s /\ s < dalLVS c (D x) (T x) (Pof c (T x) (r x) (th x)) (h_alpha (thmLVS c (T x) (D x) (r x) (th x))) (r x) (th x).
Proof. exact dal_refuted. Qed.
Print Assumptions C89_dal_refuted.
