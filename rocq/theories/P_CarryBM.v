(** C107: the derivatives a Birch-Murnaghan solid carries.  Theorems only.  *)
From Coq Require Import Bool List Reals Lra.
From Coquelicot Require Import Coquelicot.
From Verif Require Import ThermoScalarModel MineralModel CarryModel CarryBM CarryBMPf.
Open Scope R_scope.

(** The Gibbs energy along an isotherm has the derivative v/10^6 (cm3, Pa), but the record carries v/10^6 - vt, vt being the volume at the reference
    pressure, once the Newton iteration has solved the equation: the double Pref is converted to a Pressure that counts as variable.  The sign is wrong and the size about 10^6 times too large. *)
Theorem C107_gibbs_pressure_refuted :
  (forall b vst Tst Pst T P t, P <> 100000 * Pst \/ T <> Tst -> ddp vst = 0 -> 0 < val vst ->
     let vt := bm_vt b Tst (val vst * 10) T in
     let k := bm_k b Tst T in let kp := g_kp b in let kpp := bm_kpp b Tst T in
     let x := vvTS b (1 / 10 * Pst) Tst (ts_mul_d vst 10) (Temperature T) (MPa P) in
     0 < val x ->
     ddp (tG (gottschalkTS b vst Tst Pst T P t)) - ddp (tG t) = val x / 1000000 - vt + (P / 1000000 - bm_p vt k kp kpp (val x)) * ddp x) /\
  (forall vt k kp kpp Pref (v : R -> R) P dv, 0 < vt -> 0 < v P -> (forall q, bm_p vt k kp kpp (v q) = q / 1000000) -> is_derive v P dv ->
     is_derive (fun q => bm_int (q / 1000000) Pref vt (v q) k kp kpp) P (v P / 1000000)) /\
  (exists b vst Tst T t, T <> Tst /\ ddp vst = 0 /\ ddp (tG (gottschalkTS b vst Tst 0 T 0 t)) - ddp (tG t) < 0 < val (vvTS b (1 / 10 * 0) Tst (ts_mul_d vst 10) (Temperature T) (MPa 0))).
Proof. exact gibbs_pressure. Qed.
Print Assumptions C107_gibbs_pressure_refuted.

(** At no pressure, with the reference pressure 0, the volume is that of the thermal expansion.  The record carries the slope for the expansivity at T less
    that at the reference temperature, because the reference temperature is converted to a Temperature that counts as variable. *)
Theorem C107_expansion_refuted :
  (forall b vst Tst T t, T <> Tst -> T <> 0 -> ddt vst = 0 -> 0 < val vst ->
     let r := gottschalkTS b vst Tst 0 T 0 t in
     let volume u := bm_vt b Tst (val vst * 10) u in
     let expansivity u := g_1 b + g_2 b * u + g_3 b * (1 / u * (1 / u)) in
     (forall u, bm_p (volume u) (bm_k b Tst u) (g_kp b) (bm_kpp b Tst u) (volume u) = 0) /\
     val (tV r) - val (tV t) = val vst + volume T / 10 /\
     is_derive volume T (volume T * expansivity T) /\
     ddt (tV r) - ddt (tV t) = volume T * (expansivity T - expansivity Tst) / 10) /\
  (exists b vst Tst T t, T <> Tst /\ T <> 0 /\ ddt vst = 0 /\ 0 < val vst /\
     ddt (tV (gottschalkTS b vst Tst 0 T 0 t)) - ddt (tV t) <> Derive (fun u => val vst + bm_vt b Tst (val vst * 10) u / 10) T).
Proof. exact expansion. Qed.
Print Assumptions C107_expansion_refuted.

(** The volume is that of the Newton iteration of C41 as long as its iterates are positive.  A step taken at the solution leaves the volume and halves the
    difference of the carried pressure derivative from the true one, 1 over the slope of the equation. *)
Theorem C107_volume :
  (forall n P vt k kp kpp d v, 0 < val vt ->
     (forall m, (m <= n)%nat -> 0 < Nat.iter m (fun u => u - (bm_p (val vt) (val k) (val kp) (val kpp) u - val P) / bm_dp (val vt) (val k) (val kp) (val kpp) u / 2) (val v)) ->
     val (newtonTS n P vt k kp kpp d v) = bm_newton n (val P) (val vt) (val k) (val kp) (val kpp) d (val v)) /\
  (forall P vt k kp kpp v, ddp vt = 0 -> ddp k = 0 -> ddp kp = 0 -> ddp kpp = 0 -> 0 < val vt -> 0 < val v ->
     bm_p (val vt) (val k) (val kp) (val kpp) (val v) = val P -> bm_dp (val vt) (val k) (val kp) (val kpp) (val v) <> 0 ->
     let true_slope := ddp P / bm_dp (val vt) (val k) (val kp) (val kpp) (val v) in
     val (stepTS P vt k kp kpp v) = val v /\ ddp (stepTS P vt k kp kpp v) - true_slope = (ddp v - true_slope) / 2).
Proof. exact bm_volume_ok. Qed.
Print Assumptions C107_volume.
Example C107_volume_case : let c := ts_assign in bm_p 10 160000 4 0 10 = val (c 0) /\ bm_dp 10 160000 4 0 10 <> 0 /\
  forall m, (m <= 3)%nat -> 0 < Nat.iter m (fun u => u - (bm_p 10 160000 4 0 u - 0) / bm_dp 10 160000 4 0 u / 2) 10.
Proof. exact volume_case. Qed.

(** H stays G + T S, and U = H - P V and A = U - T S hold afterwards, in the values and in the derivatives carried (P in bar within U) *)
Theorem C107_identities : forall b vst Tst Pst T P t, P <> 100000 * Pst \/ T <> Tst -> let r := gottschalkTS b vst Tst Pst T P t in
  (val (tH r) - val (tG r) - T * val (tS r) = val (tH t) - val (tG t) - T * val (tS t) /\
   ddt (tH r) - ddt (tG r) - (val (tS r) + T * ddt (tS r)) = ddt (tH t) - ddt (tG t) - (val (tS t) + T * ddt (tS t)) /\
   ddp (tH r) - ddp (tG r) - T * ddp (tS r) = ddp (tH t) - ddp (tG t) - T * ddp (tS t)) /\
  (val (tU r) = val (tH r) - P / 100000 * val (tV r) /\ ddt (tU r) = ddt (tH r) - P / 100000 * ddt (tV r) /\ ddp (tU r) = ddp (tH r) - (val (tV r) / 100000 + P / 100000 * ddp (tV r))) /\
  (val (tA r) = val (tU r) - T * val (tS r) /\ ddt (tA r) = ddt (tU r) - (val (tS r) + T * ddt (tS r)) /\ ddp (tA r) = ddp (tU r) - T * ddp (tS r)).
Proof. exact rec_identities. Qed.
Print Assumptions C107_identities.

(** With a constant expansivity (a2 = a3 = 0) G, S and V carry no temperature derivative from the model at all, at any temperature and pressure and
    whatever the slope of the bulk modulus. *)
Theorem C107_flat_refuted : forall b vst Tst Pst T P t, P <> 100000 * Pst \/ T <> Tst -> g_2 b = 0 -> g_3 b = 0 -> ddt vst = 0 ->
  let r := gottschalkTS b vst Tst Pst T P t in
  ddt (tG r) = ddt (tG t) /\ ddt (tS r) = ddt (tS t) /\ ddt (tV r) = ddt (tV t).
Proof. exact rec_flat. Qed.
Print Assumptions C107_flat_refuted.

(** periclase-like coefficients, 100 K above the reference temperature *)
Example C107_case :
  let b := mkBM (3 / 100000) 0 0 160000 (-30) 4 0 in let vst := ts_assign (9 / 8) in let z := ts_assign 0 in let t := mkTP z z z z z z z in
  ddt (tV (gottschalkTS b vst 300 0 400 0 t)) = 0 /\ ddt (tV (gottschalkTS b vst 300 0 400 500000000 t)) = 0 /\
  is_derive (bm_vt b 300 (val vst * 10)) 400 (bm_vt b 300 (val vst * 10) 400 * (3 / 100000)) /\
  ddp (tG (gottschalkTS b vst 300 0 400 0 t)) < -11.
Proof. exact bm_case. Qed.
