(** Property theorems C01-C05: arithmetic of ThermoScalar. *)
From Coq Require Import Reals String List Lra.
From Coquelicot Require Import Coquelicot.
From Verif Require Import ThermoScalarModel ThermoScalarSpec ThermoScalarProofs.
Open Scope R_scope.

(** C01: value and both derivatives of any formula. *)
Theorem C01_derivatives_exact : forall e t p, dom e t p ->
  val (teval e t p) = den e t p /\
  is_derive (fun s => den e s p) t (ddt (teval e t p)) /\
  is_derive (fun s => den e t s) p (ddp (teval e t p)).
Proof. exact (fun e t p H => conj (teval_val e t p H) (conj (teval_ddt e t p H) (teval_ddp e t p H))). Qed.
Print Assumptions C01_derivatives_exact.

(** the domain of  T^2.5*log(T)/P + sqrt(T) - (P-T)^3  contains every T,P > 0 *)
Example C01_example : forall t p, 0 < t -> 0 < p ->
  dom (XSub (XAdd (XDiv (XMul (XPowD XT (5/2)) (XLog XT)) XP) (XSqrt XT))
            (XPowD (XSub XP XT) 3)) t p.
Proof.
  intros t p Ht Hp. cbn. unfold pow_ok. repeat split; auto; try lra.
  destruct (Req_dec (p - t) 0).
  - right. right. split; auto. exists 3%nat. split; [discriminate|simpl; lra].
  - right. left. split; auto. exists 3%Z. reflexivity.
Qed.

(** C01 at the excluded point: pow(x, 1.) at x = 0 reports derivative 0. *)
Theorem C01_pow_one_at_zero_refuted :
  exists e t p d, is_derive (fun s => den e s p) t d /\ val (teval e t p) = den e t p /\
    ddt (teval e t p) <> d.
Proof. exact pow_one_refuted. Qed.
Print Assumptions C01_pow_one_at_zero_refuted.

(** C02: status of any formula with at least one operation. *)
Theorem C02_status_propagation : forall e t p, is_leaf e = false ->
  sta (teval e t p) =
    (if in_dec (fun a b : Status => ltac:(decide equality)) notdefined (leaf_status e)
     then notdefined else calculated, EmptyString).
Proof. exact teval_status. Qed.
Print Assumptions C02_status_propagation.

Example C02_example : is_leaf (XAdd XT (XMulD XP 2)) = false /\
  sta (teval (XAdd XT (XMulD XP 2)) 300 1) = (calculated, EmptyString).
Proof. split; [reflexivity|]. rewrite teval_status by reflexivity. destruct in_dec as [I|I]; auto.
  cbn in I. exfalso. intuition discriminate. Qed.

(** C03: errors of formulas are non-negative; the in-place += and -= also. *)
Theorem C03_error_nonneg : forall e t p, leaf_err_ok e -> 0 <= err (teval e t p).
Proof. exact teval_err_nonneg. Qed.
Print Assumptions C03_error_nonneg.
Theorem C03_in_place_error_negative_refuted :
  exists x o, 0 <= err x /\ 0 <= err o /\ err (ip_mul x o) < 0 /\ err (ip_div x o) < 0 /\
              err (ip_mul_d x 3) < 0.
Proof. exact ip_err_refuted. Qed.
Print Assumptions C03_in_place_error_negative_refuted.

Example C03_example : leaf_err_ok (XMul (XExt (fun _ _ => 1) (fun _ _ => 0) (fun _ _ => 0)
   (fun _ _ => 1/10) (read, EmptyString)) XT).
Proof. cbn. split; auto. intros; lra. Qed.

(** C04: errors against first-order propagation. *)
Theorem C04_error_propagation : forall l r c,
  err (ts_add l r) = prop2 1 (err l) 1 (err r) /\
  err (ts_sub l r) = prop2 1 (err l) (-1) (err r) /\
  (val l <> 0 -> val r <> 0 -> err (ts_mul l r) = prop2 (val r) (err l) (val l) (err r)) /\
  (val l <> 0 -> val r <> 0 ->
     err (ts_div l r) = prop2 (1 / val r) (err l) (- val l / (val r * val r)) (err r)) /\
  (val r <> 0 -> err (d_mul_ts c r) = prop1 c (err r)) /\
  err (d_add_ts c r) = prop1 1 (err r) /\
  err (ts_neg r) = prop1 (-1) (err r) /\
  err (ts_exp r) = prop1 (exp (val r)) (err r).
Proof.
  exact (fun l r c => conj (err_add l r) (conj (err_sub l r) (conj (err_mul l r) (conj (err_div l r)
    (conj (err_scale c r) (conj (err_shift c r) (conj (err_neg r) (err_exp r)))))))).
Qed.
Print Assumptions C04_error_propagation.
(** the other operations miss the formula except at isolated values *)
Theorem C04_sqrt_log_pow_rdiv_refuted :
  (forall r, 0 < val r -> err r <> 0 ->
     (err (ts_sqrt r) = prop1 (1 / (2 * sqrt (val r))) (err r) <-> val r = 1)) /\
  (forall r, 0 < val r -> err r <> 0 -> err (ts_log r) <> prop1 (1 / val r) (err r)) /\
  (forall r c, 0 < val r -> err r <> 0 -> c <> 0 ->
     (err (ts_pow_d r c) = prop1 (c * cpow (val r) c / val r) (err r) <-> cpow (val r) c = 1)) /\
  (forall l r, val r <> 0 -> err r <> 0 ->
     (err (d_div_ts l r) = prop1 (- l / (val r * val r)) (err r) <-> Rabs l = Rabs (val r))).
Proof. exact (conj err_sqrt_iff (conj err_log_never (conj err_pow_iff err_rdiv_iff))). Qed.
Print Assumptions C04_sqrt_log_pow_rdiv_refuted.
Theorem C04_product_with_zero_refuted :
  exists l r, 0 <= err l /\ 0 <= err r /\ err (ts_mul l r) <> prop2 (val r) (err l) (val l) (err r).
Proof. exact err_mul_zero_refuted. Qed.
Print Assumptions C04_product_with_zero_refuted.

Example C04_example : let x := mkTS 4 0 0 (1/10) (read, EmptyString) in
  0 < val x /\ err x <> 0 /\ val x <> 1.
Proof. cbn. lra. Qed.

(** C05: in-place operators against the binary ones, for all operands. *)
Theorem C05_in_place_agree : forall x o c,
  same_vd (ip_add x o) (ts_add x o) /\ same_vd (ip_sub x o) (ts_sub x o) /\
  same_vd (ip_mul x o) (ts_mul x o) /\ same_vd (ip_div x o) (ts_div x o) /\
  same_vd (ip_add_d x c) (ts_add_d x c) /\ same_vd (ip_sub_d x c) (ts_sub_d x c) /\
  same_vd (ip_mul_d x c) (ts_mul_d x c) /\ same_vd (ip_div_d x c) (ts_div_d x c).
Proof. exact in_place_agree. Qed.
Print Assumptions C05_in_place_agree.
Theorem C05_in_place_status : forall x o c,
  sta (ip_add x o) = sta (ts_add x o) /\ sta (ip_sub x o) = sta (ts_sub x o) /\
  sta (ip_mul x o) = sta (ts_mul x o) /\ sta (ip_div x o) = sta (ts_div x o) /\
  (fst (sta (ip_add_d x c)) = notdefined <-> fst (sta (ts_add_d x c)) = notdefined) /\
  (fst (sta (ip_sub_d x c)) = notdefined <-> fst (sta (ts_sub_d x c)) = notdefined) /\
  (fst (sta (ip_mul_d x c)) = notdefined <-> fst (sta (ts_mul_d x c)) = notdefined) /\
  (fst (sta (ip_div_d x c)) = notdefined <-> fst (sta (ts_div_d x c)) = notdefined).
Proof. exact in_place_status. Qed.
Print Assumptions C05_in_place_status.
Theorem C05_in_place_error : forall x o, val x <> 0 -> val o <> 0 ->
  err (ip_add x o) = err (ts_add x o) /\ err (ip_sub x o) = err (ts_sub x o) /\
  Rabs (err (ip_mul x o)) = err (ts_mul x o) /\ Rabs (err (ip_div x o)) = err (ts_div x o).
Proof. exact in_place_err. Qed.
Print Assumptions C05_in_place_error.
