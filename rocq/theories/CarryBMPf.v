(** Proofs about the derivatives Birch-Murnaghan solids carry.  *)
From Coq Require Import Bool List Reals Lra Lia String.
From Coquelicot Require Import Coquelicot.
From Verif Require Import ThermoScalarModel ThermoScalarSpec ThermoScalarProofs MineralModel MineralSpec MineralProofs MineralMore CarryModel CarrySpec CarryPf CarrySolPf CarryBM.
Open Scope R_scope.

(** *** the volume integral carries its derivatives when its arguments do *)
Lemma int_carries : forall P Pref vt v k kp kpp fP fR fv0 fv fk fkp fkpp T p, carries P fP T p -> carries Pref fR T p -> carries vt fv0 T p -> carries v fv T p -> carries k fk T p ->
  carries kp fkp T p -> carries kpp fkpp T p -> 0 < fv0 T p -> 0 < fv T p ->
  carries (intTS P Pref vt v k kp kpp) (fun t q => bm_int (fP t q) (fR t q) (fv0 t q) (fv t q) (fk t q) (fkp t q) (fkpp t q)) T p.
Proof.
  intros P Pref vt v k kp kpp fP fR fv0 fv fk fkp fkpp T p HP HR H0 Hv Hk Hkp Hkpp P0 Pv.
  assert (Q : 0 < fv0 T p / fv T p) by (apply Rdiv_lt_0_compat; assumption).
  assert (Hq : carries (ts_div vt v) (fun t q => fv0 t q / fv t q) T p) by (apply c_div; [assumption|assumption|lra]).
  assert (Hx : carries (ts_pow_d (ts_div vt v) (2 / 3)) (fun t q => Rpower (fv0 t q / fv t q) (2 / 3)) T p) by (apply c_pow; assumption).
  assert (Hy : carries (ts_pow_d (ts_div vt v) (1 / 3)) (fun t q => Rpower (fv0 t q / fv t q) (1 / 3)) T p) by (apply c_pow; assumption).
  unfold intTS, pintTS. cbv zeta. set (x := ts_pow_d (ts_div vt v) (2 / 3)) in *. set (y := ts_pow_d (ts_div vt v) (1 / 3)) in *. clearbody x y.
  unfold intA, intB, intC.
  eapply c_ext; [|apply c_sub; [apply c_add; [apply c_mul; [apply c_neg; exact HR|exact H0]|apply c_mul; [exact HP|exact Hv]]|apply c_div;
    [repeat (eassumption || apply c_add || apply c_sub || apply c_mul || apply c_dmul || apply c_dadd || apply c_dsub)|apply c_mul; [apply c_dmul; exact Hv|exact Hv]|]]].
  - intros t q. cbv beta. unfold bm_int, bm_pint. cbv zeta. unfold Rdiv at 1 2. unfold Rdiv. ring.
  - cbv beta. assert (0 < fv T p * fv T p) by (apply Rmult_lt_0_compat; assumption). lra.
Qed.
(** a ThermoScalar carries a linear function *)
Definition lin (x : TS) (T P t p : R) : R := val x + ddt x * (t - T) + ddp x * (p - P).
Lemma c_lin : forall x T P, carries x (lin x T P) T P.
Proof. intros x T P. unfold lin. split; [ring|]. split; (auto_derive; [exact I|ring]). Qed.
Lemma c_uniqueP : forall x f T P d, carries x f T P -> is_derive (fun p : R => f T p) P d -> ddp x = d.
Proof. intros x f T P d (_ & _ & H) K. transitivity (Derive (fun p => f T p) P); [symmetry; now apply is_derive_unique|now apply is_derive_unique]. Qed.

(** the pressure derivative of the integral, for arguments that do not depend on pressure but for the volume *)
Lemma int_ddp : forall P Pref vt v k kp kpp, ddp vt = 0 -> ddp k = 0 -> ddp kp = 0 -> ddp kpp = 0 -> 0 < val vt -> 0 < val v ->
  ddp (intTS P Pref vt v k kp kpp) = ddp P * val v - ddp Pref * val vt + (val P - bm_p (val vt) (val k) (val kp) (val kpp) (val v)) * ddp v.
Proof.
  intros P Pref vt v k kp kpp E1 E2 E3 E4 P0 Pv.
  assert (L : forall x, lin x 0 0 0 0 = val x) by (intro x; unfold lin; ring).
  pose proof (int_carries P Pref vt v k kp kpp _ _ _ _ _ _ _ 0 0 (c_lin P 0 0) (c_lin Pref 0 0) (c_lin vt 0 0) (c_lin v 0 0) (c_lin k 0 0) (c_lin kp 0 0) (c_lin kpp 0 0)) as C.
  rewrite !L in C. specialize (C P0 Pv). apply (c_uniqueP _ _ _ _ _ C). clear C.
  assert (K : forall x, ddp x = 0 -> forall q, lin x 0 0 0 q = val x) by (intros x E q; unfold lin; rewrite E; ring).
  apply (is_derive_ext (fun q => - (val Pref + ddp Pref * q) * val vt + (val P + ddp P * q) * (val v + ddp v * q) - bm_pint (val vt) (val k) (val kp) (val kpp) (val v + ddp v * q))).
  { intro q. unfold bm_int. rewrite (K vt E1), (K k E2), (K kp E3), (K kpp E4). unfold lin. replace (val v + ddt v * (0 - 0) + ddp v * (q - 0)) with (val v + ddp v * q) by ring. match goal with |- ?a = ?b => change (@eq R a b) end. ring. }
  assert (D : is_derive (fun q => bm_pint (val vt) (val k) (val kp) (val kpp) (val v + ddp v * q)) 0 (ddp v * bm_p (val vt) (val k) (val kp) (val kpp) (val v))).
  { apply (is_derive_comp (bm_pint (val vt) (val k) (val kp) (val kpp)) (fun q => val v + ddp v * q)).
    - replace (val v + ddp v * 0) with (val v) by ring. now apply bm_pint_d.
    - auto_derive; [exact I|ring]. }
  evar_last.
  - apply (is_derive_minus (fun q => - (val Pref + ddp Pref * q) * val vt + (val P + ddp P * q) * (val v + ddp v * q))); [|exact D].
    auto_derive; [exact I|reflexivity].
  - unfold minus, plus, opp. cbn. ring.
Qed.

(** *** what the arguments carry *)
Section Args.
Variables (b : bmpar) (Pref Tref : R) (v0 : TS).
Lemma k_ddp : forall T, ddp T = 0 -> ddp (kTS b Tref T) = 0.
Proof. intros T H. unfold kTS, TrefTS. cbn. rewrite H. ring. Qed.
Lemma k_ddt : forall T, ddt T = 1 -> ddt (kTS b Tref T) = 0.
Proof. intros T H. unfold kTS, TrefTS. cbn. rewrite H. ring. Qed.
Lemma k_val : forall T, val (kTS b Tref T) = bm_k b Tref (val T).
Proof. intros T. unfold kTS, bm_k. cbn. ring. Qed.
Lemma auto_ddp : forall T, ddp T = 0 -> ddp (autoTS b Tref T) = 0.
Proof. intros T H. unfold autoTS. cbn -[kTS kpTS]. rewrite (k_ddp T H). unfold kpTS. cbn. ring. Qed.
Lemma kpp_ddp : forall T, ddp T = 0 -> ddp (kppTS b Tref T) = 0.
Proof. intros T H. unfold kppTS. destruct (bm_given b); [reflexivity|now apply auto_ddp]. Qed.
Lemma kpp_val : forall T, val (kppTS b Tref T) = bm_kpp b Tref (val T).
Proof. intros T. unfold kppTS, bm_kpp. destruct (bm_given b); [reflexivity|]. unfold autoTS, bm_auto. cbn -[kTS]. rewrite k_val. unfold Rdiv. ring. Qed.
Lemma dmul_ddp : forall c x, ddp (d_mul_ts c x) = c * ddp x. Proof. intros c x. unfold d_mul_ts. destruct (is0 (val x)); reflexivity. Qed.
Lemma dmul_ddt : forall c x, ddt (d_mul_ts c x) = c * ddt x. Proof. intros c x. unfold d_mul_ts. destruct (is0 (val x)); reflexivity. Qed.
Lemma dmul_val : forall c x, val (d_mul_ts c x) = c * val x. Proof. intros c x. unfold d_mul_ts. destruct (is0 (val x)); reflexivity. Qed.
Lemma ddiv_ddp : forall c x, ddp (d_div_ts c x) = - c * (1 / val x) * (1 / val x) * ddp x. Proof. intros c x. unfold d_div_ts. destruct (is0 (val x)); reflexivity. Qed.
Lemma ddiv_ddt : forall c x, ddt (d_div_ts c x) = - c * (1 / val x) * (1 / val x) * ddt x. Proof. intros c x. unfold d_div_ts. destruct (is0 (val x)); reflexivity. Qed.
Lemma ddiv_val : forall c x, val (d_div_ts c x) = 1 / val x * c. Proof. intros c x. unfold d_div_ts. destruct (is0 (val x)); reflexivity. Qed.
Lemma vt_ddp : forall T, ddp T = 0 -> ddp v0 = 0 -> ddp (vtTS b Tref v0 T) = 0.
Proof. intros T H H0. unfold vtTS, TrefTS, ts_div_d. cbn -[d_mul_ts d_div_ts]. rewrite dmul_ddp, !ddiv_ddp, H, H0. cbn -[d_mul_ts d_div_ts]. ring. Qed.
Lemma vt_val : forall T, val (vtTS b Tref v0 T) = bm_vt b Tref (val v0) (val T).
Proof. intros T. unfold vtTS, TrefTS, bm_vt, ts_div_d. cbn -[d_mul_ts d_div_ts]. rewrite dmul_val, !ddiv_val. cbn. f_equal. f_equal. unfold Rdiv. ring. Qed.
(** the carried slope of the volume at the reference pressure: that of the expansion at T less that at the reference temperature *)
Lemma vt_ddt : forall T, ddt v0 = 0 -> ddt (vtTS b Tref v0 (Temperature T)) =
  bm_vt b Tref (val v0) T * ((g_1 b + g_2 b * T + g_3 b * (1 / T * (1 / T))) - (g_1 b + g_2 b * Tref + g_3 b * (1 / Tref * (1 / Tref)))).
Proof.
  intros T H0. replace (bm_vt b Tref (val v0) T) with (val (vtTS b Tref v0 (Temperature T))) by exact (vt_val (Temperature T)). unfold vtTS, TrefTS, ts_div_d. cbn -[d_mul_ts d_div_ts]. rewrite H0, dmul_ddt, dmul_val, !ddiv_ddt, !ddiv_val. cbn -[Rdiv].
  match goal with |- context [exp ?e] => generalize (exp e) end. intro z. unfold Rdiv. generalize (/ T) (/ Tref). intros x y. field.
Qed.
Lemma vt_true : forall v T, T <> 0 -> is_derive (bm_vt b Tref v) T (bm_vt b Tref v T * (g_1 b + g_2 b * T + g_3 b * (1 / T * (1 / T)))).
Proof. intros v T H. unfold bm_vt. auto_derive; [exact H|]. unfold Rminus, Rdiv. match goal with |- context [exp ?e] => generalize (exp e) end. intro z. field. exact H. Qed.
End Args.

(** *** no temperature derivative *)
Definition flat (x : TS) : Prop := ddt x = 0.
Lemma f_add : forall x y, flat x -> flat y -> flat (ts_add x y). Proof. unfold flat. intros x y A B. cbn. lra. Qed.
Lemma f_sub : forall x y, flat x -> flat y -> flat (ts_sub x y). Proof. unfold flat. intros x y A B. cbn. lra. Qed.
Lemma f_neg : forall x, flat x -> flat (ts_neg x). Proof. unfold flat. intros x A. cbn. lra. Qed.
Lemma f_mul : forall x y, flat x -> flat y -> flat (ts_mul x y). Proof. unfold flat. intros x y A B. cbn. rewrite A, B. ring. Qed.
Lemma f_div : forall x y, flat x -> flat y -> flat (ts_div x y). Proof. unfold flat. intros x y A B. cbn. rewrite A, B. ring. Qed.
Lemma f_dadd : forall c x, flat x -> flat (d_add_ts c x). Proof. unfold flat. intros c x A. exact A. Qed.
Lemma f_subd : forall c x, flat x -> flat (ts_sub_d x c). Proof. unfold flat. intros c x A. exact A. Qed.
Lemma f_dsub : forall c x, flat x -> flat (d_sub_ts c x). Proof. unfold flat. intros c x A. cbn. lra. Qed.
Lemma f_dmul : forall c x, flat x -> flat (d_mul_ts c x). Proof. unfold flat. intros c x A. rewrite dmul_ddt, A. ring. Qed.
Lemma f_divd : forall c x, flat x -> flat (ts_div_d x c). Proof. intros c x A. now apply f_dmul. Qed.
Lemma f_ddiv : forall c x, flat x -> flat (d_div_ts c x). Proof. unfold flat. intros c x A. rewrite ddiv_ddt, A. ring. Qed.
Lemma f_pow : forall c x, flat x -> flat (ts_pow_d x c). Proof. unfold flat, ts_pow_d. intros c x A. cbv zeta. destruct (is0 (val x)); cbn; [reflexivity|]. rewrite A. ring. Qed.
Lemma f_exp : forall x, flat x -> flat (ts_exp x). Proof. unfold flat. intros x A. cbn. rewrite A. ring. Qed.
Lemma f_const : forall c, flat (ts_assign c). Proof. reflexivity. Qed.
Lemma f_press : forall c, flat (Pressure c). Proof. reflexivity. Qed.
Ltac fl := repeat (assumption || apply f_const || apply f_press || apply f_add || apply f_sub || apply f_neg || apply f_mul || apply f_div || apply f_dadd || apply f_subd || apply f_dsub || apply f_divd || apply f_dmul || apply f_pow || apply f_exp).
Lemma f_int : forall P Pr vt v k kp kpp, flat P -> flat Pr -> flat vt -> flat v -> flat k -> flat kp -> flat kpp -> flat (intTS P Pr vt v k kp kpp).
Proof. intros. unfold intTS, pintTS, intA, intB, intC. cbv zeta. fl. Qed.
Lemma f_newton : forall n P vt k kp kpp d v, flat P -> flat vt -> flat k -> flat kp -> flat kpp -> flat v -> flat (newtonTS n P vt k kp kpp d v).
Proof.
  induction n as [|n IH]; intros P vt k kp kpp d v A B C D E G; cbn [newtonTS]; destruct (gtb (Rabs d) (/ 10 ^ 10)); try exact G.
  cbv zeta. apply IH; try assumption. unfold stepTS, veqTS, dveqTS, intA. cbv zeta. fl.
Qed.
Section Flat.
Variables (b : bmpar) (Pref Tref : R) (v0 T P : TS).
Hypotheses (E2 : g_2 b = 0) (E3 : g_3 b = 0) (ET : ddt T = 1) (FP : flat P) (F0 : flat v0).
Lemma f_k : forall T', ddt T' = 1 -> flat (kTS b Tref T'). Proof. intros T' H. now apply k_ddt. Qed.
Lemma f_auto : forall T', ddt T' = 1 -> flat (autoTS b Tref T').
Proof. intros T' H. pose proof (f_k T' H) as K. unfold autoTS, kpTS. fl. Qed.
Lemma f_kpp : forall T', ddt T' = 1 -> flat (kppTS b Tref T').
Proof. intros T' H. unfold kppTS. destruct (bm_given b); [apply f_const|now apply f_auto]. Qed.
Lemma f_kppi : forall T', ddt T' = 1 -> flat (kpp_incTS b Tref T').
Proof. intros T' H. unfold kpp_incTS. destruct (bm_given b); [apply f_const|now apply f_auto]. Qed.
Lemma f_vt : forall T', ddt T' = 1 -> flat (vtTS b Tref v0 T').
Proof.
  intros T' H. unfold vtTS. apply f_mul; [exact F0|]. apply f_exp. rewrite E2, E3. unfold flat, TrefTS, ts_div_d. cbn -[d_mul_ts d_div_ts].
  rewrite dmul_ddt, dmul_val, H. cbn -[d_mul_ts d_div_ts]. ring.
Qed.
Lemma f_start : flat (startTS b Pref Tref v0 T P).
Proof. pose proof (f_vt T ET). pose proof (f_k T ET). unfold startTS. fl. apply f_ddiv. assumption. Qed.
Lemma f_vv : flat (vvTS b Pref Tref v0 T P).
Proof. unfold vvTS, volumeTS. apply f_newton; auto using f_vt, f_k, f_kpp, f_start. apply f_const. Qed.
Lemma f_vinc : forall T', ddt T' = 1 -> flat (vincTS b Pref Tref v0 T P T').
Proof. intros T' H. unfold vincTS, volumeTS. apply f_newton; auto using f_vt, f_k, f_kppi, f_vv. apply f_const. Qed.
Lemma f_g : flat (gTS b Pref Tref v0 T P).
Proof. unfold gTS. apply f_int; auto using f_vt, f_k, f_kpp, f_vv, f_press. apply f_const. Qed.
Lemma f_ginc : forall T', ddt T' = 1 -> flat (gincTS b Pref Tref v0 T P T').
Proof. intros T' H. unfold gincTS. apply f_int; auto using f_vt, f_k, f_kppi, f_vinc, f_press. apply f_const. Qed.
Lemma f_s : flat (sTS b Pref Tref v0 T P).
Proof.
  unfold sTS. apply f_div; [|unfold TincTS; fl]. apply f_sub; apply f_ginc; cbn; rewrite ET; ring.
Qed.
End Flat.

(** *** the returned record *)
Section Rec.
Variables (b : bmpar) (vst : TS) (Tst Pst T P : R) (t : tprop).
Hypothesis Hon : P <> 100000 * Pst \/ T <> Tst.
Let Pr := 1 / 10 * Pst.
Let v0 := ts_mul_d vst 10.
Lemma mpa_val : val (MPa P) = P / 1000000. Proof. unfold MPa. cbn. field. Qed.
Lemma mpa_ddp : ddp (MPa P) = / 1000000. Proof. unfold MPa. cbn. field. Qed.
Lemma mpa_flat : flat (MPa P). Proof. unfold MPa, flat. cbn. ring. Qed.
Lemma rec_on : gottschalkTS b vst Tst Pst T P t =
  withUA (ip_add (tG t) (gTS b Pr Tst v0 (Temperature T) (MPa P))) (ip_add (tH t) (hTS b Pr Tst v0 (Temperature T) (MPa P))) (ip_add (tS t) (sTS b Pr Tst v0 (Temperature T) (MPa P)))
    (ip_add (tV t) (ts_add vst (ts_div_d (vvTS b Pr Tst v0 (Temperature T) (MPa P)) 10))) (tC t) T P.
Proof.
  unfold gottschalkTS. cbv zeta. destruct (neqb (val (MPa P) - 1 / 10 * Pst) 0 || neqb (T - Tst) 0) eqn:E; [reflexivity|].
  apply orb_false_iff in E. destruct E as (E1 & E2). rewrite mpa_val in E1. unfold neqb in E1, E2.
  destruct (Req_EM_T (P / 1000000 - 1 / 10 * Pst) 0); [|discriminate]. destruct (Req_EM_T (T - Tst) 0); [|discriminate]. exfalso. destruct Hon; lra.
Qed.
Lemma rec_flat : g_2 b = 0 -> g_3 b = 0 -> ddt vst = 0 -> let r := gottschalkTS b vst Tst Pst T P t in ddt (tG r) = ddt (tG t) /\ ddt (tS r) = ddt (tS t) /\ ddt (tV r) = ddt (tV t).
Proof.
  intros A B C r. unfold r. rewrite rec_on.
  assert (F : flat v0) by (unfold v0, ts_mul_d; apply f_dmul; exact C).
  pose proof (f_g b Pr Tst v0 (Temperature T) (MPa P) A B eq_refl mpa_flat F) as G. pose proof (f_s b Pr Tst v0 (Temperature T) (MPa P) A B eq_refl mpa_flat F) as H0.
  pose proof (f_divd 10 _ (f_vv b Pr Tst v0 (Temperature T) (MPa P) A B eq_refl mpa_flat F)) as V. unfold flat in *.
  cbn -[gTS sTS vvTS ts_div_d]. rewrite G, H0, V, C. repeat split; ring.
Qed.
Lemma rec_identities : let r := gottschalkTS b vst Tst Pst T P t in
  (val (tH r) - val (tG r) - T * val (tS r) = val (tH t) - val (tG t) - T * val (tS t) /\
   ddt (tH r) - ddt (tG r) - (val (tS r) + T * ddt (tS r)) = ddt (tH t) - ddt (tG t) - (val (tS t) + T * ddt (tS t)) /\
   ddp (tH r) - ddp (tG r) - T * ddp (tS r) = ddp (tH t) - ddp (tG t) - T * ddp (tS t)) /\
  (val (tU r) = val (tH r) - P / 100000 * val (tV r) /\ ddt (tU r) = ddt (tH r) - P / 100000 * ddt (tV r) /\ ddp (tU r) = ddp (tH r) - (val (tV r) / 100000 + P / 100000 * ddp (tV r))) /\
  (val (tA r) = val (tU r) - T * val (tS r) /\ ddt (tA r) = ddt (tU r) - (val (tS r) + T * ddt (tS r)) /\ ddp (tA r) = ddp (tU r) - T * ddp (tS r)).
Proof.
  intros r. unfold r. rewrite rec_on. unfold hTS. cbn -[gTS sTS vvTS ts_div_d]. repeat split; try field.
Qed.
Lemma rec_gp : let vt := bm_vt b Tst (val vst * 10) T in let v := val (vvTS b Pr Tst v0 (Temperature T) (MPa P)) in ddp vst = 0 -> 0 < val vst -> 0 < v ->
  ddp (tG (gottschalkTS b vst Tst Pst T P t)) = ddp (tG t) + v / 1000000 - vt + (P / 1000000 - bm_p vt (bm_k b Tst T) (g_kp b) (bm_kpp b Tst T) v) * ddp (vvTS b Pr Tst v0 (Temperature T) (MPa P)).
Proof.
  intros vt v H0 Pv Vv. rewrite rec_on. cbn -[gTS vvTS].
  assert (D0 : ddp v0 = 0) by (unfold v0, ts_mul_d; rewrite dmul_ddp, H0; ring).
  assert (V0 : val v0 = val vst * 10) by (unfold v0, ts_mul_d; rewrite dmul_val; ring).
  assert (Evt : val (vtTS b Tst v0 (Temperature T)) = vt) by (rewrite vt_val, V0; reflexivity).
  assert (Pvt : 0 < vt) by (unfold vt, bm_vt; apply Rmult_lt_0_compat; [lra|apply exp_pos]).
  unfold gTS. rewrite int_ddp; [|now apply vt_ddp|now apply k_ddp|reflexivity|now apply kpp_ddp|rewrite Evt; exact Pvt|exact Vv].
  rewrite Evt, k_val, kpp_val, mpa_val, mpa_ddp. change (ddp (Pressure Pr)) with 1. change (val (Temperature T)) with T. fold v. change (val (kpTS b)) with (g_kp b). unfold Rdiv. ring.
Qed.
End Rec.
(** the integral along an exact isotherm *)
Lemma exact_gp : forall vt k kp kpp Pref (v : R -> R) P dv, 0 < vt -> 0 < v P -> (forall q, bm_p vt k kp kpp (v q) = q / 1000000) -> is_derive v P dv ->
  is_derive (fun q => bm_int (q / 1000000) Pref vt (v q) k kp kpp) P (v P / 1000000).
Proof.
  intros vt k kp kpp Pref v P dv P0 Pv Ev Dv. unfold bm_int.
  assert (D : is_derive (fun q => bm_pint vt k kp kpp (v q)) P (dv * bm_p vt k kp kpp (v P))) by (apply (is_derive_comp (bm_pint vt k kp kpp) v); [now apply bm_pint_d|exact Dv]).
  rewrite Ev in D.
  evar_last.
  - apply (is_derive_minus (fun q => - Pref * vt + q / 1000000 * v q)); [|exact D].
    apply (is_derive_plus (fun _ => - Pref * vt)); [apply is_derive_const|]. apply (is_derive_mult (fun q => q / 1000000) v); [|exact Dv|intros; apply Rmult_comm]. instantiate (1 := / 1000000). auto_derive; [exact I|field].
  - unfold minus, plus, opp, zero, mult. cbn. unfold Rdiv. ring.
Qed.

(** *** no pressure: one step leaves the volume where it starts *)
Lemma pow1_ddt : forall x c, val x = 1 -> val (ts_pow_d x c) = 1 /\ ddt (ts_pow_d x c) = c * ddt x.
Proof.
  intros x c H. unfold ts_pow_d, is0. rewrite H. assert (E : cpow 1 c = 1) by (unfold cpow; destruct (Rlt_dec 0 1); [unfold Rpower; rewrite ln_1, Rmult_0_r; apply exp_0|lra]). rewrite E.
  destruct (Req_EM_T 1 0); [lra|]. cbn. split; [reflexivity|]. field.
Qed.
Lemma veq0 : forall P vt k kp kpp v, val P = 0 -> ddt P = 0 -> 0 < val vt -> val v = val vt -> ddt v = ddt vt -> val (veqTS P vt k kp kpp v) = 0 /\ ddt (veqTS P vt k kp kpp v) = 0.
Proof.
  intros P vt k kp kpp v P0 Pt Pv E1 E2. unfold veqTS. cbv zeta.
  assert (Q : val (ts_div vt v) = 1 /\ ddt (ts_div vt v) = 0) by (cbn; rewrite E1, E2; split; [field; lra|ring]). destruct Q as (Q1 & Q2).
  destruct (pow1_ddt (ts_div vt v) (2 / 3) Q1) as (X1 & X2). destruct (pow1_ddt (ts_div vt v) (5 / 3) Q1) as (Y1 & Y2). rewrite Q2 in X2, Y2.
  set (x := ts_pow_d (ts_div vt v) (2 / 3)) in *. set (y := ts_pow_d (ts_div vt v) (5 / 3)) in *. clearbody x y.
  match goal with |- context [ts_mul (ts_mul ?a (ts_sub_d x 1)) y] => set (z := a) end. clearbody z. cbn. rewrite P0, Pt, X1, X2, Y1, Y2. split; ring.
Qed.
Lemma newton0 : forall n P vt k kp kpp v, val P = 0 -> ddt P = 0 -> 0 < val vt -> val v = val vt -> ddt v = ddt vt ->
  val (newtonTS (Datatypes.S n) P vt k kp kpp 1 v) = val vt /\ ddt (newtonTS (Datatypes.S n) P vt k kp kpp 1 v) = ddt vt.
Proof.
  intros n P vt k kp kpp v P0 Pt Pv E1 E2. destruct (veq0 P vt k kp kpp v P0 Pt Pv E1 E2) as (A & B).
  assert (St : val (stepTS P vt k kp kpp v) = val vt /\ ddt (stepTS P vt k kp kpp v) = ddt vt).
  { unfold stepTS, ts_div_d. set (f := veqTS P vt k kp kpp v) in *. set (g := dveqTS vt k kp kpp v). clearbody f g. cbn -[d_mul_ts]. rewrite dmul_val, dmul_ddt. cbn. rewrite A, B, E1, E2. split; ring. }
  destruct St as (S1 & S2). assert (Sm : / 10 ^ 10 < 1) by (rewrite <- Rinv_1; apply Rinv_lt_contravar; lra).
  assert (G1 : gtb (Rabs 1) (/ 10 ^ 10) = true) by (unfold gtb; destruct (Rlt_dec (/ 10 ^ 10) (Rabs 1)) as [_|N]; [reflexivity|exfalso; apply N; rewrite Rabs_R1; exact Sm]).
  cbn [newtonTS]. rewrite G1. cbv zeta.
  assert (Z : val (stepTS P vt k kp kpp v) - val v = 0) by lra. rewrite Z.
  assert (G : gtb (Rabs 0) (/ 10 ^ 10) = false) by (unfold gtb; destruct (Rlt_dec (/ 10 ^ 10) (Rabs 0)) as [L|]; [exfalso; rewrite Rabs_R0 in L; assert (0 < / 10 ^ 10) by (apply Rinv_0_lt_compat; lra); lra|reflexivity]).
  destruct n as [|n]; cbn [newtonTS]; rewrite G; split; assumption.
Qed.
Section Zero.
Variables (b : bmpar) (vst : TS) (Tst T : R) (t : tprop).
Hypotheses (HT : T <> Tst) (Hd : ddt vst = 0) (Hv : 0 < val vst).
Let v0 := ts_mul_d vst 10.
Let vt := bm_vt b Tst (val vst * 10) T.
Lemma zero_start : let s := startTS b (1 / 10 * 0) Tst v0 (Temperature T) (MPa 0) in val s = val (vtTS b Tst v0 (Temperature T)) /\ ddt s = ddt (vtTS b Tst v0 (Temperature T)).
Proof.
  intro s. unfold s, startTS. set (w := vtTS b Tst v0 (Temperature T)). set (k := kTS b Tst (Temperature T)). assert (Fk : flat k) by (apply k_ddt; reflexivity). clearbody w k. unfold flat in Fk.
  pose proof (mpa_val 0) as M. pose proof (mpa_flat 0) as Mt. unfold flat in Mt. set (p := MPa 0) in *. clearbody p. cbn -[d_div_ts]. rewrite ddiv_val, ddiv_ddt, Fk, M, Mt.
  replace (1 / val k * -1 * (0 / 1000000 - 1 / 10 * 0)) with 0 by (unfold Rdiv; ring). rewrite exp_0. split; ring.
Qed.
Lemma zero_vv : let v := vvTS b (1 / 10 * 0) Tst v0 (Temperature T) (MPa 0) in
  val v = vt /\ ddt v = vt * ((g_1 b + g_2 b * T + g_3 b * (1 / T * (1 / T))) - (g_1 b + g_2 b * Tst + g_3 b * (1 / Tst * (1 / Tst)))).
Proof.
  assert (V0 : val v0 = val vst * 10) by (unfold v0, ts_mul_d; rewrite dmul_val; ring).
  assert (D0 : ddt v0 = 0) by (unfold v0, ts_mul_d; rewrite dmul_ddt, Hd; ring).
  assert (Evt : val (vtTS b Tst v0 (Temperature T)) = vt) by (rewrite vt_val, V0; reflexivity).
  assert (Pvt : 0 < vt) by (unfold vt, bm_vt; apply Rmult_lt_0_compat; [lra|apply exp_pos]).
  destruct zero_start as (A & B). intro v. unfold v, vvTS, volumeTS.
  destruct (newton0 49 (MPa 0) (vtTS b Tst v0 (Temperature T)) (kTS b Tst (Temperature T)) (kpTS b) (kppTS b Tst (Temperature T)) (startTS b (1 / 10 * 0) Tst v0 (Temperature T) (MPa 0))) as (C & D).
  - rewrite mpa_val. field.
  - apply mpa_flat.
  - rewrite Evt. exact Pvt.
  - exact A.
  - exact B.
  - rewrite C, D, Evt. split; [reflexivity|]. rewrite vt_ddt by exact D0. rewrite V0. reflexivity.
Qed.
Lemma zero_rec : let r := gottschalkTS b vst Tst 0 T 0 t in
  val (tV r) = val (tV t) + (val vst + vt / 10) /\
  ddt (tV r) = ddt (tV t) + vt * ((g_1 b + g_2 b * T + g_3 b * (1 / T * (1 / T))) - (g_1 b + g_2 b * Tst + g_3 b * (1 / Tst * (1 / Tst)))) / 10.
Proof.
  intro r. unfold r. rewrite rec_on by (right; exact HT). destruct zero_vv as (A & B). fold v0. set (v := vvTS b (1 / 10 * 0) Tst v0 (Temperature T) (MPa 0)) in *. clearbody v.
  unfold ts_div_d. cbn -[d_mul_ts gTS hTS sTS]. rewrite dmul_val, dmul_ddt, A, B, Hd. split; [field|]. match goal with |- context [vt * ?x] => generalize (vt * x) end. intro y. field.
Qed.
End Zero.
Lemma zero_root : forall vt k kp kpp, 0 < vt -> bm_p vt k kp kpp vt = 0.
Proof. intros vt k kp kpp H. unfold bm_p. cbv zeta. replace (vt / vt) with 1 by (field; lra). unfold Rpower. rewrite ln_1, !Rmult_0_r, exp_0. ring. Qed.
Lemma vt_pos : forall b Tst v T, 0 < v -> 0 < bm_vt b Tst v T.
Proof. intros b Tst v T H. unfold bm_vt. apply Rmult_lt_0_compat; [exact H|apply exp_pos]. Qed.
Lemma zero_gp : forall b vst Tst T t, T <> Tst -> ddt vst = 0 -> ddp vst = 0 -> 0 < val vst ->
  ddp (tG (gottschalkTS b vst Tst 0 T 0 t)) = ddp (tG t) + bm_vt b Tst (val vst * 10) T / 1000000 - bm_vt b Tst (val vst * 10) T.
Proof.
  intros b vst Tst T t HT Hd Hp Hv. pose proof (vt_pos b Tst (val vst * 10) T) as Pv. destruct (zero_vv b vst Tst T Hd Hv) as (A & _).
  rewrite rec_gp; [|right; exact HT|exact Hp|exact Hv|rewrite A; apply Pv; lra]. rewrite A, zero_root by (apply Pv; lra). unfold Rdiv. ring.
Qed.
Definition bx : bmpar := mkBM (3 / 100000) 0 0 160000 (-30) 4 0.
Definition vx : TS := ts_assign (9 / 8).
Definition tx : tprop := let z := ts_assign 0 in mkTP z z z z z z z.
Lemma vx_big : 11.25 < bm_vt bx 300 (val vx * 10) 400.
Proof.
  unfold bm_vt, bx, vx. cbn. match goal with |- context [exp ?e] => pose proof (exp_ineq1 e) as H; set (y := e) in *; assert (E : y = 3 / 1000) by (unfold y; field) end. clearbody y. subst y. specialize (H ltac:(lra)). lra.
Qed.
Lemma gibbs_pressure :
  (forall b vst Tst Pst T P t, P <> 100000 * Pst \/ T <> Tst -> ddp vst = 0 -> 0 < val vst ->
     let vt := bm_vt b Tst (val vst * 10) T in
     let k := bm_k b Tst T in let kp := g_kp b in let kpp := bm_kpp b Tst T in
     let x := vvTS b (1 / 10 * Pst) Tst (ts_mul_d vst 10) (Temperature T) (MPa P) in
     0 < val x ->
     ddp (tG (gottschalkTS b vst Tst Pst T P t)) - ddp (tG t) = val x / 1000000 - vt + (P / 1000000 - bm_p vt k kp kpp (val x)) * ddp x) /\
  (forall vt k kp kpp Pref (v : R -> R) P dv, 0 < vt -> 0 < v P -> (forall q, bm_p vt k kp kpp (v q) = q / 1000000) -> is_derive v P dv ->
     is_derive (fun q => bm_int (q / 1000000) Pref vt (v q) k kp kpp) P (v P / 1000000)) /\
  (exists b vst Tst T t, T <> Tst /\ ddp vst = 0 /\ ddp (tG (gottschalkTS b vst Tst 0 T 0 t)) - ddp (tG t) < 0 < val (vvTS b (1 / 10 * 0) Tst (ts_mul_d vst 10) (Temperature T) (MPa 0))).
Proof.
  split; [|split; [exact exact_gp|]].
  - intros b vst Tst Pst T P t Hon Hp Hv vt k kp kpp x Hx. rewrite (rec_gp b vst Tst Pst T P t Hon Hp Hv Hx). fold vt. fold k. fold kp. fold kpp. fold x. ring.
  - exists bx, vx, 300, 400, tx. split; [lra|]. split; [reflexivity|].
    assert (Hv : 0 < val vx) by (cbn; lra). rewrite zero_gp; [|lra|reflexivity|reflexivity|exact Hv].
    destruct (zero_vv bx vx 300 400 eq_refl Hv) as (A & _). rewrite A. pose proof vx_big. set (y := bm_vt bx 300 (val vx * 10) 400) in *. clearbody y. set (z := ddp (tG tx)). clearbody z. split; lra.
Qed.
Lemma expansion :
  (forall b vst Tst T t, T <> Tst -> T <> 0 -> ddt vst = 0 -> 0 < val vst ->
     let r := gottschalkTS b vst Tst 0 T 0 t in
     let volume u := bm_vt b Tst (val vst * 10) u in
     let expansivity u := g_1 b + g_2 b * u + g_3 b * (1 / u * (1 / u)) in
     (forall u, bm_p (volume u) (bm_k b Tst u) (g_kp b) (bm_kpp b Tst u) (volume u) = 0) /\
     val (tV r) - val (tV t) = val vst + volume T / 10 /\
     is_derive volume T (volume T * expansivity T) /\
     ddt (tV r) - ddt (tV t) = volume T * (expansivity T - expansivity Tst) / 10) /\
  (exists b vst Tst T t, T <> Tst /\ T <> 0 /\ ddt vst = 0 /\ 0 < val vst /\
     ddt (tV (gottschalkTS b vst Tst 0 T 0 t)) - ddt (tV t) <> Derive (fun u => val vst + bm_vt b Tst (val vst * 10) u / 10) T).
Proof.
  split.
  - intros b vst Tst T t HT H0 Hd Hv r volume expansivity. destruct (zero_rec b vst Tst T t HT Hd Hv) as (A & B). split; [|split; [|split]].
    + intro u. apply zero_root. apply vt_pos. lra.
    + unfold r. rewrite A. unfold volume. ring.
    + apply (vt_true b Tst (val vst * 10) T H0).
    + unfold r. rewrite B. unfold volume, expansivity. ring.
  - exists bx, vx, 300, 400, tx. assert (Hv : 0 < val vx) by (cbn; lra). split; [lra|]. split; [lra|]. split; [reflexivity|]. split; [exact Hv|].
    destruct (zero_rec bx vx 300 400 tx ltac:(lra) eq_refl Hv) as (_ & B). rewrite B.
    assert (D : is_derive (fun u => val vx + bm_vt bx 300 (val vx * 10) u / 10) 400 (bm_vt bx 300 (val vx * 10) 400 * (3 / 100000) / 10)).
    { evar_last.
      - apply (is_derive_plus (fun _ => val vx)); [apply is_derive_const|]. apply (is_derive_ext (fun u => / 10 * bm_vt bx 300 (val vx * 10) u)); [intro u; apply Rmult_comm|].
        apply (is_derive_scal (bm_vt bx 300 (val vx * 10)) 400 (/ 10)). apply (vt_true bx 300 (val vx * 10) 400). lra.
      - unfold plus, zero, scal. cbn -[bm_vt]. unfold mult. cbn -[bm_vt]. match goal with |- context [bm_vt ?a ?c ?d ?e] => generalize (bm_vt a c d e) end. intro y. field. }
    apply is_derive_unique in D. intro E. pose proof (eq_trans E D) as E'. clear E D B. pose proof vx_big. set (y := bm_vt bx 300 (val vx * 10) 400) in *. clearbody y. cbn in E'.
    match type of E' with context [?a * (1 / 400 * ?c)] => replace (a * (1 / 400 * c)) with 0 in E' by ring end. lra.
Qed.
Lemma bm_case :
  let b := mkBM (3 / 100000) 0 0 160000 (-30) 4 0 in let vst := ts_assign (9 / 8) in let z := ts_assign 0 in let t := mkTP z z z z z z z in
  ddt (tV (gottschalkTS b vst 300 0 400 0 t)) = 0 /\ ddt (tV (gottschalkTS b vst 300 0 400 500000000 t)) = 0 /\
  is_derive (bm_vt b 300 (val vst * 10)) 400 (bm_vt b 300 (val vst * 10) 400 * (3 / 100000)) /\
  ddp (tG (gottschalkTS b vst 300 0 400 0 t)) < -11.
Proof.
  cbv zeta. change (mkBM (3 / 100000) 0 0 160000 (-30) 4 0) with bx. change (ts_assign (9 / 8)) with vx. change (mkTP (ts_assign 0) (ts_assign 0) (ts_assign 0) (ts_assign 0) (ts_assign 0) (ts_assign 0) (ts_assign 0)) with tx.
  assert (Hon : forall P : R, P <> 100000 * 0 \/ 400 <> 300) by (intro P; right; lra).
  split; [exact (proj2 (proj2 (rec_flat bx vx 300 0 400 0 tx (Hon 0) eq_refl eq_refl eq_refl)))|].
  split; [exact (proj2 (proj2 (rec_flat bx vx 300 0 400 500000000 tx (Hon 500000000) eq_refl eq_refl eq_refl)))|]. split.
  - evar_last; [apply (vt_true bx 300 (val vx * 10) 400); lra|]. f_equal. unfold bx. cbn. field.
  - rewrite zero_gp; [|lra|reflexivity|reflexivity|cbn; lra]. pose proof vx_big. set (y := bm_vt bx 300 (val vx * 10) 400) in *. clearbody y. cbn. lra.
Qed.

(** *** a step of the iteration *)
Lemma veq_carries : forall P vt v k kp kpp fP fv0 fv fk fkp fkpp T p, carries P fP T p -> carries vt fv0 T p -> carries v fv T p -> carries k fk T p ->
  carries kp fkp T p -> carries kpp fkpp T p -> 0 < fv0 T p -> 0 < fv T p ->
  carries (veqTS P vt k kp kpp v) (fun t q => bm_p (fv0 t q) (fk t q) (fkp t q) (fkpp t q) (fv t q) - fP t q) T p.
Proof.
  intros P vt v k kp kpp fP fv0 fv fk fkp fkpp T p HP H0 Hv Hk Hkp Hkpp P0 Pv.
  assert (Q : 0 < fv0 T p / fv T p) by (apply Rdiv_lt_0_compat; assumption).
  assert (Hq : carries (ts_div vt v) (fun t q => fv0 t q / fv t q) T p) by (apply c_div; [assumption|assumption|lra]).
  assert (Hx : carries (ts_pow_d (ts_div vt v) (2 / 3)) (fun t q => Rpower (fv0 t q / fv t q) (2 / 3)) T p) by (apply c_pow; assumption).
  assert (Hy : carries (ts_pow_d (ts_div vt v) (5 / 3)) (fun t q => Rpower (fv0 t q / fv t q) (5 / 3)) T p) by (apply c_pow; assumption).
  unfold veqTS. cbv zeta. set (x := ts_pow_d (ts_div vt v) (2 / 3)) in *. set (y := ts_pow_d (ts_div vt v) (5 / 3)) in *. clearbody x y.
  eapply c_ext; [|apply c_sub; [repeat (eassumption || apply c_add || apply c_sub || apply c_mul || apply c_dmul || apply c_dadd || apply c_dsub || apply c_subd)|exact HP]].
  intros t q. cbv beta. unfold bm_p. cbv zeta. unfold Rdiv. ring.
Qed.
Lemma pow_val : forall x c, 0 < val x -> val (ts_pow_d x c) = Rpower (val x) c.
Proof. intros x c H. unfold ts_pow_d. cbv zeta. assert (E : cpow (val x) c = Rpower (val x) c) by (unfold cpow; destruct (Rlt_dec 0 (val x)); [reflexivity|contradiction]). destruct (is0 (val x)); cbn; exact E. Qed.
Lemma div_val : forall x y, val (ts_div x y) = val x / val y. Proof. intros x y. cbn. unfold Rdiv. ring. Qed.
Lemma veq_val : forall P vt k kp kpp v, 0 < val vt -> 0 < val v -> val (veqTS P vt k kp kpp v) = bm_p (val vt) (val k) (val kp) (val kpp) (val v) - val P.
Proof.
  intros P vt k kp kpp v P0 Pv. assert (L : forall x, lin x 0 0 0 0 = val x) by (intro x; unfold lin; ring).
  pose proof (veq_carries P vt v k kp kpp _ _ _ _ _ _ 0 0 (c_lin P 0 0) (c_lin vt 0 0) (c_lin v 0 0) (c_lin k 0 0) (c_lin kp 0 0) (c_lin kpp 0 0)) as C. rewrite !L in C. destruct (C P0 Pv) as (E & _).
  rewrite !L in E. exact E.
Qed.
Lemma dveq_val : forall vt k kp kpp v, 0 < val vt -> 0 < val v -> val (dveqTS vt k kp kpp v) = bm_dp (val vt) (val k) (val kp) (val kpp) (val v).
Proof.
  intros vt k kp kpp v P0 Pv. assert (Q : 0 < val (ts_div vt v)) by (rewrite div_val; apply Rdiv_lt_0_compat; assumption).
  unfold dveqTS, intA. cbv zeta. rewrite div_val. pose proof (pow_val (ts_div vt v) (2 / 3) Q) as X. pose proof (pow_val (ts_div vt v) (1 / 3) Q) as Y. rewrite div_val in X, Y.
  set (x := ts_pow_d (ts_div vt v) (2 / 3)) in *. set (y := ts_pow_d (ts_div vt v) (1 / 3)) in *. clearbody x y.
  cbn -[d_mul_ts]. repeat (rewrite dmul_val; cbn -[d_mul_ts]). rewrite X, Y. unfold bm_dp. cbv zeta. reflexivity.
Qed.
Lemma step_val : forall P vt k kp kpp v, 0 < val vt -> 0 < val v ->
  val (stepTS P vt k kp kpp v) = val v - (bm_p (val vt) (val k) (val kp) (val kpp) (val v) - val P) / bm_dp (val vt) (val k) (val kp) (val kpp) (val v) / 2.
Proof.
  intros P vt k kp kpp v P0 Pv. unfold stepTS, ts_div_d. cbn -[d_mul_ts ts_div]. rewrite dmul_val, div_val, veq_val, dveq_val by assumption. unfold Rdiv. ring.
Qed.
Lemma iter_r : forall (f : R -> R) m x, Nat.iter (Datatypes.S m) f x = Nat.iter m f (f x).
Proof. intros f m x. induction m as [|m IH]; [reflexivity|]. change (f (Nat.iter (Datatypes.S m) f x) = f (Nat.iter m f (f x))). now rewrite IH. Qed.
Lemma newton_val : forall n P vt k kp kpp d v, 0 < val vt ->
  (forall m, (m <= n)%nat -> 0 < Nat.iter m (fun u => u - (bm_p (val vt) (val k) (val kp) (val kpp) u - val P) / bm_dp (val vt) (val k) (val kp) (val kpp) u / 2) (val v)) ->
  val (newtonTS n P vt k kp kpp d v) = bm_newton n (val P) (val vt) (val k) (val kp) (val kpp) d (val v).
Proof.
  induction n as [|n IH]; intros P vt k kp kpp d v P0 Hm; cbn [newtonTS bm_newton]; destruct (gtb (Rabs d) (/ 10 ^ 10)); try reflexivity.
  cbv zeta. pose proof (Hm 0%nat ltac:(lia)) as Pv. cbn in Pv. rewrite <- (step_val P vt k kp kpp v P0 Pv). apply IH; [exact P0|].
  intros m Hle. specialize (Hm (Datatypes.S m) ltac:(lia)). rewrite (step_val P vt k kp kpp v P0 Pv). rewrite iter_r in Hm. exact Hm.
Qed.
Lemma step_ddp : forall P vt k kp kpp v, ddp vt = 0 -> ddp k = 0 -> ddp kp = 0 -> ddp kpp = 0 -> 0 < val vt -> 0 < val v ->
  bm_p (val vt) (val k) (val kp) (val kpp) (val v) = val P -> bm_dp (val vt) (val k) (val kp) (val kpp) (val v) <> 0 ->
  val (stepTS P vt k kp kpp v) = val v /\ ddp (stepTS P vt k kp kpp v) = (ddp v + ddp P / bm_dp (val vt) (val k) (val kp) (val kpp) (val v)) / 2.
Proof.
  intros P vt k kp kpp v E1 E2 E3 E4 P0 Pv Er Hd. split; [rewrite step_val, Er by assumption; unfold Rdiv; ring|].
  assert (D : ddp (veqTS P vt k kp kpp v) = bm_dp (val vt) (val k) (val kp) (val kpp) (val v) * ddp v - ddp P).
  { assert (L : forall x, lin x 0 0 0 0 = val x) by (intro x; unfold lin; ring).
    pose proof (veq_carries P vt v k kp kpp _ _ _ _ _ _ 0 0 (c_lin P 0 0) (c_lin vt 0 0) (c_lin v 0 0) (c_lin k 0 0) (c_lin kp 0 0) (c_lin kpp 0 0)) as C. rewrite !L in C. specialize (C P0 Pv).
    apply (c_uniqueP _ _ _ _ _ C). clear C.
    assert (K : forall x, ddp x = 0 -> forall q, lin x 0 0 0 q = val x) by (intros x E q; unfold lin; rewrite E; ring).
    apply (is_derive_ext (fun q => bm_p (val vt) (val k) (val kp) (val kpp) (val v + ddp v * q) - (val P + ddp P * q))).
    { intro q. rewrite (K vt E1), (K k E2), (K kp E3), (K kpp E4). unfold lin. replace (val v + ddt v * (0 - 0) + ddp v * (q - 0)) with (val v + ddp v * q) by ring. match goal with |- ?a = ?b => change (@eq R a b) end. ring. }
    assert (B : is_derive (fun q => bm_p (val vt) (val k) (val kp) (val kpp) (val v + ddp v * q)) 0 (ddp v * bm_dp (val vt) (val k) (val kp) (val kpp) (val v))).
    { apply (is_derive_comp (bm_p (val vt) (val k) (val kp) (val kpp)) (fun q => val v + ddp v * q)).
      - replace (val v + ddp v * 0) with (val v) by ring. now apply bm_p_d.
      - auto_derive; [exact I|ring]. }
    evar_last; [apply (is_derive_minus _ (fun q => val P + ddp P * q) _ _ (ddp P) B); auto_derive; [exact I|ring]|]. unfold minus, plus, opp. cbn. ring. }
  pose proof (veq_val P vt k kp kpp v P0 Pv) as F1. pose proof (dveq_val vt k kp kpp v P0 Pv) as F2. rewrite Er in F1. unfold stepTS, ts_div_d.
  set (f1 := veqTS P vt k kp kpp v) in *. set (f2 := dveqTS vt k kp kpp v) in *. clearbody f1 f2. cbn -[d_mul_ts ts_div]. rewrite dmul_ddp. cbn. rewrite F1, F2, D. set (g := bm_dp (val vt) (val k) (val kp) (val kpp) (val v)) in *. clearbody g. field. exact Hd.
Qed.
Lemma bm_volume_ok :
  (forall n P vt k kp kpp d v, 0 < val vt ->
     (forall m, (m <= n)%nat -> 0 < Nat.iter m (fun u => u - (bm_p (val vt) (val k) (val kp) (val kpp) u - val P) / bm_dp (val vt) (val k) (val kp) (val kpp) u / 2) (val v)) ->
     val (newtonTS n P vt k kp kpp d v) = bm_newton n (val P) (val vt) (val k) (val kp) (val kpp) d (val v)) /\
  (forall P vt k kp kpp v, ddp vt = 0 -> ddp k = 0 -> ddp kp = 0 -> ddp kpp = 0 -> 0 < val vt -> 0 < val v ->
     bm_p (val vt) (val k) (val kp) (val kpp) (val v) = val P -> bm_dp (val vt) (val k) (val kp) (val kpp) (val v) <> 0 ->
     let true_slope := ddp P / bm_dp (val vt) (val k) (val kp) (val kpp) (val v) in
     val (stepTS P vt k kp kpp v) = val v /\ ddp (stepTS P vt k kp kpp v) - true_slope = (ddp v - true_slope) / 2).
Proof.
  split; [exact newton_val|]. intros P vt k kp kpp v E1 E2 E3 E4 P0 Pv Er Hd s. destruct (step_ddp P vt k kp kpp v E1 E2 E3 E4 P0 Pv Er Hd) as (A & B). split; [exact A|]. rewrite B. fold s. field.
Qed.
Lemma volume_case : let c := ts_assign in bm_p 10 160000 4 0 10 = val (c 0) /\ bm_dp 10 160000 4 0 10 <> 0 /\
  forall m, (m <= 3)%nat -> 0 < Nat.iter m (fun u => u - (bm_p 10 160000 4 0 u - 0) / bm_dp 10 160000 4 0 u / 2) 10.
Proof.
  cbv zeta. assert (Z : bm_p 10 160000 4 0 10 = 0) by (apply zero_root; lra). split; [exact Z|]. split.
  - unfold bm_dp. cbv zeta. replace (10 / 10) with 1 by field. unfold Rpower. rewrite ln_1, !Rmult_0_r, exp_0. lra.
  - intros m _. assert (E : Nat.iter m (fun u => u - (bm_p 10 160000 4 0 u - 0) / bm_dp 10 160000 4 0 u / 2) 10 = 10); [|rewrite E; lra].
    induction m as [|m IH]; [reflexivity|]. change (Nat.iter (Datatypes.S m) ?f ?x) with (f (Nat.iter m f x)). cbv beta. rewrite IH, Z. unfold Rdiv. ring.
Qed.
