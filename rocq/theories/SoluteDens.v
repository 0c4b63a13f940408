(** The Akinfiev-Diamond model and the two density models. *)
From Coq Require Import List Bool Reals Lra Lia.
From Coquelicot Require Import Coquelicot.
From Verif Require Import RDeriv MineralModel MineralSpec GasMore GasPhase SoluteModel SoluteSpec SoluteProofs SoluteG SoluteG2.
Open Scope R_scope.

(** *** Akinfiev-Diamond *)
Section AD.
Context (p : adpar) (w : R -> R -> adwater) (T P : R).
Hypothesis HT : 0 < T.
Hypothesis Hw : ad_water_ok w T P.
Hypothesis Hr : 0 < aw_rho (w T P).
Let I := fun t q => ad_increments p t (w t q).
Definition adG (t : R) (x : adwater) : R :=
  - Rj * t * ln (1000 / MW) + (1 - a_xi p) * (aw_G x - ai_G x) + Rj * t * a_xi p * (ln (RR / MW) + ln t + ln (aw_rho x)) + Rj * aw_rho x * (a_a p * t + a_b p * p15 * Rpower t (1 / 2)).
Lemma Rj_nz : Rj <> 0. Proof. unfold Rj. lra. Qed.
Lemma rm_pos : 0 < RR / MW. Proof. unfold RR, MW. lra. Qed.
Lemma p15_e : forall t, 0 < t -> t * Rpower (1000 / t) (1 / 2) = p15 * Rpower t (1 / 2).
Proof.
  intros t Ht. unfold p15. assert (E : 1000 / t = Rpower 10 3 * Rpower t (- (1))).
  { rewrite Rpower_Ropp, Rpower_1 by exact Ht. replace 3 with (INR 3) by (cbn; lra). rewrite Rpower_pow by lra. cbn [pow]. field. lra. }
  rewrite E, <- Rpower_mult_distr by apply exp_pos. rewrite !Rpower_mult. replace (3 * (1 / 2)) with (15 / 10) by lra. rewrite <- (Rpower_1 t Ht) at 1.
  rewrite (Rmult_comm (Rpower 10 _)), <- Rmult_assoc, <- Rpower_plus. replace (1 + - (1) * (1 / 2)) with (1 / 2) by lra. ring.
Qed.
Lemma ad_G : forall t x, 0 < t -> 0 < aw_rho x -> i_G (ad_increments p t x) = adG t x.
Proof.
  intros t x Ht Hx. unfold ad_increments, adG. cbn [i_G]. rewrite ln_exp. assert (A := Rj_nz).
  replace (RR * t / MW * aw_rho x) with (RR / MW * (t * aw_rho x)) by (unfold Rdiv; ring). rewrite !ln_mult; [|assumption|assumption|apply rm_pos|now apply Rmult_lt_0_compat].
  replace (Rj * t * aw_rho x * (a_a p + a_b p * Rpower (1000 / t) (1 / 2))) with (Rj * aw_rho x * (a_a p * t + a_b p * (t * Rpower (1000 / t) (1 / 2)))) by ring. rewrite p15_e by exact Ht. field. split; lra.
Qed.
Lemma y_d : is_derive (fun t : R => Rpower t (1 / 2)) T (1 / 2 * Rpower T (1 / 2) / T).
Proof. eapply d_eq; [apply (d_Rpower (fun t : R => t)); [apply d_id|exact HT]|]. rewrite Rpower_pred by exact HT. field. lra. Qed.
Lemma y_m : Rpower T (- (1 / 2)) = Rpower T (1 / 2) / T.
Proof. rewrite <- Rpower_pred by exact HT. f_equal. lra. Qed.
Lemma y_m3 : Rpower T (- (3 / 2)) = Rpower T (1 / 2) / T / T.
Proof. rewrite <- !Rpower_pred by exact HT. f_equal. lra. Qed.
Lemma y_md : is_derive (fun t : R => Rpower t (- (1 / 2))) T (- (1 / 2) * (Rpower T (1 / 2) / T) / T).
Proof. eapply d_eq; [apply (d_Rpower (fun t : R => t)); [apply d_id|exact HT]|]. rewrite Rpower_pred, y_m by exact HT. field. lra. Qed.
Lemma rho_near : locally T (fun t => 0 < t /\ 0 < aw_rho (w t P)).
Proof. destruct Hw as (_ & _ & _ & _ & D & _). apply near_both; [apply near_gt; exact HT|]. apply (near_cont _ _ 0 (ex_d _ _ _ D) Hr). Qed.
Lemma rho_nearP : locally P (fun q => 0 < aw_rho (w T q)).
Proof. destruct Hw as (_ & _ & _ & _ & _ & D & _). apply (near_cont _ _ 0 (ex_d _ _ _ D) Hr). Qed.
Lemma ln_split : forall t, 0 < t -> ln (RR * t / MW) = ln (RR / MW) + ln t.
Proof. intros t Ht. replace (RR * t / MW) with (RR / MW * t) by (unfold Rdiv; ring). rewrite ln_mult; [reflexivity|apply rm_pos|exact Ht]. Qed.
Ltac prep := destruct Hw as (W1 & W2 & W3 & W4 & W5 & W6 & W7 & W8); assert (Y1 := y_d); assert (Y2 := y_md); assert (A := Rj_nz).
Lemma ad_S : is_derive (fun t : R => i_G (I t P)) T (- i_S (I T P)).
Proof.
  prep. apply is_derive_ext_loc with (fun t : R => adG t (w t P)); [eapply filter_imp; [|exact rho_near]; intros t [Ht Hx]; symmetry; now apply ad_G|].
  unfold adG. eapply d_eq; [dr; lra|]. cbv beta. unfold I, ad_increments. cbn [i_S]. rewrite ln_split, y_m by exact HT. field. repeat split; lra.
Qed.
Lemma ad_C : is_derive (fun t : R => i_S (I t P)) T (i_C (I T P) / T).
Proof.
  prep. apply is_derive_ext_loc with (fun t : R => let x := w t P in let xi := a_xi p in let a := a_a p in let b := a_b p in let rho := aw_rho x in let rT := - aw_al x * rho in
     (1 - xi) * (aw_S x - ai_S x) + Rj * ln (1000 / MW) - Rj * (xi + xi * (ln (RR / MW) + ln t) + xi * ln rho + xi * t * (1 / rho) * rT)
     - Rj * (a * (rho + t * rT) + b * (1 / 2 * p15 * Rpower t (- (1 / 2)) * rho + p15 * Rpower t (1 / 2) * rT))).
  { eapply filter_imp; [|exact rho_near]. intros t [Ht Hx]. unfold I, ad_increments. cbn [i_S]. rewrite ln_split by exact Ht. reflexivity. }
  cbv zeta. eapply d_eq; [dr; lra|]. cbv beta. unfold I, ad_increments. cbn [i_C]. rewrite y_m, y_m3. field. repeat split; lra.
Qed.
Lemma ad_H : is_derive (fun t : R => i_H (I t P)) T (i_C (I T P)).
Proof. assert (D1 := ad_S). assert (D2 := ad_C). unfold I, ad_increments in *. cbn [i_H i_G i_S i_C] in *. eapply d_eq; [apply d_plus; [exact D1|apply (d_mult (fun t : R => t)); [apply d_id|exact D2]]|]. cbv beta. field. lra. Qed.
Lemma ad_V0 : forall v, is_derive (fun q : R => aw_G (w T q)) P v -> is_derive (fun q : R => i_G (I T q)) P (i_V (I T P) + (1 - a_xi p) * (v - MW / aw_rho (w T P) / 10)).
Proof.
  intros v Hv. prep. apply is_derive_ext_loc with (fun q : R => adG T (w T q)); [eapply filter_imp; [|exact rho_nearP]; intros t Ht; symmetry; now apply ad_G|].
  unfold adG. eapply d_eq; [dr; lra|]. cbv beta. unfold I, ad_increments. cbn [i_V]. unfold RR, Rj, MW. field. repeat split; lra.
Qed.
End AD.
Lemma ad_consistent : forall p w i0 t T P, 0 < T -> ad_water_ok w T P -> 0 < aw_rho (w T P) ->
  is_derive (fun x : R => mG (t x)) T (- mS (t T)) -> is_derive (fun x : R => mS (t x)) T (mCp (t T) / T) -> is_derive (fun x : R => mH (t x)) T (mCp (t T)) ->
  let f := fun x q => ad_solute i0 (ad_increments p x (w x q)) x q (t x) in cons_S f T P /\ cons_C f T P /\ is_derive (fun x : R => mH (f x P)) T (mCp (f T P)) /\ cons_U f T P /\
  (is_derive (fun q : R => aw_G (w T q)) P (MW / aw_rho (w T P) / 10) -> cons_V f T P).
Proof.
  intros p w i0 t T P HT Hw Hr H1 H2 H3 f. assert (A1 := ad_S p w T P HT Hw Hr). assert (A2 := ad_C p w T P HT Hw Hr). assert (A3 := ad_H p w T P HT Hw Hr).
  split; [|split; [|split; [|split]]].
  - unfold cons_S, f, ad_solute, with_UA. cbn [mG mS]. eapply d_eq; [dr|]. cbv beta. ring.
  - unfold cons_C, f, ad_solute, with_UA. cbn [mS mCp]. eapply d_eq; [dr|]. cbv beta. field. lra.
  - unfold f, ad_solute, with_UA. cbn [mH mCp]. eapply d_eq; [dr|]. cbv beta. ring.
  - split; reflexivity.
  - intros V. assert (A4 := ad_V0 p w T P HT Hw Hr _ V). unfold cons_V, f, ad_solute, with_UA. cbn [mG mV]. eapply d_eq; [dr|]. cbv beta. ring.
Qed.
Lemma ad_gap : forall p x0 x T P t, let i0 := ad_increments p Tr x0 in let s := ad_solute i0 (ad_increments p T x) T P t in mG s - (mH s - T * mS s) = mG t - (mH t - T * mS t).
Proof.
  intros p x0 x T P t i0 s. unfold s, ad_solute, with_UA. cbn [mG mH mS]. assert (E : forall u y, i_H (ad_increments p u y) = i_G (ad_increments p u y) + u * i_S (ad_increments p u y)) by reflexivity.
  unfold i0. rewrite !E. ring.
Qed.
(** the molar mass of the rest of the program *)
Lemma ad_mass : forall p w i0 t T P, 0 < T -> ad_water_ok w T P -> 0 < aw_rho (w T P) -> is_derive (fun q : R => aw_G (w T q)) P (18015268 / 1000000 / aw_rho (w T P) / 10) -> a_xi p <> 1 ->
  ~ cons_V (fun x q => ad_solute i0 (ad_increments p x (w x q)) x q (t x)) T P.
Proof.
  intros p w i0 t T P HT Hw Hr Hv Hx C. assert (A := ad_V0 p w T P HT Hw Hr _ Hv). unfold cons_V, ad_solute, with_UA in C. cbn [mG mV] in C.
  assert (D : is_derive (fun q : R => mG (t T) - i_G i0 + i_G (ad_increments p T (w T q)) + i_S i0 * (T - Tr)) P (i_V (ad_increments p T (w T P)) + (1 - a_xi p) * (18015268 / 1000000 / aw_rho (w T P) / 10 - MW / aw_rho (w T P) / 10))).
  { clear C. eapply d_eq; [dr|]. cbv beta. ring. }
  assert (E := d_unique _ _ _ _ C D). clear - E Hr Hx. assert (F : (1 - a_xi p) * (18015268 / 1000000 / aw_rho (w T P) / 10 - MW / aw_rho (w T P) / 10) = 0) by lra.
  apply Rmult_integral in F. destruct F as [F|F]; [lra|]. assert (G : 18015268 / 1000000 / aw_rho (w T P) / 10 - MW / aw_rho (w T P) / 10 = - (12 / 10000000) * / aw_rho (w T P)) by (unfold MW; field; lra).
  rewrite G in F. assert (0 < / aw_rho (w T P)) by now apply Rinv_0_lt_compat. lra.
Qed.

(** *** density models *)
Section Dens.
Context (r : dref) (b : R) (w0 : dwater) (w : R -> R -> dwater) (T P : R).
Hypothesis Hw : dens_ok w T P.
Hypothesis Hr : 0 < w_rho (w T P).
Hypothesis H0 : 0 < w_rho w0.
Hypothesis HT : 0 < T.
Hypothesis Hq : r_T r * w_daT w0 <> 0.
Lemma q1 : r_T r <> 0. Proof. intros E. apply Hq. rewrite E. ring. Qed.
Lemma q2 : w_daT w0 <> 0. Proof. intros E. apply Hq. rewrite E. ring. Qed.
Let L := fun t q => ln (w_rho (w t q) / w_rho w0).
Lemma L_T : is_derive (fun t : R => L t P) T (- w_al (w T P)).
Proof. destruct Hw as (W1 & W2 & W3). unfold L. eapply d_eq; [dr; try lra; apply Rdiv_lt_0_compat; lra|]. cbv beta. field. lra. Qed.
Lemma L_P : is_derive (fun q : R => L T q) P (w_be (w T P)).
Proof. destruct Hw as (W1 & W2 & W3). unfold L. eapply d_eq; [dr; try lra; apply Rdiv_lt_0_compat; lra|]. cbv beta. field. lra. Qed.
Let fa := fun t q => an91 r w0 (w t q) t q.
Let K1 := r_C r / (r_T r * w_daT w0).
Lemma an_cons : cons_S fa T P /\ cons_C fa T P /\ cons_U fa T P /\ is_derive (fun q : R => mG (fa T q)) P (K1 * w_be (w T P)) /\ mV (fa T P) = r_V r /\
  mH (fa T P) - (mG (fa T P) + T * mS (fa T P)) = r_H r - r_G r - r_T r * r_S r + T * (r_C r * (w_al w0 - w_al (w T P)) / (r_T r * w_daT w0)).
Proof.
  assert (N1 := q1). assert (N2 := q2). assert (L1 := L_T). assert (L2 := L_P). unfold L in L1, L2. destruct Hw as (W1 & W2 & W3). split; [|split; [|split; [|split; [|split]]]].
  - unfold cons_S, fa, an91, with_UA. cbn [mG mS]. eapply d_eq; [dr|]. cbv beta. field. split; assumption.
  - unfold cons_C, fa, an91, with_UA. cbn [mS mCp]. eapply d_eq; [dr; assumption|]. cbv beta. field. repeat split; try assumption; lra.
  - split; reflexivity.
  - unfold fa, an91, with_UA. cbn [mG]. eapply d_eq; [dr|]. cbv beta. unfold K1. field. split; assumption.
  - reflexivity.
  - unfold fa, an91, with_UA. cbn [mG mH mS]. field. split; assumption.
Qed.
Let fh := fun t q => hp98 r b w0 (w t q) t q.
Let K2 := (r_C r - r_T r * b) / (r_T r * w_daT w0).
(** what the Gibbs energy of the Holland-Powell model implies, against what is reported *)
Lemma hp_low : T < 500 -> cons_V fh T P /\ cons_U fh T P /\ is_derive (fun t : R => mG (fh t P)) T (- (mS (fh T P) - K2 * L T P / T)) /\
  is_derive (fun t : R => mS (fh t P) - K2 * L t P / t) T (mCp (fh T P) / T) /\
  mH (fh T P) - (mG (fh T P) + T * (mS (fh T P) - K2 * L T P / T)) = r_H r - r_G r - r_T r * r_S r + T * (K2 * (w_al w0 - w_al (w T P)) + b * (r_T r - T)).
Proof.
  intros H5. assert (N1 := q1). assert (N2 := q2). assert (L1 := L_T). assert (L2 := L_P). assert (W := Hw). destruct W as (W1 & W2 & W3).
  assert (NT : locally T (fun t => 0 < t /\ t < 500)) by (apply near_both; [now apply near_gt|now apply near_lt]).
  assert (E : forall t q, 0 < t < 500 -> fh t q = with_UA (r_G r - (t - r_T r) * r_S r + (q * r_V r + b * (r_T r * t - r_T r ^ 2 / 2 - t ^ 2 / 2) + K2 * (w_al w0 * (t - r_T r) - w_be w0 * q + L t q)))
     (r_H r - t * r_S r + (q * r_V r + b * (r_T r * t - r_T r ^ 2 / 2 - t ^ 2 / 2) + K2 * (w_al w0 * (t - r_T r) - w_be w0 * q + L t q)) + t * r_S r)
     (r_S r - b * (r_T r - t) - K2 * (w_al w0 - L t q / t - w_al (w t q))) (r_V r + K2 * (- w_be w0 + w_be (w t q))) (t * (b - (r_T r * b - r_C r) * (t * w_daT (w t q)) / (r_T r * w_daT w0 * t))) t q).
  { intros t q Ht. unfold fh, hp98. destruct (Rle_dec t 500); [|lra]. fold K2. replace (t / t) with 1 by (field; lra). unfold L. rewrite !Rmult_1_l. reflexivity. }
  assert (H6 : 0 < T < 500) by lra. split; [|split; [|split; [|split]]].
  - unfold cons_V. rewrite E by exact H6. eapply d_ext; [intros q; rewrite E by exact H6; reflexivity|]. cbn [with_UA mG mV]. eapply d_eq; [dr|]. cbv beta. ring.
  - split; reflexivity.
  - rewrite E by exact H6. eapply is_derive_ext_loc; [eapply filter_imp; [|exact NT]; intros t Ht; rewrite E by exact Ht; reflexivity|]. cbn [with_UA mG mS]. eapply d_eq; [dr; lra|]. cbv beta. cbn [INR pred]. field. lra.
  - rewrite E by exact H6. eapply is_derive_ext_loc with (fun t : R => r_S r - b * (r_T r - t) - K2 * (w_al w0 - w_al (w t P))).
    { eapply filter_imp; [|exact NT]. intros t Ht. rewrite E by exact Ht. cbn [with_UA mS]. match goal with |- @eq _ ?a ?b => change (@eq R a b) end. field. lra. }
    cbn [with_UA mCp]. eapply d_eq; [dr|]. cbv beta. unfold K2. field. repeat split; try assumption; lra.
  - rewrite E by exact H6. cbn [with_UA mG mH mS]. field. lra.
Qed.
Lemma hp_high : 500 < T -> cons_V fh T P /\ cons_U fh T P /\ is_derive (fun t : R => mG (fh t P)) T (- (mS (fh T P) - 2 * K2 * L T P / 500)) /\
  is_derive (fun t : R => mS (fh t P) - 2 * K2 * L t P / 500) T (mCp (fh T P) / T + 2 * K2 * w_al (w T P) / 500).
Proof.
  intros H5. assert (N1 := q1). assert (N2 := q2). assert (L1 := L_T). assert (L2 := L_P). assert (W := Hw). destruct W as (W1 & W2 & W3).
  assert (NT : locally T (fun t => 500 < t)) by now apply near_gt.
  assert (E : forall t q, 500 < t -> fh t q = with_UA (r_G r - (t - r_T r) * r_S r + (q * r_V r + b * (r_T r * t - r_T r ^ 2 / 2 - t ^ 2 / 2) + K2 * (w_al w0 * (t - r_T r) - w_be w0 * q + t / 500 * L t q)))
     (r_H r - t * r_S r + (q * r_V r + b * (r_T r * t - r_T r ^ 2 / 2 - t ^ 2 / 2) + K2 * (w_al w0 * (t - r_T r) - w_be w0 * q + t / 500 * L t q)) + t * r_S r)
     (r_S r - b * (r_T r - t) - K2 * (w_al w0 - L t q / 500 - t / 500 * w_al (w t q))) (r_V r + K2 * (- w_be w0 + t / 500 * w_be (w t q))) (t * (b - (r_T r * b - r_C r) * (t * w_daT (w t q)) / (r_T r * w_daT w0 * 500))) t q).
  { intros t q Ht. unfold fh, hp98. destruct (Rle_dec t 500); [lra|]. fold K2. unfold L. reflexivity. }
  split; [|split; [|split]].
  - unfold cons_V. rewrite E by exact H5. eapply d_ext; [intros q; rewrite E by exact H5; reflexivity|]. cbn [with_UA mG mV]. eapply d_eq; [dr|]. cbv beta. ring.
  - split; reflexivity.
  - rewrite E by exact H5. eapply is_derive_ext_loc; [eapply filter_imp; [|exact NT]; intros t Ht; rewrite E by exact Ht; reflexivity|]. cbn [with_UA mG mS]. eapply d_eq; [dr; lra|]. cbv beta. cbn [INR pred]. field.
  - rewrite E by exact H5. eapply is_derive_ext_loc with (fun t : R => r_S r - b * (r_T r - t) - K2 * (w_al w0 - L t P / 500 - t / 500 * w_al (w t P)) - 2 * K2 * L t P / 500).
    { eapply filter_imp; [|exact NT]. intros t Ht. rewrite E by exact Ht. reflexivity. }
    cbn [with_UA mCp]. eapply d_eq; [dr; lra|]. cbv beta. unfold K2. field. repeat split; try assumption; lra.
Qed.
End Dens.
