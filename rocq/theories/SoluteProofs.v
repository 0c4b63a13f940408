(** Lemmas on the solute models. *)
From Coq Require Import List Bool Reals Lra.
From Coquelicot Require Import Coquelicot.
From Verif Require Import RDeriv MineralModel MineralSpec SoluteModel SoluteSpec.
Open Scope R_scope.

(** derivative of a formula; side conditions and unknown functions are left or taken from the hypotheses *)
Ltac dr := first [ lazymatch goal with |- is_derive (fun _ => ?c) _ _ => apply d_const | |- is_derive (fun t => t) _ _ => apply d_id end
  | match goal with H : is_derive ?f ?x _ |- is_derive ?g ?x _ => let a := eval cbv beta in (f x) in let b := eval cbv beta in (g x) in constr_eq a b; exact H end
  | lazymatch goal with
    | |- is_derive (fun t => @?f t + @?g t) ?x _ => eapply (d_plus f g x); [dr|dr]
    | |- is_derive (fun t => @?f t - @?g t) ?x _ => eapply (d_minus f g x); [dr|dr]
    | |- is_derive (fun t => - @?f t) ?x _ => eapply (d_opp f x); dr
    | |- is_derive (fun t => @?f t * @?g t) ?x _ => eapply (d_mult f g x); [dr|dr]
    | |- is_derive (fun t => @?f t / @?g t) ?x _ => eapply (d_div f g x); [dr|dr|cbv beta]
    | |- is_derive (fun t => ln (@?f t)) ?x _ => eapply (d_ln f x); [dr|cbv beta]
    | |- is_derive (fun t => exp (@?f t)) ?x _ => eapply (d_exp f x); dr
    | |- is_derive (fun t => sqrt (@?f t)) ?x _ => eapply (d_sqrt f x); [dr|cbv beta]
    | |- is_derive (fun t => Rpower (@?f t) ?y) ?x _ => eapply (d_Rpower f y x); [dr|cbv beta]
    | |- is_derive (fun t => @?f t ^ ?n) ?x _ => eapply (d_pow f n x); dr
    end | idtac ].

Ltac nz0 := lazymatch goal with |- _ * _ <> 0 => apply Rmult_integral_contrapositive_currified; nz0 | |- _ ^ _ <> 0 => apply pow_nonzero; nz0 | |- _ => lra end.
Lemma th_pos : 0 < theta. Proof. unfold theta. lra. Qed.
Lemma tr_pos : 0 < Tr - theta. Proof. unfold Tr, theta. lra. Qed.
Lemma trp : 0 < Tr. Proof. unfold Tr. lra. Qed.
Lemma cal_pos : 0 < cal. Proof. unfold cal. lra. Qed.
Lemma pref_pos : 0 < psi + Pr. Proof. unfold psi, Pr. lra. Qed.

Definition lnT (T : R) : R := ln T - ln Tr.
Definition lnU (T : R) : R := ln Tr - ln T + ln (T - theta) - ln (Tr - theta).
Lemma lnT_e : forall T, 0 < T -> ln (T / Tr) = lnT T.
Proof. intros T HT. assert (A := trp). unfold lnT, Rdiv. rewrite ln_mult, ln_Rinv; try lra. now apply Rinv_0_lt_compat. Qed.
Lemma lnU_e : forall T, theta < T -> ln (Tr / T * (T - theta) / (Tr - theta)) = lnU T.
Proof.
  intros T HT. assert (A := trp). assert (B := tr_pos). assert (C := th_pos). unfold lnU, Rdiv.
  assert (0 < / T) by (apply Rinv_0_lt_compat; lra). assert (0 < / (Tr - theta)) by (apply Rinv_0_lt_compat; lra).
  rewrite !ln_mult, !ln_Rinv; try lra; repeat apply Rmult_lt_0_compat; lra.
Qed.
Lemma lnU_e2 : forall T, theta < T -> ln (Tr * (T - theta) / T / (Tr - theta)) = lnU T.
Proof.
  intros T HT. assert (C := th_pos). assert (B := tr_pos). rewrite <- lnU_e by exact HT. f_equal. field. lra.
Qed.
Lemma lnU_e3 : forall T, theta < T -> ln (Tr * (T - theta) / (T * (Tr - theta))) = lnU T.
Proof.
  intros T HT. assert (C := th_pos). assert (B := tr_pos). rewrite <- lnU_e by exact HT. f_equal. field. lra.
Qed.
Lemma lnT_d : forall T, 0 < T -> is_derive (fun t : R => lnT t) T (1 / T).
Proof. intros T HT. unfold lnT. eapply d_eq; [dr; exact HT|]. lra. Qed.
Lemma lnU_d : forall T, theta < T -> is_derive (fun t : R => lnU t) T (theta / (T * (T - theta))).
Proof. intros T HT. assert (C := th_pos). unfold lnU. eapply d_eq; [dr; lra|]. field. lra. Qed.
Lemma logP_d : forall P, 0 < psi + P -> is_derive (fun p : R => logP p) P (1 / (psi + P)).
Proof. intros P HP. assert (A := pref_pos). unfold logP. eapply d_eq; [dr; [lra|apply Rdiv_lt_0_compat; lra]|]. cbv beta. field. lra. Qed.

(** near a point above theta *)
Lemma near_th : forall (f g : R -> R) T l, theta < T -> (forall t, theta < t -> f t = g t) -> is_derive f T l -> is_derive g T l.
Proof.
  intros f g T l HT H D. apply is_derive_ext_loc with f; [|exact D]. exists (mkposreal (T - theta) (Rlt_Rminus _ _ HT)). intros y Hy. apply H.
  unfold ball in Hy; cbn in Hy. unfold AbsRing_ball, abs, minus, plus, opp in Hy; cbn in Hy. apply Rabs_def2 in Hy. lra.
Qed.
(** the volume agrees up to the two calorie factors *)
Definition vfac : R := 4184004 / 4184000.

Section HKF.
Context (h : hkf) (e : R -> R -> elec) (b : R -> R -> born) (T P : R).
Hypothesis HT : theta < T.
Hypothesis HP : 0 < psi + P.
Hypothesis He : omega_ok e T P.
Hypothesis Hb : born_ok b T P.

Let fr := fun t p => hkf_reak h t p (e t p) (b t p).
Let fm := fun t p => hkf_gems h t p (e t p) (b t p).

Lemma A6 : 0 < T. Proof. assert (A := th_pos). lra. Qed.
Ltac prep := destruct He as (E1 & E2 & E3); destruct Hb as (B1 & B2 & B3); assert (A1 := th_pos); assert (A2 := tr_pos); assert (A3 := trp); assert (A4 := cal_pos); assert (A5 := pref_pos); 
  assert (A6' := A6); assert (L1 := lnT_d T A6); assert (L2 := lnU_d T HT); assert (L3 := logP_d P HP).

Ltac wide := let t := fresh in let Ht := fresh in let A8 := fresh in intros t Ht; assert (A8 : 0 < t) by lra; unfold hkf_reak, hkf_gems; cbn [mG mS mH]; rewrite ?(lnT_e t A8), ?(lnU_e t Ht), ?(lnU_e2 t Ht), ?(lnU_e3 t Ht); reflexivity.
Ltac here := unfold hkf_reak, hkf_gems; cbn [mS mCp mG mH mV]; rewrite ?(lnT_e T A6), ?(lnU_e T HT), ?(lnU_e2 T HT), ?(lnU_e3 T HT).
Lemma reak_S : cons_S fr T P.
Proof. prep. unfold cons_S, fr. eapply near_th; [exact HT|wide|]. here. eapply d_eq; [dr; nz0|]. cbv beta. field. repeat split; lra. Qed.
Lemma reak_C : cons_C fr T P.
Proof. prep. unfold cons_C, fr. eapply near_th; [exact HT|wide|]. here. eapply d_eq; [dr; nz0|]. cbv beta. cbn [INR pred]. field. repeat split; lra. Qed.
Lemma reak_H : is_derive (fun t : R => mH (fr t P)) T (mCp (fr T P)).
Proof. prep. unfold fr. eapply near_th; [exact HT|wide|]. here. eapply d_eq; [dr; nz0|]. cbv beta. cbn [INR pred]. field. repeat split; lra. Qed.
Lemma reak_V : is_derive (fun p : R => mG (fr T p)) P (mV (fr T P) / vfac).
Proof. prep. unfold fr. unfold hkf_reak. cbn [mG mV]. eapply d_eq; [dr; nz0|]. cbv beta. unfold vfac, vconst, cal. field. repeat split; lra. Qed.
Lemma reak_gap : forall t p, theta < t -> let x := fr t p in mG x - (mH x - t * mS x) = hG h - (hH h - Tr * hS h).
Proof. intros t p Ht x. assert (A1 := th_pos). assert (A2 := tr_pos). assert (A3 := trp). assert (A4 := cal_pos). assert (A8 : 0 < t) by lra. unfold x, fr, hkf_reak. cbn [mS mG mH]. rewrite (lnT_e t A8), (lnU_e t Ht). field. repeat split; lra. Qed.
Lemma reak_U : forall t p, let x := fr t p in mU x = mH x - 10 * cal * p * mV x /\ mA x = mU x - t * mS x.
Proof. intros t p x. unfold x, fr, hkf_reak. cbn [mS mU mH mV mA]. split; lra. Qed.

Lemma gems_S : cons_S fm T P.
Proof. prep. unfold cons_S, fm. eapply near_th; [exact HT|wide|]. here. eapply d_eq; [dr; nz0|]. cbv beta. field. repeat split; lra. Qed.
Lemma gems_C : cons_C fm T P.
Proof. prep. unfold cons_C, fm. eapply near_th; [exact HT|wide|]. here. eapply d_eq; [dr; nz0|]. cbv beta. cbn [INR pred]. field. repeat split; lra. Qed.
Lemma gems_H : is_derive (fun t : R => mH (fm t P)) T (mCp (fm T P)).
Proof. prep. unfold fm. eapply near_th; [exact HT|wide|]. here. eapply d_eq; [dr; nz0|]. cbv beta. cbn [INR pred]. field. repeat split; lra. Qed.
Lemma gems_V : is_derive (fun p : R => mG (fm T p)) P (mV (fm T P) / vfac).
Proof. prep. unfold fm. unfold hkf_gems. cbn [mG mV]. eapply d_eq; [dr; nz0|]. cbv beta. unfold vfac, vconst, cal. field. repeat split; lra. Qed.
Lemma gems_gap : forall t p, theta < t -> let x := fm t p in mG x - (mH x - t * mS x) = hG h - (hH h - Tr * hS h).
Proof. intros t p Ht x. assert (A1 := th_pos). assert (A2 := tr_pos). assert (A3 := trp). assert (A4 := cal_pos). assert (A8 : 0 < t) by lra. unfold x, fm, hkf_gems. cbn [mS mG mH]. rewrite (lnT_e t A8), (lnU_e2 t Ht), (lnU_e3 t Ht). field. repeat split; lra. Qed.
Lemma gems_U : forall t p, let x := fm t p in mU x = mH x - 10 * cal * p * mV x /\ mA x = mU x - t * mS x.
Proof. intros t p x. unfold x, fm, hkf_gems. cbn [mS mU mH mV mA]. split; lra. Qed.
End HKF.
