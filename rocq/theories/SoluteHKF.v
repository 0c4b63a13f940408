(** The HKF models fed by the g function, and what is wrong with the reported volume and internal energy. *)
From Coq Require Import List Bool Reals Lra Lia.
From Coquelicot Require Import Coquelicot.
From Verif Require Import RDeriv MineralModel MineralSpec GasMore GasPhase SoluteModel SoluteSpec SoluteProofs SoluteG SoluteG2 SoluteO.
Open Scope R_scope.

Definition hkf_prop (code : hkf -> R -> R -> elec -> born -> mprop) : Prop := code = hkf_reak \/ code = hkf_gems.

Section Any.
Context (code : hkf -> R -> R -> elec -> born -> mprop) (Hcode : hkf_prop code) (h : hkf) (e : R -> R -> elec) (b : R -> R -> born) (T P : R).
Hypothesis HT : theta < T.
Hypothesis HP : 0 < psi + P.
Hypothesis He : omega_ok e T P.
Hypothesis Hb : born_ok b T P.
Let f := fun t p => code h t p (e t p) (b t p).
Lemma any_cons : cons_S f T P /\ cons_C f T P /\ is_derive (fun t : R => mH (f t P)) T (mCp (f T P)) /\ is_derive (fun p : R => mG (f T p)) P (mV (f T P) / vfac).
Proof.
  unfold f. destruct Hcode as [E|E]; rewrite E; split; [|split; [|split]| |split; [|split]].
  - now apply reak_S. - now apply reak_C. - now apply reak_H. - now apply reak_V.
  - now apply gems_S. - now apply gems_C. - now apply gems_H. - now apply gems_V.
Qed.
Lemma any_V : cons_V f T P <-> mV (f T P) = 0.
Proof.
  destruct any_cons as (_ & _ & _ & D). split.
  - intros C. assert (E := d_unique _ _ _ _ C D). unfold vfac in E. lra.
  - intros E. unfold cons_V. rewrite E in *. eapply d_eq; [exact D|]. unfold Rdiv. ring.
Qed.
End Any.
Lemma any_gap : forall code h e b T P, hkf_prop code -> theta < T -> let x := code h T P e b in mG x - (mH x - T * mS x) = hG h - (hH h - Tr * hS h).
Proof. intros code h e b T P [E|E] HT; rewrite E; [apply (reak_gap h (fun _ _ => e) (fun _ _ => b) T P HT)|apply (gems_gap h (fun _ _ => e) (fun _ _ => b) T P HT)]. Qed.
Lemma any_U : forall code h e b T P, hkf_prop code -> let x := code h T P e b in (mU x = mH x - P * mV x <-> P * mV x = 0) /\ mA x = mU x - T * mS x.
Proof.
  intros code h e b T P Hc x. assert (A : mU x = mH x - 10 * cal * P * mV x /\ mA x = mU x - T * mS x). { destruct Hc as [E|E]; unfold x; rewrite E; [apply (reak_U h (fun _ _ => e) (fun _ _ => b) T P)|apply (gems_U h (fun _ _ => e) (fun _ _ => b) T P)]. }
  destruct A as [A B]. split; [|exact B]. rewrite A. unfold cal. split; intros; nra.
Qed.
(** the reference point *)
Lemma reak_ref : forall h e b, o_w e = wr h -> o_T e = 0 -> bZ b = Zr1 -> bY b = Yr1 -> let x := hkf_reak h Tr Pr e b in mG x = hG h /\ mH x = hH h /\ mS x = hS h.
Proof.
  intros h e b E1 E2 E3 E4 x. assert (A1 := th_pos). assert (A2 := tr_pos). assert (A3 := trp). assert (A4 := cal_pos). assert (A5 := pref_pos).
  assert (HT : theta < Tr) by (unfold theta, Tr; lra). unfold x, hkf_reak. cbn [mG mH mS]. rewrite (lnT_e Tr A3), (lnU_e Tr HT). unfold lnT, lnU, logP. rewrite E1, E2, E3, E4.
  replace ((psi + Pr) / (psi + Pr)) with 1 by (field; lra). rewrite ln_1. repeat split; field; lra.
Qed.
Lemma gems_ref : forall h e b, o_w e = wr h -> o_T e = 0 -> bZ b = Zr2 -> bY b = Yr2 -> let x := hkf_gems h Tr Pr e b in mG x = hG h /\ mH x = hH h /\ mS x = hS h.
Proof.
  intros h e b E1 E2 E3 E4 x. assert (A1 := th_pos). assert (A2 := tr_pos). assert (A3 := trp). assert (A4 := cal_pos). assert (A5 := pref_pos).
  assert (HT : theta < Tr) by (unfold theta, Tr; lra). unfold x, hkf_gems. cbn [mG mH mS]. rewrite (lnT_e Tr A3), (lnU_e2 Tr HT), (lnU_e3 Tr HT). unfold lnT, lnU, logP. rewrite E1, E2, E3, E4.
  replace ((psi + Pr) / (psi + Pr)) with 1 by (field; lra). rewrite ln_1. repeat split; field; lra.
Qed.
(** the two codes differ, with the same inputs, by the two sets of Born reference values only *)
Lemma codes_differ : forall h e b T P, theta < T -> let x := hkf_reak h T P e b in let y := hkf_gems h T P e b in
  mG x - mG y = wr h * ((Zr1 - Zr2) + (Yr1 - Yr2) * (T - Tr)) * cal /\ mS x - mS y = - (wr h * (Yr1 - Yr2) * cal) /\ mV x = mV y /\ mCp x = mCp y.
Proof.
  intros h e b T P HT x y. assert (A1 := th_pos). assert (A2 := tr_pos). assert (A3 := trp). assert (A4 := cal_pos). assert (A8 : 0 < T) by lra. unfold x, y, hkf_reak, hkf_gems. cbn [mG mH mS mV mCp].
  rewrite (lnT_e T A8), (lnU_e T HT), (lnU_e2 T HT), (lnU_e3 T HT). assert (B := th_pos). assert (0 < psi + P \/ psi + P = 0 \/ psi + P < 0) as HP by lra. repeat split.
  - field. repeat split; lra.
  - field. repeat split; lra.
  - unfold Rdiv. destruct HP as [HP|[HP|HP]]; ring.
  - ring.
Qed.
(** the whole chain from the water functions *)
Lemma chain : forall h z hp w b T P, theta < T -> 0 < psi + P -> water_ok w T P -> born_ok b T P -> 0 < d_ (w T P) < 1000 -> d_T (w T P) <> 0 -> d_P (w T P) <> 0 ->
  re_ref z (wr h) + Rabs z * g_ (gval w T P) <> 0 -> rH + g_ (gval w T P) <> 0 ->
  let f := fun t p => hkf_reak h t p (omega_reak z hp (wr h) (gval w t p)) (b t p) in
  cons_S f T P /\ cons_C f T P /\ is_derive (fun t : R => mH (f t P)) T (mCp (f T P)) /\ is_derive (fun p : R => mG (f T p)) P (mV (f T P) / vfac).
Proof.
  intros h z hp w b T P HT HP Hw Hb Hd H1 H2 H3 H4 f. destruct (functionG_ok w T P Hw Hd H1 H2) as (_ & _ & G & _).
  apply (any_cons hkf_reak (or_introl eq_refl) h (fun t p => omega_reak z hp (wr h) (gval w t p)) b T P HT HP); [|exact Hb].
  destruct hp; [apply omega_const; now right|]. destruct (Req_dec z 0) as [E|E]; [apply omega_const; now left|]. now apply omega_T.
Qed.
