(** Proofs about CgModel, second part: the seed grid, the fugacity coefficient, the residual functions, the hard-sphere diameter and the remembered calls. *)
From Coq Require Import List Bool ZArith Reals Lra Lia.
From Coquelicot Require Import Coquelicot.
From Verif Require Import CgModel RDeriv CgPf.
Import ListNotations.
Open Scope R_scope.

(** *** the seeds *)
Lemma first_above_cases : forall pr P l before,
  (forall r, In r l -> exists q, pr r = Some q) ->
  match first_above pr P l before with
  | None => forall r q, In r l -> pr r = Some q -> q <= P
  | Some (bf, (r1, p1)) => exists q1, In r1 l /\ p1 = Some q1 /\ pr r1 = Some q1 /\ P < q1
      /\ ((bf = before /\ exists l', l = r1 :: l') \/ exists r0 q0, bf = Some (r0, Some q0) /\ In r0 l /\ pr r0 = Some q0 /\ q0 <= P)
  end.
Proof.
  intros pr P l. induction l as [|r l IH]; intros before H; cbn [first_above].
  - intros r q [].
  - destruct (H r (or_introl eq_refl)) as [q Hq]. rewrite Hq. destruct (Rlt_dec P q) as [L|L].
    + exists q. repeat split; try assumption; [now left|]. left. split; [reflexivity|now exists l].
    + specialize (IH (Some (r, Some q)) (fun x Hx => H x (or_intror Hx))). destruct (first_above pr P l (Some (r, Some q))) as [[bf [r1 p1]]|].
      * destruct IH as [q1 [A [B [C [D E]]]]]. exists q1. repeat split; try assumption; [now right|]. right.
        destruct E as [[E _]|[r0 [q0 [E1 [E2 [E3 E4]]]]]]; [exists r, q; repeat split; [exact E|now left|exact Hq|lra]|exists r0, q0; repeat split; try assumption; now right].
      * intros r' q' [E|E] Hq'; [subst r'; rewrite Hq in Hq'; injection Hq' as <-; lra|now apply (IH r')].
Qed.
Definition seeds : list R := grid1 ++ grid2.
Definition rolast : R := ROMIN + INR 14 * ((0.9 - ROMIN) / 14).
Lemma rolast_in : In rolast grid1.
Proof. unfold rolast, grid1. do 2 right. apply (in_map (fun i => ROMIN + INR i * ((0.9 - ROMIN) / 14))). apply in_seq. lia. Qed.
Lemma rolast_last : forall pr P q l before, grid1 = l -> first_above pr P l before = None -> pr rolast = Some q -> q <= P.
Proof.
  intros pr P q l before E. assert (I : In rolast l) by (rewrite <- E; exact rolast_in). clear E. revert before I. induction l as [|r l IH]; intros before I H Hq; [destruct I|].
  cbn [first_above] in H. destruct I as [->|I].
  - rewrite Hq in H. destruct (Rlt_dec P q); [discriminate H|lra].
  - destruct (pr r) as [q'|]; [destruct (Rlt_dec P q'); [discriminate H|]|]; eapply IH; eassumption.
Qed.
(** every outcome of the search over an isotherm that is finite at the seeds *)
Lemma rototal_ok : forall pr P, (forall r, In r seeds -> exists q, pr r = Some q /\ Rabs (q - P) < 10000000) ->
  match rototal pr P with
  | Ideal => exists q, pr (1 / 100) = Some q /\ P < q
  | TooHigh => forall r q, In r seeds -> pr r = Some q -> q <= P
  | At r => exists p, pr r = Some p /\ Rabs (p - P) < 1 / 100000
  | Line r => exists a b lo hi, In a seeds /\ In b seeds /\ pr a = Some lo /\ pr b = Some hi /\ lo <= P /\ P < hi /\ exists a' b', chord pr P lo hi r a' b'
  | NoNumber => False
  end.
Proof.
  intros pr P H. unfold rototal.
  assert (H1 : forall r, In r grid1 -> exists q, pr r = Some q). { intros r I. destruct (H r) as [q [Hq _]]; [apply in_or_app; now left|now exists q]. }
  assert (H2 : forall r, In r grid2 -> exists q, pr r = Some q). { intros r I. destruct (H r) as [q [Hq _]]; [apply in_or_app; now right|now exists q]. }
  assert (W : forall r q, In r seeds -> pr r = Some q -> Rabs (q - P) < 10000000). { intros r q I Hq. destruct (H r I) as [q' [Hq' L]]. rewrite Hq in Hq'. injection Hq' as <-. exact L. }
  assert (S0 : forall a b lo hi, In a seeds -> In b seeds -> pr a = Some lo -> pr b = Some hi -> lo <= P -> P < hi ->
     match search pr P 20 a b (Some lo) (Some hi) 0 0 with
     | Ideal => exists q, pr (1 / 100) = Some q /\ P < q
     | TooHigh => forall r q, In r seeds -> pr r = Some q -> q <= P
     | At r => exists p, pr r = Some p /\ Rabs (p - P) < 1 / 100000
     | Line r => exists a b lo hi, In a seeds /\ In b seeds /\ pr a = Some lo /\ pr b = Some hi /\ lo <= P /\ P < hi /\ exists a' b', chord pr P lo hi r a' b'
     | NoNumber => False
     end).
  { intros a b lo hi Ia Ib Ha Hb L1 L2. assert (Wa := W a lo Ia Ha). assert (Wb := W b hi Ib Hb). apply Rabs_def2 in Wa. apply Rabs_def2 in Wb.
    assert (A : answer pr P lo hi (search pr P 20 a b (Some lo) (Some hi) 0 0)).
    { apply search_ok; try assumption; try lra. destruct L1 as [L1|L1]; [now left|right; split; [exact L1|discriminate]]. }
    destruct (search pr P 20 a b (Some lo) (Some hi) 0 0) as [|r|r| |]; cbn [answer] in A; try now destruct A.
    - exact A.
    - exists a, b, lo, hi. now repeat split. }
  assert (C := first_above_cases pr P grid1 None H1). assert (L := rolast_last pr P). destruct (first_above pr P grid1 None) as [[bf [r1 p1]]|] eqn:E1.
  - destruct C as [q1 [I1 [Ep [Hq1 [L1 C]]]]]. destruct C as [[Eb [l' El]]|[r0 [q0 [Eb [I0 [Hq0 L0]]]]]]; rewrite Eb.
    + exists q1. split; [|exact L1]. injection El as El _. unfold ROMIN in El. now rewrite El.
    + rewrite Ep. apply S0; try assumption; apply in_or_app; now left.
  - fold rolast. destruct (H1 rolast rolast_in) as [ql Hl]. rewrite Hl. specialize (L ql grid1 None eq_refl E1 Hl).
    assert (C2 := first_above_cases pr P grid2 (Some (rolast, Some ql)) H2). destruct (first_above pr P grid2 (Some (rolast, Some ql))) as [[bf [r1 p1]]|].
    + destruct C2 as [q1 [I1 [Ep [Hq1 [L1 C2]]]]]. destruct C2 as [[Eb _]|[r0 [q0 [Eb [I0 [Hq0 L0]]]]]]; rewrite Eb, Ep.
      * apply S0; try assumption; apply in_or_app; [left; exact rolast_in|now right].
      * apply S0; try assumption; apply in_or_app; now right.
    + intros r q I Hq. apply in_app_or in I. destruct I as [I|I]; [now apply (C r)|now apply (C2 r)].
Qed.

(** *** the fugacity coefficient *)
Lemma cR_pos : 0 < cR. Proof. unfold cR. lra. Qed.
Lemma fug_ok : forall F s Pbar T g, 0 < Pbar -> 0 < T -> CGFugacity F s Pbar T = CgOk g ->
  0 < g_ro g /\ g_vol g = 0.1 / g_ro g /\ ROTOTAL F T s (Pbar / 10) = Some (g_ro g)
  /\ exists F0, F (g_ro g) = Some F0 /\ let Z := (Pbar / 10) / (cR * T * g_ro g) in
     (F0 < 100 -> ln (g_fug g / Pbar) = F0 + Z - 1 - ln Z) /\ (100 <= F0 -> g_fug g = 0).
Proof.
  intros F s Pbar T g HP HT. unfold CGFugacity. destruct (ROTOTAL F T s (Pbar / 10)) as [ro|]; [|discriminate]. destruct (Rlt_dec ro 0) as [L|L]; [discriminate|].
  destruct (Rle_dec (cR * T * ro / 0.1) 0) as [L2|L2]; [discriminate|]. destruct (F ro) as [F0|] eqn:EF; [|discriminate]. intros E. injection E as <-. cbn [g_ro g_vol g_fug].
  assert (Hr : 0 < ro). { assert (Q := cR_pos). destruct (Rle_lt_or_eq_dec 0 ro) as [A|A]; [lra|exact A|]. exfalso. apply L2. subst ro. lra. }
  assert (Q := cR_pos). assert (K : 0 < cR * T * ro) by (apply Rmult_lt_0_compat; [apply Rmult_lt_0_compat|]; assumption).
  split; [exact Hr|]. split; [reflexivity|]. split; [reflexivity|]. exists F0. split; [exact EF|].
  assert (X : (F0 * (1 + 1 * cDELTA) - F0) / (1 * cDELTA) = F0) by (unfold cDELTA; field). rewrite X. cbv zeta. split; intros HF.
  - rewrite (ltb_t _ _ HF). assert (HZ : 0 < Pbar / 10 / (cR * T * ro)) by (apply Rdiv_lt_0_compat; lra).
    assert (LZ : ln (Pbar / 10 / (cR * T * ro)) = ln Pbar - ln 10 - ln (cR * T * ro)) by (rewrite (Rcomplements.ln_div (Pbar / 10)) by (assumption || lra); rewrite Rcomplements.ln_div by (assumption || lra); reflexivity).
    assert (LI : ln (cR * T * ro / 0.1) = ln 10 + ln (cR * T * ro)) by (replace (cR * T * ro / 0.1) with (10 * (cR * T * ro)) by lra; apply ln_mult; [lra|exact K]).
    rewrite Rcomplements.ln_div; [|apply exp_pos|exact HP]. rewrite ln_exp, LZ, LI. ring.
  - now rewrite (ltb_f _ _ HF).
Qed.
(** that is the fugacity coefficient of thermodynamics: along an isotherm RT d ln f = dP / density, for every smooth F *)
Lemma fug_gd : forall (F F1 F2 : R -> R) (RT ro : R), 0 < RT -> 0 < ro ->
  (forall r, 0 < r -> is_derive F r (F1 r)) -> (forall r, 0 < r -> is_derive F1 r (F2 r)) ->
  exists dP dG : R, is_derive (fun r : R => RT * r * (1 + r * F1 r)) ro dP
   /\ is_derive (fun r : R => let Z := 1 + r * F1 r in RT * (F r + Z - 1 + ln (RT * r))) ro dG /\ dG = dP / ro.
Proof.
  intros F F1 F2 RT ro HR Hr H1 H2.
  assert (D0 : is_derive (fun r : R => 1 + r * F1 r) ro (F1 ro + ro * F2 ro)).
  { eapply d_eq. { apply d_plus; [apply d_const|]. apply d_mult; [apply d_id|apply H2; exact Hr]. } cbv beta. ring. }
  exists (RT * (1 + ro * F1 ro) + RT * ro * (F1 ro + ro * F2 ro)), (RT * (F1 ro + (F1 ro + ro * F2 ro) + RT / (RT * ro))). split; [|split].
  - eapply d_eq. { apply (d_mult (fun r => RT * r) (fun r => 1 + r * F1 r)); [eapply d_eq; [apply d_scal; apply d_id|reflexivity]|exact D0]. } cbv beta. ring.
  - apply d_scal. cbv zeta.
    eapply d_eq. { apply (d_plus (fun r => F r + (1 + r * F1 r) - 1) (fun r => ln (RT * r))); [apply (d_minus (fun r => F r + (1 + r * F1 r)) (fun _ => 1)); [apply d_plus; [apply H1; exact Hr|exact D0]|apply d_const]|].
      apply (d_ln (fun r => RT * r)); [eapply d_eq; [apply d_scal; apply d_id|reflexivity]|]. apply Rmult_lt_0_compat; assumption. } cbv beta. field. lra.
  - field. lra.
Qed.

(** *** the residual functions *)
Lemma res_H : forall T F0 F1 Fr, cg_H T F0 F1 (1 + (Fr - F0) / cDELTA) = cR_CONST * T * (1 + ((Fr - F0) / cDELTA - (F1 - F0) / cDELTA)).
Proof. intros. unfold cg_H, cg_S. unfold cDELTA. field. Qed.
Lemma taylor1 : forall (f f1 f2 : R -> R) (x h M : R), 0 < h ->
  (forall t, x <= t <= x + h -> is_derive f t (f1 t) /\ is_derive f1 t (f2 t) /\ Rabs (f2 t) <= M) ->
  Rabs ((f (x + h) - f x) / h - f1 x) <= M * h.
Proof.
  intros f f1 f2 x h M Hh H.
  destruct (MVT_gen f x (x + h) f1) as [c [C1 C2]].
  { intros t Ht. rewrite Rmin_left, Rmax_right in Ht by lra. apply H. lra. }
  { intros t Ht. rewrite Rmin_left, Rmax_right in Ht by lra. apply continuity_pt_filterlim. apply (ex_derive_continuous f). exists (f1 t). apply H. lra. }
  rewrite Rmin_left, Rmax_right in C1 by lra.
  destruct (MVT_gen f1 x c f2) as [d [D1 D2]].
  { intros t Ht. rewrite Rmin_left, Rmax_right in Ht by lra. apply H. lra. }
  { intros t Ht. rewrite Rmin_left, Rmax_right in Ht by lra. apply continuity_pt_filterlim. apply (ex_derive_continuous f1). exists (f2 t). apply H. lra. }
  rewrite Rmin_left, Rmax_right in D1 by lra.
  replace ((f (x + h) - f x) / h - f1 x) with (f2 d * (c - x)). 2:{ rewrite C2. replace (f1 c * (x + h - x) / h) with (f1 c) by (field; lra). lra. }
  rewrite Rabs_mult. assert (B : Rabs (f2 d) <= M) by (apply H; lra). rewrite (Rabs_pos_eq (c - x)) by lra.
  apply Rmult_le_compat; [apply Rabs_pos|lra|exact B|lra].
Qed.
(** the enthalpy is RT above the departure enthalpy RT (rho f_rho - T f_T), up to the error of the two difference quotients *)
Lemma res_H_wrong : forall (f fT fTT : R -> R) (g g1 g2 : R -> R) (T ro M : R), 0 < T -> 0 < ro -> f T = g ro ->
  (forall t, T <= t <= T + T * cDELTA -> is_derive f t (fT t) /\ is_derive fT t (fTT t) /\ Rabs (fTT t) <= M / T ^ 2) ->
  (forall t, ro <= t <= ro + ro * cDELTA -> is_derive g t (g1 t) /\ is_derive g1 t (g2 t) /\ Rabs (g2 t) <= M / ro ^ 2) ->
  Rabs (cg_H T (f T) (f (T + T * cDELTA)) (1 + (g (ro * (1 + cDELTA)) - g ro) / cDELTA) - (cR_CONST * T * (ro * g1 ro - T * fT T) + cR_CONST * T)) <= cR_CONST * T * (2 * M * cDELTA).
Proof.
  intros f fT fTT g g1 g2 T ro M HT Hr E H1 H2. assert (Dp : 0 < cDELTA) by (unfold cDELTA; lra). assert (HR : 0 < cR_CONST) by (unfold cR_CONST; lra).
  assert (A := taylor1 f fT fTT T (T * cDELTA) (M / T ^ 2) ltac:(nra) H1). assert (B := taylor1 g g1 g2 ro (ro * cDELTA) (M / ro ^ 2) ltac:(nra) H2).
  rewrite <- E. rewrite res_H. rewrite E. replace (ro * (1 + cDELTA)) with (ro + ro * cDELTA) by ring.
  set (a := (f (T + T * cDELTA) - f T) / (T * cDELTA) - fT T) in *. set (b := (g (ro + ro * cDELTA) - g ro) / (ro * cDELTA) - g1 ro) in *.
  replace (cR_CONST * T * (1 + ((g (ro + ro * cDELTA) - g ro) / cDELTA - (f (T + T * cDELTA) - g ro) / cDELTA)) - (cR_CONST * T * (ro * g1 ro - T * fT T) + cR_CONST * T))
    with (cR_CONST * T * (ro * b - T * a)).
  2:{ unfold a, b. rewrite <- E. field. repeat split; lra. }
  rewrite Rabs_mult, (Rabs_pos_eq (cR_CONST * T)) by nra. apply Rmult_le_compat_l; [nra|].
  assert (A2 : Rabs (T * a) <= M * cDELTA). { rewrite Rabs_mult, (Rabs_pos_eq T) by lra. replace (M * cDELTA) with (T * (M / T ^ 2 * (T * cDELTA))) by (field; lra). apply Rmult_le_compat_l; [lra|exact A]. }
  assert (B2 : Rabs (ro * b) <= M * cDELTA). { rewrite Rabs_mult, (Rabs_pos_eq ro) by lra. replace (M * cDELTA) with (ro * (M / ro ^ 2 * (ro * cDELTA))) by (field; lra). apply Rmult_le_compat_l; [lra|exact B]. }
  apply Rabs_le. apply Rabs_le_between in A2. apply Rabs_le_between in B2. lra.
Qed.
(** H - T S against RT ln phi *)
Lemma res_G : forall T F0 F1 Z lnphi, lnphi = F0 + Z - 1 - ln Z -> cg_H T F0 F1 Z - T * cg_S F0 F1 - cR_CONST * T * lnphi = cR_CONST * T * (1 + ln Z).
Proof. intros T F0 F1 Z l ->. unfold cg_H. ring. Qed.

(** *** the diameter of the hard spheres *)
Lemma hs_derive : forall dB dbdl r d, is_derive (hs_F0 dB dbdl r) d (hs_F1 dB dbdl r d).
Proof. intros dB dbdl r d. unfold hs_F0, hs_F1. generalize (hs_a3 dB dbdl r) (hs_a4 r) (hs_a6 dB dbdl r) (hs_a7 r) (hs_a9 dbdl r) (hs_a12 dbdl r). intros a3 a4 a6 a7 a9 a12. auto_derive; [exact I|]. ring. Qed.
Lemma hs_loop_ok : forall n dB dbdl r d0, let d := hs_loop n dB dbdl r d0 in
  d = dB \/ exists d', hs_F1 dB dbdl r d' <> 0 /\ d = d' - hs_F0 dB dbdl r d' / hs_F1 dB dbdl r d' /\ Rabs (d - d') < 1 / 10000000.
Proof.
  intros n dB dbdl r. induction n as [|n IH]; intros d0; cbn [hs_loop]; [now left|]. unfold odiv. destruct (Req_EM_T (hs_F1 dB dbdl r d0) 0) as [E|E]; [now left|].
  destruct (ltb (Rabs (d0 - hs_F0 dB dbdl r d0 / hs_F1 dB dbdl r d0 - d0)) (1 / 10000000)) eqn:L; [|apply IH].
  right. exists d0. split; [exact E|]. split; [reflexivity|now apply ltb_yes].
Qed.
Lemma hs_zero : forall n dB dbdl d, hs_loop (S (S n)) dB dbdl 0 d = dB + dbdl.
Proof.
  intros n dB dbdl d. assert (S1 : forall x, odiv (hs_F0 dB dbdl 0 x) (hs_F1 dB dbdl 0 x) = Some (x - (dB + dbdl))).
  { intros x. assert (E1 : hs_F1 dB dbdl 0 x = -1) by (unfold hs_F1, hs_a3, hs_a4, hs_a6, hs_a7, hs_a9, hs_a12; ring).
    assert (E0 : hs_F0 dB dbdl 0 x = dB + dbdl - x) by (unfold hs_F0, hs_a3, hs_a4, hs_a6, hs_a7, hs_a9, hs_a12; ring). rewrite E1, E0, odiv_some by lra. f_equal. field. }
  cbn [hs_loop]. rewrite S1. cbv zeta. replace (d - (d - (dB + dbdl))) with (dB + dbdl) by ring. destruct (ltb (Rabs (dB + dbdl - d)) (1 / 10000000)); [reflexivity|].
  rewrite S1. cbv zeta. replace (dB + dbdl - (dB + dbdl - (dB + dbdl))) with (dB + dbdl) by ring. rewrite ltb_t; [reflexivity|]. replace (dB + dbdl - (dB + dbdl)) with 0 by ring. rewrite Rabs_R0. lra.
Qed.
Lemma dHS_zero : forall beta, dHS beta 0 = hs_dB beta * (1 + hs_delta beta).
Proof. intros beta. unfold dHS. cbv zeta. rewrite Rmult_0_r, hs_zero. ring. Qed.
Lemma hs_dB_pos : forall beta, 0 < beta -> 0 < hs_dB beta.
Proof.
  intros beta Hb. unfold hs_dB. apply Rdiv_lt_0_compat; [|nra].
  set (u := exp (1 / 12 * ln beta)). set (v := exp (7 / 12 * ln beta)). assert (Hu : 0 < u) by apply exp_pos. assert (Hv : 0 < v) by apply exp_pos.
  assert (K : v <= u \/ v <= beta).
  { destruct (Rle_dec (ln beta) 0) as [L|L].
    - left. unfold u, v. destruct (Req_dec (ln beta) 0) as [E|E]; [rewrite E; right; f_equal; ring|]. left. apply exp_increasing. lra.
    - right. unfold v. rewrite <- (exp_ln beta) at 2 by exact Hb. left. apply exp_increasing. lra. }
  assert (Q : cP1 * u + cP2 * v + cP3 * beta > 0). { unfold cP1, cP2, cP3. destruct K; lra. }
  assert (Q2 : (cP3 + (cP4 + cP5 * beta) * beta) * beta > cP3 * beta). { unfold cP4, cP5. assert (0 < beta * beta) by nra. assert (0 < beta * beta * beta) by nra. nra. }
  lra.
Qed.
Lemma hs_delta_pos : forall beta, 0 <= hs_delta beta.
Proof.
  intros beta. unfold hs_delta. cbv zeta. assert (T := sqrt_pos beta). set (t := sqrt beta) in *. apply Rcomplements.Rdiv_le_0_compat.
  - unfold cP6, cP7. nra.
  - unfold cP8, cP9, cP10. assert (0 <= t * t) by nra. assert (0 <= t * t * t) by nra. nra.
Qed.
Lemma FWCA_zero : forall T, 0 < T -> FWCA T 0 = Some 0.
Proof.
  intros T HT. unfold FWCA. destruct (Rle_dec T 0) as [L|L]; [lra|]. cbv zeta. set (d := dHS (1 / T) 0).
  assert (Hb : 0 < 1 / T) by (apply Rdiv_lt_0_compat; lra).
  assert (Hd : 0 < d). { unfold d. rewrite dHS_zero. apply Rmult_lt_0_compat; [now apply hs_dB_pos|]. assert (Q := hs_delta_pos (1 / T)). lra. }
  rewrite Rmult_0_r. replace (1 - 0 / 16) with 1 by field. destruct (Rle_dec 1 0) as [Q|Q]; [lra|]. rewrite Rmult_0_l. destruct (Req_EM_T 0 1) as [Q2|Q2]; [lra|].
  unfold fI_6, fI_12. rewrite !odiv_some by (rewrite ?ln_1, ?Rmult_0_r, ?exp_0; lra). cbn [obind]. f_equal. unfold RPA, fi1, fi2. field.
  assert (E3 := exp_pos (1 / 3 * ln 1)). repeat split; try lra. unfold cPI. lra.
Qed.

(** *** the remembered calls *)
Lemma memo_ok : forall (f : R -> R -> option R) (l : list (R * R)), (forall a, In a l -> a <> (0, 0)) -> memo_run f memo0 l = map (fun a => f (fst a) (snd a)) l.
Proof.
  intros f l H. assert (G : forall m, (m_T m = 0 /\ m_ro m = 0 \/ m_val m = f (m_T m) (m_ro m)) -> memo_run f m l = map (fun a => f (fst a) (snd a)) l).
  { induction l as [|[x y] l IH]; intros m Hm; [reflexivity|]. cbn [memo_run map fst snd].
    assert (Hl : forall a, In a l -> a <> (0, 0)) by (intros a I; apply H; now right). assert (H0 : (x, y) <> (0, 0)) by (apply H; now left).
    unfold memo_call. cbn [fst snd].
    destruct (Req_EM_T x (m_T m)) as [Ex|Ex]; [destruct (Req_EM_T y (m_ro m)) as [Ey|Ey]|].
    - destruct Hm as [[A B]|Hm]; [exfalso; apply H0; congruence|]. rewrite (IH Hl m (or_intror Hm)), Hm, Ex, Ey. reflexivity.
    - rewrite (IH Hl); [reflexivity|]. now right.
    - rewrite (IH Hl); [reflexivity|]. now right. }
  apply G. now left.
Qed.
