(** Results about whole calls of CgModel, and the concrete fluids used as cases. *)
From Coq Require Import List Bool ZArith Reals Lra Lia.
From Coquelicot Require Import Coquelicot.
From Verif Require Import CgModel RDeriv CgPf CgPf2.
Import ListNotations.
Open Scope R_scope.

(** *** whole calls *)
Lemma gasCGF_undefined : forall critical Tlow TK Pbar, gasCGF critical Tlow TK Pbar = CgUndefined.
Proof.
  intros c Tlow TK Pbar. unfold gasCGF. cbv zeta. destruct (Nat.ltb (length c) 7); [reflexivity|]. unfold CGcalcFugPure.
  assert (L : Nat.ltb (length (firstn 7 c)) 12 = true) by (apply Nat.ltb_lt; assert (H := firstn_le_length 7 c); lia). now rewrite L.
Qed.
Definition in_range (Tmin T Pbar : R) : Prop := Tmin <= T < 10000 /\ 1 / 100000 <= Pbar < 100000.
Lemma range_yes : forall Tmin T Pbar, in_range Tmin T Pbar -> negb (ltb T Tmin) && ltb T 10000 && negb (ltb Pbar (1 / 100000)) && ltb Pbar 100000 = true.
Proof. intros Tmin T Pbar [[A B] [C D]]. now rewrite (ltb_f T Tmin), (ltb_t T 10000), (ltb_f Pbar (1 / 100000)), (ltb_t Pbar 100000). Qed.
Lemma range_no : forall Tmin T Pbar, ~ in_range Tmin T Pbar -> negb (ltb T Tmin) && ltb T 10000 && negb (ltb Pbar (1 / 100000)) && ltb Pbar 100000 = false.
Proof.
  intros Tmin T Pbar H. destruct (ltb T Tmin) eqn:A; [reflexivity|]. destruct (ltb T 10000) eqn:B; [|reflexivity]. destruct (ltb Pbar (1 / 100000)) eqn:C; [reflexivity|]. destruct (ltb Pbar 100000) eqn:D; [|reflexivity].
  exfalso. apply H. apply ltb_no in A. apply ltb_yes in B. apply ltb_no in C. apply ltb_yes in D. repeat split; assumption.
Qed.
Lemma calc_outside : forall c Tmin T Pbar, (12 <= length c)%nat -> ~ in_range Tmin T Pbar -> CGcalcFugPure c Tmin T Pbar = CgOk (mkCg 1 0 0 (8.31451 * T / Pbar)).
Proof.
  intros c Tmin T Pbar L H. unfold CGcalcFugPure. assert (E : Nat.ltb (length c) 12 = false) by (apply Nat.ltb_ge; exact L). rewrite E. unfold CGcalc. now rewrite (range_no _ _ _ H).
Qed.
Lemma calc_too_high : forall (F : R -> R -> option R) (s : R -> R) Tmin T Pbar, in_range Tmin T Pbar ->
  (forall r, In r seeds -> exists p, cg_pressure (F T) T (s T) r = Some p /\ p <= Pbar / 10 /\ Pbar / 10 - p < 10000000) -> CGcalc F s Tmin T Pbar = CgUndefined.
Proof.
  intros F s Tmin T Pbar HR H. unfold CGcalc. rewrite (range_yes _ _ _ HR). unfold CGFugacity, ROTOTAL.
  assert (B : rototal (cg_pressure (F T) T (s T)) (Pbar / 10) = TooHigh).
  { assert (N : forall r q, In r seeds -> cg_pressure (F T) T (s T) r = Some q -> q <= Pbar / 10) by (intros r q I Hq; destruct (H r I) as [p [Hp [L _]]]; congruence).
    assert (F1 : first_above (cg_pressure (F T) T (s T)) (Pbar / 10) grid1 None = None).
    { assert (C := first_above_cases (cg_pressure (F T) T (s T)) (Pbar / 10) grid1 None). destruct (first_above (cg_pressure (F T) T (s T)) (Pbar / 10) grid1 None) as [[bf [r1 p1]]|]; [exfalso|reflexivity].
      destruct C as [q [I [_ [Hq [L _]]]]]. { intros r I. destruct (H r) as [p [Hp _]]; [apply in_or_app; now left|now exists p]. } assert (Q := N r1 q (in_or_app _ _ _ (or_introl I)) Hq). lra. }
    unfold rototal. rewrite F1.
    set (bf0 := Some (ROMIN + INR 14 * ((0.9 - ROMIN) / 14), cg_pressure (F T) T (s T) (ROMIN + INR 14 * ((0.9 - ROMIN) / 14)))).
    assert (C := first_above_cases (cg_pressure (F T) T (s T)) (Pbar / 10) grid2 bf0). destruct (first_above (cg_pressure (F T) T (s T)) (Pbar / 10) grid2 bf0) as [[bf [r1 p1]]|]; [exfalso|reflexivity].
    destruct C as [q [I [_ [Hq [L _]]]]]. { intros r I. destruct (H r) as [p [Hp _]]; [apply in_or_app; now right|now exists p]. } assert (Q := N r1 q (in_or_app _ _ _ (or_intror I)) Hq). lra. }
  rewrite B. destruct (Rlt_dec (-1) 0) as [L|L]; [reflexivity|lra].
Qed.
(** what a result inside the range is made of: two densities, the second one that of the temperature T (1 + DELTA) *)
Lemma calc_inside : forall (F : R -> R -> option R) (s : R -> R) Tmin T Pbar g, in_range Tmin T Pbar -> 0 < T -> CGcalc F s Tmin T Pbar = CgOk g ->
  let T1 := T + T * cDELTA in
  exists ra rb Fa F0 F1 Fr, 0 < ra /\ 0 < rb /\ ROTOTAL (F T) T (s T) (Pbar / 10) = Some ra /\ ROTOTAL (F T1) T1 (s T1) (Pbar / 10) = Some rb
   /\ F T ra = Some Fa /\ F T rb = Some F0 /\ F T1 rb = Some F1 /\ F T (rb * (1 + cDELTA)) = Some Fr
   /\ cg_v g = 0.1 / ra
   /\ (let Z := Pbar / 10 / (cR * T * ra) in (Fa < 100 -> ln (cg_phi g) = Fa + Z - 1 - ln Z) /\ (100 <= Fa -> cg_phi g = 0))
   /\ cg_enth g = cR_CONST * T * (1 + ((Fr - F0) / cDELTA - (F1 - F0) / cDELTA))
   /\ cg_entr g = - cR_CONST * (F0 + (F1 - F0) / cDELTA).
Proof.
  intros F s Tmin T Pbar g HR HT H T1. assert (HP : 0 < Pbar) by (destruct HR as [_ [A _]]; lra). unfold CGcalc in H. rewrite (range_yes _ _ _ HR) in H. fold T1 in H.
  assert (HT1 : 0 < T1) by (unfold T1, cDELTA; lra).
  destruct (CGFugacity (F T) (s T) Pbar T) as [a| |] eqn:Ea; try discriminate H. destruct (CGFugacity (F T1) (s T1) Pbar T1) as [b| |] eqn:Eb; try discriminate H.
  destruct (fug_ok _ _ _ _ _ HP HT Ea) as [Ra [Va [Da [Fa [HFa Pa]]]]]. destruct (fug_ok _ _ _ _ _ HP HT1 Eb) as [Rb [_ [Db _]]].
  unfold ZTOTAL, obind in H. destruct (F T (g_ro b * (1 + cDELTA))) as [Fr|] eqn:E1; [|discriminate H]. destruct (F T (g_ro b)) as [F0|] eqn:E2; [|discriminate H]. destruct (F T1 (g_ro b)) as [F1|] eqn:E3; [|discriminate H].
  injection H as <-. cbn [cg_phi cg_enth cg_entr cg_v]. exists (g_ro a), (g_ro b), Fa, F0, F1, Fr. repeat split; try assumption.
  - cbv zeta in Pa |- *. destruct Pa as [P1 _]. exact P1.
  - cbv zeta in Pa. destruct Pa as [_ P2]. intros L. rewrite (P2 L). unfold Rdiv. ring.
  - apply res_H.
  - unfold cg_S. ring.
Qed.

(** *** the fluid without interactions, at a pressure below the first seed *)
Lemma flat_pressure : forall T s r, s <> 0 -> cg_pressure (fun _ => Some 0) T s r = Some (r * (cR * T * (1 / (s * cNA)))).
Proof. intros T s r Hs. unfold cg_pressure, ZTOTAL, obind. f_equal. unfold cDELTA. unfold cNA. field. lra. Qed.
Definition flat_s : R := 10 / cNA.
Lemma flat_p : forall T r, cg_pressure (fun _ => Some 0) T flat_s r = Some (r * (cR * T) / 10).
Proof. intros T r. rewrite flat_pressure by (unfold flat_s, cNA; lra). f_equal. unfold flat_s, cNA. field. lra. Qed.
Lemma flat_rho : forall T, 298 <= T -> ROTOTAL (fun _ => Some 0) T flat_s (1 / 10) = Some (1 / 10 / (cR * T)).
Proof.
  intros T HT. unfold ROTOTAL, rototal. assert (E : grid1 = ROMIN :: tl grid1) by reflexivity. rewrite E. cbn [first_above]. rewrite flat_p.
  destruct (Rlt_dec (1 / 10) (ROMIN * (cR * T) / 10)) as [L|L]; [|exfalso; unfold ROMIN, cR in L; lra]. apply odiv_some. unfold cR. lra.
Qed.
Lemma flat_fug : forall T, 298 <= T -> CGFugacity (fun _ => Some 0) flat_s 1 T = CgOk (mkFug 1 (0.1 / (1 / 10 / (cR * T))) (1 / 10 / (cR * T))).
Proof.
  intros T HT. unfold CGFugacity. rewrite flat_rho by exact HT. assert (K : 0 < cR * T) by (unfold cR; lra). assert (K2 : 0 < 1 / 10 / (cR * T)) by (apply Rdiv_lt_0_compat; lra).
  destruct (Rlt_dec (1 / 10 / (cR * T)) 0) as [L|L]; [lra|]. assert (E : cR * T * (1 / 10 / (cR * T)) / 0.1 = 1) by (set (k := cR * T) in *; replace (k * (1 / 10 / k)) with (1 / 10) by (field; lra); lra). rewrite E.
  destruct (Rle_dec 1 0) as [L2|L2]; [lra|]. cbv zeta. replace ((0 * (1 + 1 * cDELTA) - 0) / (1 * cDELTA)) with 0 by (unfold cDELTA; field). rewrite (ltb_t 0 100) by lra. rewrite ln_1.
  replace (1 / 10 / (cR * T * (1 / 10 / (cR * T))) - 1 + 0 + 0) with 0 by (set (k := cR * T) in *; field; lra). now rewrite exp_0.
Qed.
Lemma flat_calc : exists v, CGcalc (fun _ _ => Some 0) (fun _ => flat_s) 0 298.15 1 = CgOk (mkCg 1 (cR_CONST * 298.15) 0 v) /\ v = cR * 298.15.
Proof.
  unfold CGcalc. rewrite range_yes by (unfold in_range; lra). rewrite flat_fug by lra. rewrite flat_fug by (unfold cDELTA; lra). unfold ZTOTAL, obind. cbn [g_ro g_fug g_vol].
  exists (0.1 / (1 / 10 / (cR * 298.15))). split.
  - replace (1 / 1) with 1 by field. replace (cg_H 298.15 0 0 (1 + (0 - 0) / cDELTA)) with (cR_CONST * 298.15) by (unfold cg_H, cg_S, cDELTA; field).
    replace (cg_S 0 0) with 0 by (unfold cg_S, cDELTA; field). reflexivity.
  - assert (K : 0 < cR * 298.15) by (unfold cR; lra). set (k := cR * 298.15) in *. replace (1 / 10 / k) with (/ (10 * k)) by (field; lra). unfold Rdiv. rewrite Rinv_inv. lra.
Qed.

(** *** an isotherm with a jump *)
Definition jump (r : R) : option R := if Rlt_dec r (1 / 20) then Some 0 else Some 1.
Lemma jump_lo : forall r, r < 1 / 20 -> jump r = Some 0. Proof. intros r H. unfold jump. destruct (Rlt_dec r (1 / 20)); [reflexivity|contradiction]. Qed.
Lemma jump_hi : forall r, 1 / 20 <= r -> jump r = Some 1. Proof. intros r H. unfold jump. destruct (Rlt_dec r (1 / 20)); [lra|reflexivity]. Qed.
Lemma jump_stuck : forall n a b x1 x2, a < 1 / 20 -> 1 / 20 <= (a + b) / 2 -> 1 / 1000 <= b - a ->
  search jump (1 / 2) n a b (Some 0) (Some 1) x1 x2 = Line ((a + b) / 2).
Proof.
  assert (L0 : forall a b, a < b -> line (1 / 2) a b (Some 0) (Some 1) = Line ((a + b) / 2)).
  { intros a b H. unfold line, oquot, oop, obind. rewrite odiv_some by lra. rewrite odiv_some. 2:{ apply Rgt_not_eq. apply Rdiv_lt_0_compat; lra. } f_equal. field. lra. }
  induction n as [|n IH]; intros a b x1 x2 Ha Hm Hw; [apply L0; lra|]. cbn [search].
  assert (E0 : oquot (Some (b - a)) (oop Rminus (Some 1) (Some 0)) = Some (b - a)) by (unfold oquot, oop, obind; rewrite odiv_some by lra; f_equal; field). rewrite E0.
  assert (E2 : oop Rplus (Some a) (oop Rmult (Some (b - a)) (oop Rminus (Some (1 / 2)) (Some 0))) = Some ((a + b) / 2)) by (unfold oop, obind; f_equal; field). rewrite E2.
  change (opr jump (Some ((a + b) / 2))) with (jump ((a + b) / 2)). rewrite (jump_hi ((a + b) / 2) Hm).
  assert (N2 : near (Some 1) (1 / 2) (1 / 100000) = false) by (cbn; apply ltb_f; rewrite Rabs_pos_eq; lra). rewrite N2.
  assert (E3 : oquot (oop Rminus (Some ((a + b) / 2)) (Some b)) (oop Rminus (Some 1) (Some 1)) = None) by (unfold oquot, oop, obind; apply odiv_zero; lra). rewrite E3.
  cbn [oquot oop obind opr near].
  assert (C : choose [Some 0; Some 1; Some 1; None; None] (1 / 2) x1 x2 = (0%nat, 1%nat)).
  { unfold choose. cbn [choose_at]. destruct (Rlt_dec 0 (1 / 2 - 0)) as [A|A]; [|lra]. destruct (Rlt_dec (1 / 2 - 0) 10000000) as [B|B]; [|lra]. destruct (Rlt_dec 0 (1 / 2 - 1)) as [C|C]; [lra|].
    destruct (Rlt_dec (- 10000000) (1 / 2 - 1)) as [D|D]; [|lra]. destruct (Rlt_dec (1 / 2 - 1) (1 / 2 - 1)) as [E|E]; [lra|reflexivity]. }
  rewrite C. cbn [nth]. rewrite ltb_f by (rewrite Rabs_pos_eq; lra). now apply IH.
Qed.
Lemma jump_total : rototal jump (1 / 2) = Line ((2 * ROMIN + (ROMIN + INR 2 * ((0.9 - ROMIN) / 14))) / 2).
Proof.
  unfold rototal. assert (G : grid1 = ROMIN :: 2 * ROMIN :: (ROMIN + INR 2 * ((0.9 - ROMIN) / 14)) :: tl (tl (tl grid1))) by reflexivity. rewrite G. generalize (tl (tl (tl grid1))). clear G. intros l. cbn [first_above]. assert (I2 : INR 2 = 2) by (cbn; lra). rewrite (jump_lo ROMIN) by (unfold ROMIN; lra). destruct (Rlt_dec (1 / 2) 0) as [A|A]; [lra|].
  rewrite (jump_lo (2 * ROMIN)) by (unfold ROMIN; lra). destruct (Rlt_dec (1 / 2) 0) as [B|B]; [lra|].
  rewrite (jump_hi (ROMIN + INR 2 * ((0.9 - ROMIN) / 14))) by (rewrite I2; unfold ROMIN; lra). destruct (Rlt_dec (1 / 2) 1) as [C|C]; [|lra]. apply jump_stuck; rewrite ?I2; unfold ROMIN; lra.
Qed.
Lemma jump_far : exists r, rototal jump (1 / 2) = Line r /\ (forall x, Rabs (x - r) < 1 / 50 -> jump x = Some 1) /\ forall x, exists q, jump x = Some q /\ Rabs (q - 1 / 2) = 1 / 2.
Proof.
  eexists. split; [exact jump_total|]. assert (I2 : INR 2 = 2) by (cbn; lra). split.
  - intros x H. rewrite I2 in H. apply jump_hi. apply Rabs_def2 in H. unfold ROMIN in H. lra.
  - intros x. unfold jump. destruct (Rlt_dec x (1 / 20)); eexists; (split; [reflexivity|]); [rewrite Rabs_left; lra|rewrite Rabs_pos_eq; lra].
Qed.
Lemma linear_search : forall n P x y i j, y - x <> 0 -> search (fun r => Some r) P (S n) x y (Some x) (Some y) i j = At P.
Proof.
  intros n P x y i j X. cbn [search].
  assert (E0 : oquot (Some (y - x)) (oop Rminus (Some y) (Some x)) = Some 1) by (unfold oquot, oop, obind; rewrite odiv_some by exact X; f_equal; field; exact X). rewrite E0.
  assert (E2 : oop Rplus (Some x) (oop Rmult (Some 1) (oop Rminus (Some P) (Some x))) = Some P) by (unfold oop, obind; f_equal; ring). rewrite E2.
  change (opr (fun r => Some r) (Some P)) with (Some P). rewrite near_no by lra. reflexivity.
Qed.
Lemma linear_total : rototal (fun r => Some r) (3 / 200) = At (3 / 200).
Proof.
  unfold rototal. assert (G : grid1 = ROMIN :: 2 * ROMIN :: tl (tl grid1)) by reflexivity. rewrite G. generalize (tl (tl grid1)). clear G. intros l. cbn [first_above].
  destruct (Rlt_dec (3 / 200) ROMIN) as [A|A]; [exfalso; unfold ROMIN in A; lra|]. destruct (Rlt_dec (3 / 200) (2 * ROMIN)) as [B|B]; [|exfalso; unfold ROMIN in B; lra].
  apply linear_search. unfold ROMIN. lra.
Qed.
