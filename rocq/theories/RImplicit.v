(** The implicit function theorem for one equation F(t, r) = p. *)
From Coq Require Import Reals Lra Ranalysis5.
From Coquelicot Require Import Coquelicot.
From Verif Require Import RDeriv RDiff2.
Open Scope R_scope.

Section Ift.
Variable F a b : R -> R -> R.
Variable T r0 : R.
Variable del : posreal.
Hypothesis HF : forall t d, Rabs (t - T) < del -> Rabs (d - r0) < del -> diff2 F t d (a t d) (b t d).
Hypothesis Hb : forall t d, Rabs (t - T) < del -> Rabs (d - r0) < del -> 0 < b t d.
Let P := F T r0.
Let lo := r0 - del / 2.
Let hi := r0 + del / 2.
Lemma in_box : forall x, r0 - del < x < r0 + del -> Rabs (x - r0) < del.
Proof. intros x H. apply Rabs_def1; lra. Qed.
Lemma F_incr : forall t x y, Rabs (t - T) < del -> r0 - del < x -> x < y -> y < r0 + del -> F t x < F t y.
Proof.
  intros t x y Ht Hx Hxy Hy. apply (incr_function (fun v => F t v) (Finite (r0 - del)) (Finite (r0 + del)) (fun v => b t v)); cbn; try assumption.
  - intros v H1 H2. apply (e_2 F t v (a t v) (b t v)). apply HF; [exact Ht|apply in_box; lra].
  - intros v H1 H2. apply Hb; [exact Ht|apply in_box; lra].
Qed.
Lemma F_cont : forall t p x, Rabs (t - T) < del -> lo <= x <= hi -> continuity_pt (fun v => F t v - p) x.
Proof.
  intros t p x Ht Hx. unfold lo, hi in Hx. assert (dp := cond_pos del). apply continuity_pt_minus; [|apply continuity_pt_const; intros u v; reflexivity].
  apply derivable_continuous_pt. exists (b t x). apply is_derive_Reals. apply (e_2 F t x (a t x) (b t x)). apply HF; [exact Ht|apply in_box; lra].
Qed.
Lemma lo_hi : lo < hi. Proof. unfold lo, hi. assert (dp := cond_pos del). lra. Qed.
Definition root (t p : R) : R :=
  match Rlt_dec (Rabs (t - T)) del with
  | left Ht => match Rlt_dec (F t lo - p) 0 with
               | left H1 => match Rlt_dec 0 (F t hi - p) with
                            | left H2 => proj1_sig (IVT_interv (fun v => F t v - p) lo hi (fun x Hx => F_cont t p x Ht Hx) lo_hi H1 H2)
                            | right _ => r0 end
               | right _ => r0 end
  | right _ => r0 end.
Lemma root_ok : forall t p, Rabs (t - T) < del -> F t lo < p -> p < F t hi -> lo <= root t p <= hi /\ F t (root t p) = p.
Proof.
  intros t p Ht H1 H2. unfold root. destruct (Rlt_dec (Rabs (t - T)) del) as [Ht'|N]; [|contradiction]. destruct (Rlt_dec (F t lo - p) 0) as [H1'|N]; [|exfalso; lra]. destruct (Rlt_dec 0 (F t hi - p)) as [H2'|N]; [|exfalso; lra].
  match goal with |- context [proj1_sig ?s] => destruct s as [z [Hz Ez]] end. cbn. split; [exact Hz|lra].
Qed.
(** near T and P the values at x < r0 < y still enclose p *)
Lemma enclose : forall x y, r0 - del < x -> x < r0 -> r0 < y -> y < r0 + del -> locally_2d (fun t p => Rabs (t - T) < del /\ F t x < p /\ p < F t y) T P.
Proof.
  intros x y Hx Hx0 Hy0 Hy. assert (dp := cond_pos del). assert (TT : Rabs (T - T) < del) by (rewrite Rminus_eq_0, Rabs_R0; exact dp).
  assert (L1 := F_incr T x r0 TT Hx Hx0 ltac:(lra)). assert (L2 := F_incr T r0 y TT ltac:(lra) Hy0 Hy). fold P in L1, L2.
  assert (Cx := e_cont F T x _ _ (HF T x TT (in_box x ltac:(lra)))). assert (Cy := e_cont F T y _ _ (HF T y TT (in_box y ltac:(lra)))).
  assert (Px : 0 < (P - F T x) / 2) by lra. assert (Py : 0 < (F T y - P) / 2) by lra.
  destruct (Cx (mkposreal _ Px)) as [e1 He1]. destruct (Cy (mkposreal _ Py)) as [e2 He2]. cbn [pos] in He1, He2.
  assert (EP : 0 < Rmin (Rmin e1 e2) (Rmin del (Rmin ((P - F T x) / 2) ((F T y - P) / 2)))) by (repeat apply Rmin_pos; try assumption; apply cond_pos).
  exists (mkposreal _ EP). cbn [pos]. intros t p Ht Hp.
  assert (M1 := Rmin_l (Rmin e1 e2) (Rmin del (Rmin ((P - F T x) / 2) ((F T y - P) / 2)))). assert (M2 := Rmin_r (Rmin e1 e2) (Rmin del (Rmin ((P - F T x) / 2) ((F T y - P) / 2)))).
  assert (M3 := Rmin_l e1 e2). assert (M4 := Rmin_r e1 e2). assert (M5 := Rmin_l del (Rmin ((P - F T x) / 2) ((F T y - P) / 2))). assert (M6 := Rmin_r del (Rmin ((P - F T x) / 2) ((F T y - P) / 2))).
  assert (M7 := Rmin_l ((P - F T x) / 2) ((F T y - P) / 2)). assert (M8 := Rmin_r ((P - F T x) / 2) ((F T y - P) / 2)).
  assert (Q1 : Rabs (F t x - F T x) < (P - F T x) / 2) by (apply He1; [lra|rewrite Rminus_eq_0, Rabs_R0; apply cond_pos]).
  assert (Q2 : Rabs (F t y - F T y) < (F T y - P) / 2) by (apply He2; [lra|rewrite Rminus_eq_0, Rabs_R0; apply cond_pos]).
  assert (Q3 : Rabs (p - P) < (P - F T x) / 2) by lra. assert (Q4 : Rabs (p - P) < (F T y - P) / 2) by lra.
  apply Rabs_def2 in Q1. apply Rabs_def2 in Q2. apply Rabs_def2 in Q3. apply Rabs_def2 in Q4. split; [lra|split; lra].
Qed.
Lemma root_near : locally_2d (fun t p => F t (root t p) = p) T P.
Proof.
  assert (dp := cond_pos del). destruct (enclose lo hi) as [e He]; try (unfold lo, hi; lra). exists e. intros t p Ht Hp. destruct (He t p Ht Hp) as (H0 & H1 & H2). apply root_ok; assumption.
Qed.
Lemma root_at : root T P = r0.
Proof.
  assert (dp := cond_pos del). destruct (enclose lo hi) as [e He]; try (unfold lo, hi; lra).
  assert (Z1 : Rabs (T - T) < e) by (rewrite Rminus_eq_0, Rabs_R0; apply cond_pos). assert (Z2 : Rabs (P - P) < e) by (rewrite Rminus_eq_0, Rabs_R0; apply cond_pos).
  destruct (He T P Z1 Z2) as (H0 & H1 & H2). destruct (root_ok T P H0 H1 H2) as [B E]. unfold lo, hi in B.
  destruct (Rtotal_order (root T P) r0) as [L|[L|L]]; [|exact L|].
  - assert (X := F_incr T (root T P) r0 H0 ltac:(lra) L ltac:(lra)). unfold P in *. lra.
  - assert (X := F_incr T r0 (root T P) H0 ltac:(lra) L ltac:(lra)). unfold P in *. lra.
Qed.
Lemma root_cont : continuity_2d_pt root T P.
Proof.
  intros eps. rewrite root_at. assert (dp := cond_pos del). assert (ep := cond_pos eps).
  set (eta := Rmin eps (del / 2)). assert (E0 : 0 < eta) by (unfold eta; apply Rmin_pos; lra). assert (E1 : eta <= eps) by apply Rmin_l. assert (E2 : eta <= del / 2) by apply Rmin_r.
  destruct (enclose lo hi) as [e He]; try (unfold lo, hi; lra). destruct (enclose (r0 - eta) (r0 + eta)) as [e' He']; try lra.
  assert (EP : 0 < Rmin e e') by (apply Rmin_pos; apply cond_pos). exists (mkposreal _ EP). cbn [pos]. intros t p Ht Hp. assert (M1 := Rmin_l e e'). assert (M2 := Rmin_r e e').
  destruct (He t p ltac:(lra) ltac:(lra)) as (H0 & H1 & H2). destruct (He' t p ltac:(lra) ltac:(lra)) as (_ & H3 & H4). destruct (root_ok t p H0 H1 H2) as [B E]. unfold lo, hi in B.
  apply Rabs_def1.
  - destruct (Rlt_le_dec (root t p - r0) eps) as [L|L]; [exact L|exfalso]. destruct (Rle_lt_or_eq_dec (r0 + eta) (root t p) ltac:(lra)) as [L'|L']; [|rewrite L' in H4; lra].
    assert (X := F_incr t (r0 + eta) (root t p) H0 ltac:(lra) L' ltac:(lra)). lra.
  - destruct (Rlt_le_dec (- eps) (root t p - r0)) as [L|L]; [exact L|exfalso]. destruct (Rle_lt_or_eq_dec (root t p) (r0 - eta) ltac:(lra)) as [L'|L']; [|rewrite <- L' in H3; lra].
    assert (X := F_incr t (root t p) (r0 - eta) H0 ltac:(lra) L' ltac:(lra)). lra.
Qed.
End Ift.
(** a solution with nonzero slope extends to a continuous local solution *)
Lemma implicit_exists_pos : forall (F a b : R -> R -> R) (T r0 : R), locally_2d (fun t d => diff2 F t d (a t d) (b t d)) T r0 -> continuity_2d_pt b T r0 -> 0 < b T r0 ->
  exists r : R -> R -> R, r T (F T r0) = r0 /\ continuity_2d_pt r T (F T r0) /\ locally_2d (fun t p => F t (r t p) = p) T (F T r0).
Proof.
  intros F a b T r0 [d1 H1] CB Bp. assert (Q : 0 < b T r0) by exact Bp. destruct (CB (mkposreal _ Q)) as [d2 H2]. cbn [pos] in H2.
  assert (DP : 0 < Rmin d1 d2) by (apply Rmin_pos; apply cond_pos). assert (M1 := Rmin_l d1 d2). assert (M2 := Rmin_r d1 d2).
  assert (A1 : forall t d, Rabs (t - T) < mkposreal _ DP -> Rabs (d - r0) < mkposreal _ DP -> diff2 F t d (a t d) (b t d)) by (cbn [pos]; intros t d Ht Hd; apply H1; lra).
  assert (A2 : forall t d, Rabs (t - T) < mkposreal _ DP -> Rabs (d - r0) < mkposreal _ DP -> 0 < b t d) by (cbn [pos]; intros t d Ht Hd; assert (X := H2 t d ltac:(lra) ltac:(lra)); apply Rabs_def2 in X; lra).
  exists (root F a b T r0 (mkposreal _ DP) A1). split; [now apply root_at|split; [now apply root_cont|now apply root_near]].
Qed.
Lemma implicit_exists : forall (F a b : R -> R -> R) (T r0 : R), locally_2d (fun t d => diff2 F t d (a t d) (b t d)) T r0 -> continuity_2d_pt b T r0 -> b T r0 <> 0 ->
  exists r : R -> R -> R, r T (F T r0) = r0 /\ continuity_2d_pt r T (F T r0) /\ locally_2d (fun t p => F t (r t p) = p) T (F T r0).
Proof.
  intros F a b T r0 L CB N. destruct (Rtotal_order (b T r0) 0) as [H|[H|H]]; [|contradiction|apply (implicit_exists_pos F a b T r0 L CB H)].
  destruct (implicit_exists_pos (fun t d => - F t d) (fun t d => - a t d) (fun t d => - b t d) T r0) as (r & E1 & E2 & E3).
  - destruct L as [e He]. exists e. intros u v Hu Hv. apply e_opp, He; assumption.
  - intros eps. destruct (CB eps) as [e He]. exists e. intros u v Hu Hv. replace (- b u v - - b T r0) with (- (b u v - b T r0)) by ring. rewrite Rabs_Ropp. now apply He.
  - lra.
  - cbv beta in *. exists (fun t p => r t (- p)). split; [exact E1|split].
    + intros eps. destruct (E2 eps) as [e He]. exists e. intros u v Hu Hv. apply He; [exact Hu|]. replace (- v - - F T r0) with (- (v - F T r0)) by ring. now rewrite Rabs_Ropp.
    + destruct E3 as [e He]. exists e. intros u v Hu Hv. assert (X := He u (- v) Hu). assert (Y : Rabs (- v - - F T r0) < e) by (replace (- v - - F T r0) with (- (v - F T r0)) by ring; now rewrite Rabs_Ropp). specialize (X Y). lra.
Qed.
