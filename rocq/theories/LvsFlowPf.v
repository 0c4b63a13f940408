(** Lemmas on saturated water near the critical point and on the loops of TsLVS, LVSeqn, denLVS and rtheta. *)
From Coq Require Import Bool Reals Lra Lia Psatz List.
From Coquelicot Require Import Coquelicot.
From Verif Require Import RDeriv LvsModel LvsSpec LvsPf LvsTherm LvsDal LvsTab LvsFlow.
Import ListNotations.
Open Scope R_scope.

Section Sat.
Variables (c : lvs).
Hypothesis K : lvs_constants c.
Hypothesis b1 : 1 < l_b2 c.
Definition side (th : R) : Prop := th = 1 \/ th = -1.
Lemma sq1 : forall th, side th -> th * th = 1. Proof. intros th [->| ->]; ring. Qed.
Lemma Tcpos : 0 < l_Tc c. Proof. destruct K as [_ [_ [[_ [X _]] _]]]. exact X. Qed.
Lemma rcpos : 0 < l_rc c. Proof. destruct K as [_ [_ [[_ [_ [X _]]] _]]]. exact X. Qed.
Lemma coex_pos : forall T, 0 < T < l_Tc c -> 0 < coex_r c T.
Proof.
  intros T h. unfold coex_r, dTw, Tw. assert (1 < l_Tc c / T) by (apply Rmult_lt_reg_r with T; [lra|]; unfold Rdiv; rewrite Rmult_assoc, Rinv_l by lra; lra).
  replace ((1 + - l_Tc c / T) / (1 - l_b2 c)) with ((l_Tc c / T - 1) / (l_b2 c - 1)) by (field; lra). apply Rdiv_lt_0_compat; lra.
Qed.
Lemma amu_sat : forall r th, side th -> amu_ c r th = 0. Proof. intros r th h. unfold amu_. rewrite (sq1 th h). ring. Qed.
Lemma s_even : forall r th, side th -> s0 c r th = s0 c r (-1) /\ s1 c r th = s1 c r (-1).
Proof. intros r th h. unfold s0, s1, sx0, sx1. rewrite (sq1 th h). replace (-1 * -1) with 1 by ring. split; reflexivity. Qed.
Lemma sat_solves : forall T th, 0 < T < l_Tc c -> side th -> solves c T (sat_rho c T th * l_rc c) (coex_r c T) th.
Proof.
  intros T th h s. split; [lra|]. split; [exact (coex_pos T h)|]. rewrite (amu_sat _ _ s). split.
  - rewrite (sq1 th s). unfold coex_r. field. lra.
  - unfold sat_rho, rhow. ring.
Qed.
Lemma Pw_sat : forall T th, side th -> Pw c T (coex_r c T) th = sat_Pw c T.
Proof. intros T th s. unfold Pw, sat_Pw. rewrite (amu_sat _ _ s). unfold dPw, p0th, p1th. rewrite (sq1 th s). replace (-1 * -1) with 1 by ring. ring. Qed.
Lemma P_sat : forall T th, side th -> Pof c T (coex_r c T) th = sat_P c T.
Proof. intros T th s. unfold Pof, sat_P. now rewrite (Pw_sat T th s). Qed.
Lemma densities : forall T, Dvap c T = sat_rho c T (-1) * l_rc c /\ Dliq c T = sat_rho c T 1 * l_rc c.
Proof. intros T. destruct (s_even (coex_r c T) 1 (or_introl eq_refl)) as [A B]. unfold Dvap, Dliq, sat_rho, rho1_, rho2_. rewrite A, B. split; ring. Qed.
Lemma vap_liq : forall T, 0 < l_k0 c -> 0 <= l_k1 c -> Dvap c T < Dliq c T.
Proof.
  intros T k0 k1. unfold Dvap, Dliq. apply Rmult_lt_compat_l; [exact rcpos|]. assert (0 < rho2_ c T); [|lra]. unfold rho2_.
  assert (0 < Rpower (coex_r c T) (l_b c)) by apply exp_pos. assert (0 < Rpower (coex_r c T) (l_bi c)) by apply exp_pos. nra.
Qed.
Lemma G_form : forall T D r th, 0 < T -> D <> 0 -> h_G (thmLVS c T D r th) = l_Scon c / l_rc c * (T * (amu_ c r th + (l_mc c + dTw c T * (l_m1 c + dTw c T * (l_m2 c + dTw c T * l_m3 c))))).
Proof. intros T D r th Tp Dn. unfold thmLVS. cbn [h_G]. pose proof rcpos. field. split; lra. Qed.
Lemma G_sat : forall T, 0 < T < l_Tc c -> Dvap c T <> 0 -> Dliq c T <> 0 -> h_G (thmSat c T (-1)) = h_G (thmSat c T 1).
Proof.
  intros T h a b. destruct (densities T) as [A B]. rewrite A in a. rewrite B in b. unfold thmSat. rewrite !G_form by (first [lra|assumption]). now rewrite (amu_sat _ 1 (or_introl eq_refl)), (amu_sat _ (-1) (or_intror eq_refl)).
Qed.
Lemma clapeyron : forall T th, 0 < T < l_Tc c -> Dvap c T <> 0 -> Dliq c T <> 0 -> side th -> sat_heat c T th = h_H (thmSat c T (-1)) - h_H (thmSat c T 1) /\ sat_heat c T th = 1000 * T * sat_slope c T * (1 / Dvap c T - 1 / Dliq c T).
Proof.
  intros T th h a b s. assert (E : sat_heat c T th = 1000 * T * sat_slope c T * (1 / Dvap c T - 1 / Dliq c T)).
  { unfold sat_heat, sat_slope. destruct (s_even (coex_r c T) th s) as [A B]. rewrite A, B. cbv zeta. ring. }
  split; [|exact E]. rewrite E. unfold sat_slope. destruct (densities T) as [A B]. rewrite A in *. rewrite B in *. unfold thmSat, thmLVS. cbn [h_H]. rewrite (Pw_sat T 1 (or_introl eq_refl)), (Pw_sat T (-1) (or_intror eq_refl)).
  rewrite (amu_sat _ 1 (or_introl eq_refl)), (amu_sat _ (-1) (or_intror eq_refl)). destruct (s_even (coex_r c T) 1 (or_introl eq_refl)) as [C D]. rewrite C, D. rewrite (KS c K), (KPcon c K). pose proof rcpos. pose proof Tcpos. cbv zeta.
  set (u := sat_rho c T (-1)) in *. set (v := sat_rho c T 1) in *. assert (u <> 0) by (intros z; apply a; rewrite z; ring). assert (v <> 0) by (intros z; apply b; rewrite z; ring).
  clearbody u v. field. repeat split; try assumption; lra.
Qed.
(** the slope of TsLVS is the slope of the saturation pressure *)
Lemma sat_newton : forall T, 0 < T < l_Tc c -> is_derive (sat_P c) T (sat_slope c T).
Proof.
  intros T h. assert (rp := coex_pos T h).
  set (tau := l_Tc c / T ^ 2). assert (Hr : is_derive (coex_r c) T (tau / (1 - l_b2 c))).
  { unfold coex_r, dTw, Tw. eapply d_eq; [unfold Rdiv at 1; apply d_scal_r; apply d_plus; [apply d_const|apply d_div; [apply d_const|apply d_id|lra]]|]. cbv beta. unfold tau. field. split; lra. }
  assert (HT : is_derive (fun y : R => y) T 1) by apply d_id.
  assert (Hth : is_derive (fun _ : R => -1) T 0) by apply d_const.
  assert (near : locally T (fun y : R => 0 < y < l_Tc c)) by (apply filter_and; [apply open_gt; lra|apply open_lt; lra]).
  (* density *)
  assert (HD : exists D', is_derive (fun y => sat_rho c y (-1) * l_rc c) T D').
  { unfold sat_rho, s0, s1. eexists. apply d_scal_r. apply d_plus; [apply d_plus; [apply d_scal; apply d_plus; apply d_scal; apply (d_Rpower (coex_r c) _ T _ Hr rp)|apply d_scal; apply d_plus; apply d_scal; apply (d_Rpower (coex_r c) _ T _ Hr rp)]|].
    apply d_plus; [apply d_const|apply d_scal]. unfold dTw, Tw. apply d_plus; [apply d_const|apply d_div; [apply d_const|apply d_id|lra]]. }
  destruct HD as [D' HD].
  assert (Hp : path c (fun y => y) (fun y => sat_rho c y (-1) * l_rc c) (coex_r c) (fun _ => -1) T 1 D' (tau / (1 - l_b2 c)) 0).
  { split; [revert near; apply filter_imp; intros y hy; exact (sat_solves y (-1) hy (or_intror eq_refl))|exact (conj HT (conj HD (conj Hr Hth)))]. }
  pose proof (P_d c _ _ _ _ T _ _ _ _ K Hp) as d. cbv beta in d.
  eapply d_eq; [apply (d_ext (fun y => Pof c y (coex_r c y) (-1))); [intros y; exact (P_sat y (-1) (or_intror eq_refl))|exact d]|].
  unfold Pp, hd. rewrite (Pw_sat T (-1) (or_intror eq_refl)), (amu_sat _ (-1) (or_intror eq_refl)). unfold sat_slope, Tw. cbv zeta. pose proof rcpos. field. repeat split; lra.
Qed.
End Sat.

(** *** TsLVS *)
Fixpoint ts_iter (newton : R -> R * R) (k : nat) (T : R) : R := match k with O => T | S k' => ts_iter newton k' (snd (newton T)) end.
Definition unconverged (newton : R -> R * R) (T : R) : Prop := 1 / 10 ^ 8 < Rabs (fst (newton T) / snd (newton T)).
Lemma ts_late : forall newton fuel i T, (20 <= i)%nat -> ts_loop newton fuel i T = None.
Proof.
  intros newton fuel. induction fuel as [|f IH]; intros i T h; [reflexivity|]. cbn [ts_loop]. destruct (newton T) as [dT T']. replace (20 <? S i)%nat with true by (symmetry; apply Nat.ltb_lt; lia). apply IH. lia.
Qed.
Lemma ts_gen : forall newton n i T, (i + n = 20)%nat -> (forall k, (k < n)%nat -> unconverged newton (ts_iter newton k T)) -> forall fuel, ts_loop newton fuel i T = None.
Proof.
  intros newton n. induction n as [|n IH]; intros i T e h fuel; [apply ts_late; lia|]. destruct fuel as [|f]; [reflexivity|]. cbn [ts_loop]. pose proof (h 0%nat ltac:(lia)) as h0. unfold unconverged in h0. cbn [ts_iter] in h0.
  destruct (newton T) as [dT T'] eqn:E. cbn [fst snd] in h0. destruct (20 <? S i)%nat eqn:B.
  - apply Nat.ltb_lt in B. apply ts_late. lia.
  - destruct (Rlt_dec (1 / 10 ^ 8) (Rabs (dT / T'))) as [_|N]; [|lra]. apply IH; [lia|]. intros k hk. pose proof (h (S k) ltac:(lia)) as g. cbn [ts_iter] in g. rewrite E in g. exact g.
Qed.
Lemma ts_endless : forall newton T, (forall k, (k < 20)%nat -> unconverged newton (ts_iter newton k T)) -> forall fuel, ts_loop newton fuel 0 T = None.
Proof. intros newton T h. apply (ts_gen newton 20 0 T eq_refl h). Qed.
Lemma ts_gen2 : forall newton n i T, (i + n < 20)%nat -> (forall k, (k < n)%nat -> unconverged newton (ts_iter newton k T)) -> ~ unconverged newton (ts_iter newton n T) -> forall fuel, (n < fuel)%nat -> ts_loop newton fuel i T = Some (ts_iter newton (S n) T).
Proof.
  intros newton n. induction n as [|n IH]; intros i T e h g fuel hf; (destruct fuel as [|f]; [lia|]); cbn [ts_loop].
  - unfold unconverged in g. cbn [ts_iter] in *. destruct (newton T) as [dT T'] eqn:E. cbn [fst snd] in *. replace (20 <? S i)%nat with false by (symmetry; apply Nat.ltb_ge; lia). destruct (Rlt_dec _ _); [contradiction|reflexivity].
  - pose proof (h 0%nat ltac:(lia)) as h0. unfold unconverged in h0. cbn [ts_iter] in h0. destruct (newton T) as [dT T'] eqn:E. cbn [fst snd] in h0. replace (20 <? S i)%nat with false by (symmetry; apply Nat.ltb_ge; lia). destruct (Rlt_dec _ _) as [_|N]; [|lra].
    cbn [ts_iter]. rewrite E. cbn [snd]. apply IH; [lia| | |lia].
    + intros k hk. pose proof (h (S k) ltac:(lia)) as q. cbn [ts_iter] in q. rewrite E in q. exact q.
    + cbn [ts_iter] in g. rewrite E in g. exact g.
Qed.
Lemma ts_ends : forall newton T n, (n < 20)%nat -> (forall k, (k < n)%nat -> unconverged newton (ts_iter newton k T)) -> ~ unconverged newton (ts_iter newton n T) -> forall fuel, (n < fuel)%nat -> ts_loop newton fuel 0 T = Some (ts_iter newton (S n) T).
Proof. intros newton T n h. apply (ts_gen2 newton n 0 T). lia. Qed.

(** *** LVSeqn *)
Lemma eqn_forever : forall (A : Type) round equal fuel (s : A) isat cpoint, eqn_loop round equal fuel s isat cpoint true = None.
Proof. intros A round equal fuel. induction fuel as [|f IH]; intros s isat cpoint; [reflexivity|]. cbn [eqn_loop]. replace (if isat then true || equal (round s isat) else true) with true by (destruct isat; reflexivity). apply IH. Qed.
Lemma eqn_endless : forall (A : Type) (round : A -> bool -> A) equal s, equal (round s true) = true -> forall fuel, eqn_loop round equal fuel s true false false = None.
Proof. intros A round equal s h [|f]; [reflexivity|]. cbn [eqn_loop]. rewrite h. cbn [orb]. apply eqn_forever. Qed.
Lemma eqn_once : forall (A : Type) (round : A -> bool -> A) equal s isat fuel, (isat = true -> equal (round s true) = false) -> eqn_loop round equal (S fuel) s isat false false = Some (round s isat).
Proof. intros A round equal s isat fuel h. cbn [eqn_loop]. destruct isat; [rewrite (h eq_refl)|]; reflexivity. Qed.

(** *** denLVS *)
Lemma clamp_in : forall D, den_Dmin <= clamp D <= den_Dmax.
Proof. intros D. unfold clamp, den_Dmin, den_Dmax. destruct (Rlt_dec D 199.775); destruct (Rlt_dec 420.04 _); lra. Qed.
Lemma den_range : forall pf P n D, den_Dmin <= D <= den_Dmax -> den_Dmin <= fst (den_loop pf P n D) <= den_Dmax.
Proof.
  intros pf P n. induction n as [|n IH]; intros D h; [exact h|]. cbn [den_loop]. destruct (pf D) as [[Pn sl] two]. destruct two.
  - destruct (Rle_dec _ _); [exact h|]. apply IH. unfold den_Dmin, den_Dmax. destruct (Rlt_dec _ _); lra.
  - destruct (Rlt_dec _ _); [apply clamp_in|apply IH; apply clamp_in].
Qed.
(** a step from a to b that was small enough to stop at *)
Definition settled (pf : R -> R * R * bool) (P D' : R) : Prop :=
  exists D Pn sl two, pf D = (Pn, sl, two) /\ ((two = true /\ D' = D /\ Pn = P) \/ (two = false /\ D' = clamp (D + - (Pn - P) / sl) /\ Rabs (- (Pn - P) / sl / D') < 1 / 10 ^ 6)).
Lemma den_settled : forall pf P n D, snd (den_loop pf P n D) = true -> settled pf P (fst (den_loop pf P n D)).
Proof.
  intros pf P n. induction n as [|n IH]; intros D h; [discriminate h|]. cbn [den_loop] in *. destruct (pf D) as [[Pn sl] two] eqn:E. destruct two.
  - destruct (Rle_dec (Rabs (Pn - P)) 0) as [z|z]; [|apply IH; exact h]. exists D, Pn, sl, true. split; [exact E|]. left. split; [reflexivity|]. split; [reflexivity|]. pose proof (Rabs_pos (Pn - P)). assert (Z : Rabs (Pn - P) = 0) by lra.
    destruct (Req_dec (Pn - P) 0) as [q|q]; [lra|]. apply Rabs_no_R0 in q. contradiction.
  - destruct (Rlt_dec _ _) as [z|z]; [|apply IH; exact h]. exists D, Pn, sl, false. split; [exact E|]. right. split; [reflexivity|]. split; [reflexivity|exact z].
Qed.
Lemma settled_close : forall pf P D', settled pf P D' -> exists D Pn sl two, pf D = (Pn, sl, two) /\ (sl <> 0 -> Rabs (Pn - P) <= 1 / 10 ^ 6 * Rabs D' * Rabs sl).
Proof.
  intros pf P D' (D & Pn & sl & two & E & [[_ [e1 e2]]|[_ [C h]]]); exists D, Pn, sl, two; (split; [exact E|]); intros s.
  - subst P. rewrite Rminus_eq_0, Rabs_R0. repeat apply Rmult_le_pos; try apply Rabs_pos; lra.
  - assert (D' <> 0) by (pose proof (clamp_in (D + - (Pn - P) / sl)); unfold den_Dmin in *; lra).
    unfold Rdiv in h at 1. rewrite Rabs_mult, Rabs_inv in h. unfold Rdiv in h at 1. rewrite Rabs_mult, Rabs_inv, Rabs_Ropp in h.
    assert (0 < Rabs sl) by (apply Rabs_pos_lt; exact s). assert (0 < Rabs D') by (apply Rabs_pos_lt; assumption).
    apply Rmult_lt_compat_r with (r := Rabs D' * Rabs sl) in h; [|apply Rmult_lt_0_compat; assumption].
    replace (Rabs (Pn - P) * / Rabs sl * / Rabs D' * (Rabs D' * Rabs sl)) with (Rabs (Pn - P)) in h by (field; lra). lra.
Qed.
(** twenty rounds without an answer end like an answer *)
Definition flat (D : R) : R * R * bool := (D, 1, false).
Lemma stay : forall n, den_loop flat 500 n den_Dmax = (den_Dmax, false).
Proof.
  induction n as [|n IH]; [reflexivity|]. cbn [den_loop flat]. assert (C : clamp (den_Dmax + - (den_Dmax - 500) / 1) = den_Dmax).
  { unfold clamp, den_Dmax, den_Dmin. destruct (Rlt_dec _ _); [lra|]. destruct (Rlt_dec _ _); lra. }
  rewrite C. destruct (Rlt_dec _ _) as [z|_]; [exfalso|exact IH]. unfold den_Dmax in z. rewrite Rabs_right in z by lra. lra.
Qed.
Lemma silent : denLVS_ 322.778 flat 500 = den_Dmax /\ fst (fst (flat den_Dmax)) <> 500.
Proof.
  split; [|unfold flat, den_Dmax; cbn; lra]. unfold denLVS_. remember 19%nat as m eqn:Em. replace 20%nat with (S m) by (subst; reflexivity). clear Em. cbn [den_loop flat].
  assert (C : clamp (322.778 + - (322.778 - 500) / 1) = den_Dmax).
  { unfold clamp, den_Dmax, den_Dmin. destruct (Rlt_dec _ _); [lra|]. destruct (Rlt_dec _ _); lra. }
  rewrite C. destruct (Rlt_dec _ _) as [z|_]; [exfalso|now rewrite stay]. unfold den_Dmax in z. rewrite Rabs_right in z by lra. lra.
Qed.
