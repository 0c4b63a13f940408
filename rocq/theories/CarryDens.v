(** The density models of reactions carry their derivatives when the water does; the witnesses for the function of temperature. *)
From Coq Require Import List Bool Reals Lra Lia.
Import ListNotations.
From Coquelicot Require Import Coquelicot.
From Verif Require Import RDeriv ThermoScalarModel ThermoScalarSpec ThermoScalarProofs CarryModel CarrySpec CarryPf CarryMin ReacModel ReacProofs ReacConv CarryReac CarryReacSpec CarryReacPf.
Open Scope R_scope.
Lemma c_default : forall T P, carries ts_default (fun _ _ => 0) T P.
Proof. intros. apply c_read. split; [reflexivity|split; reflexivity]. Qed.
Section Dens.
Variables (w : wts) (W : R -> R -> water) (T P : R).
Hypothesis HW : carriesW w W T P.
Hypothesis HT : 0 < T.
Hypothesis Hr : 0 < rho (W T P).
Lemma cw_RHO : carries (RHO_ w) (fun t p => rho (W t p) / 1000) T P.
Proof. destruct HW as [A _]. unfold RHO_. cs; lra. Qed.
Lemma RHO_pos : 0 < rho (W T P) / 1000. Proof. lra. Qed.
Lemma cw_l10 : carries (ts_log10 (RHO_ w)) (fun t p => log10 (rho (W t p) / 1000)) T P.
Proof. apply c_log10; [exact cw_RHO|exact RHO_pos]. Qed.
Lemma cw_ln : carries (ts_log (RHO_ w)) (fun t p => ln (rho (W t p) / 1000)) T P.
Proof. apply c_log; [exact cw_RHO|exact RHO_pos]. Qed.
Lemma cw_dT : carries (dRHOdT_ w) (fun t p => - alp (W t p) * (rho (W t p) / 1000)) T P.
Proof. destruct HW as [_ [A _]]. pose proof cw_RHO. unfold dRHOdT_. cs. Qed.
Lemma cw_d2 : carries (d2RHO_ w) (fun t p => rho (W t p) / 1000 * (alp (W t p) ^ 2 - dal (W t p))) T P.
Proof. destruct HW as [_ [A [_ D]]]. pose proof cw_RHO. assert (B := c_pown 2 2 _ _ T P ltac:(lia) ltac:(cbn; lra) A). unfold d2RHO_. cs. Qed.
Lemma cw_dT2 : carries (ts_pow_d (dRHOdT_ w) 2) (fun t p => (- alp (W t p) * (rho (W t p) / 1000)) ^ 2) T P.
Proof. exact (c_pown 2 2 _ _ T P ltac:(lia) ltac:(cbn; lra) cw_dT). Qed.
Lemma cw_rl : carries (rl10 w) (fun t p => rho (W t p) / 1000 * LN10) T P.
Proof. pose proof cw_RHO. unfold rl10. cs. Qed.
Lemma cw_r2l : carries (r2l10 w) (fun t p => (rho (W t p) / 1000) ^ 2 * LN10) T P.
Proof. assert (B := c_pown 2 2 _ _ T P ltac:(lia) ltac:(cbn; lra) cw_RHO). unfold r2l10. cs. Qed.
Lemma rl_nz : rho (W T P) / 1000 * LN10 <> 0. Proof. pose proof LN10_pos. apply Rmult_integral_contrapositive_currified; lra. Qed.
Lemma r2l_nz : (rho (W T P) / 1000) ^ 2 * LN10 <> 0. Proof. pose proof LN10_pos. apply Rmult_integral_contrapositive_currified; [apply pow_nonzero|]; lra. Qed.
Lemma Tn : forall n c, (1 < n)%nat -> c = INR n -> carries (ts_pow_d (TK T) c) (fun t _ => t ^ n) T P.
Proof. intros n c Hn E. exact (c_pown n c _ _ T P Hn E (c_T T P)). Qed.
Ltac tns := pose proof (Tn 2 2 ltac:(lia) ltac:(cbn; lra)) as T2; pose proof (Tn 3 3 ltac:(lia) ltac:(cbn; lra)) as T3; pose proof (Tn 4 4 ltac:(lia) ltac:(cbn; lra)) as T4; pose proof (Tn 5 5 ltac:(lia) ltac:(cbn; lra)) as T5.
Ltac side := first [exact rl_nz | exact r2l_nz | apply pow_nonzero; lra | lra].
Ltac pre := destruct HW as [_ [HA [HB HD]]]; pose proof cw_RHO as C0; pose proof cw_l10 as C1; pose proof cw_dT as C2; pose proof cw_d2 as C3; pose proof cw_dT2 as C4; pose proof cw_rl as C5; pose proof cw_r2l as C6; pose proof cw_ln as C7; tns.
Ltac nine := split; [split; [first [apply c_default | cs; side]|]; split; [cs; side|]; split; [cs; side|]; split; [cs; side|]; split; [cs; side|]; split; [cs; side|]; cs; side|]; split; [cs; side|]; cs; side.
Theorem frantz_carries : forall co o, frantz co (W T P) T (P / 100000) = Some o -> exists r, frantzTS w T P co = Some r /\ carriesR r (fun t p => frantz co (W t p) t (p / 100000)) T P.
Proof.
  intros co o Ho. destruct co as [|a [|b [|c [|d [|e [|f [|g l]]]]]]]; try discriminate. eexists. split; [reflexivity|]. clear Ho o. pre.
  unfold carriesR, carriesR7, reported, frantz. cbn [oK oLn oG oH oS oCp oV oA oU lgK lnK dG dH dS dCp dV dA dU]. nine.
Qed.
Theorem dolejs_carries : forall co o, dolejs co (W T P) T (P / 100000) = Some o -> exists r, dolejsTS w T P co = Some r /\ carriesR r (fun t p => dolejs co (W t p) t (p / 100000)) T P.
Proof.
  intros co o Ho. destruct co as [|a [|b [|c [|d [|e l]]]]]; try discriminate. eexists. split; [reflexivity|]. clear Ho o. pre.
  unfold carriesR, carriesR7, reported, dolejs. cbn [oK oLn oG oH oS oCp oV oA oU lgK lnK dG dH dS dCp dV dA dU]. nine.
Qed.
Theorem ryzhenko_carries : forall co o, ryzhenko co (W T P) T (P / 100000) = Some o -> exists r, ryzhenkoTS w T P co = Some r /\ carriesR r (fun t p => ryzhenko co (W t p) t (p / 100000)) T P.
Proof.
  assert (Z : rb_zz <> 0) by (unfold rb_zz; lra).
  intros co o Ho. destruct co as [|a [|b [|c l]]]; try discriminate. eexists. split; [reflexivity|]. clear Ho o. pre.
  unfold carriesR, carriesR7, reported, ryzhenko. cbn [oK oLn oG oH oS oCp oV oA oU lgK lnK dG dH dS dCp dV dA dU].
  generalize rb_pKw298. intro pKw. nine.
Qed.
End Dens.
(** *** heat capacity coefficients only: the logK coefficients are found at the temperature asked for and frozen as numbers *)
Section FromCp.
Variables (e : rts) (d : rdata) (ce : CE) (T P : R).
Hypothesis HR : reads_reaction e d.
Hypothesis Hce : ce = LGK \/ ce = LGX.
Hypothesis HA : rA d = [].
Hypothesis HC : rC d <> [].
Hypothesis GH : def (rH d) = true.
Hypothesis GS : def (rS d) = true.
Hypothesis HT : 0 < T.
Let c := resize 5 (rC d).
Let a := A_of_C c (v (rS d)) (v (rH d)) T.
Lemma Hsc_given : forall t, Hsc d t = rH d. Proof. intro t. unfold Hsc. rewrite GH. now rewrite andb_false_r. Qed.
Lemma Ssc_given : forall t, Ssc d t = rS d. Proof. intro t. unfold Ssc. rewrite GS. now rewrite andb_false_r. Qed.
Lemma fromCp_TS : logKTS e ce T P = Some (finTS e T P (lgK7T a T) (H7T a T) (S7T a T) (Cp5T c T)).
Proof.
  assert (EA : xA e = rA d) by apply HR. assert (EC : xC e = rC d) by apply HR. pose proof (aL_eq e d T P HR HT EA EC) as K.
  assert (Ka : aL d T = a) by (unfold aL; rewrite HA, Hsc_given, Ssc_given; unfold a, c; destruct (rC d); [contradiction|reflexivity]).
  assert (K2 : match xC e, xA e with [], _ :: _ => C_of_A (aL d T) | c, [] => match c with [] => [] | _ => resize 5 c end | c, _ => c end = c) by (rewrite EA, EC, HA; unfold c; destruct (rC d); [contradiction|reflexivity]).
  cbv zeta in K, K2. assert (L : Nat.leb 7 (length a) && Nat.leb 5 (length c) = true) by (unfold c; now rewrite resize_length).
  unfold logKTS. cbv zeta. destruct Hce; subst ce; cbv iota beta; rewrite K, K2, Ka, L; reflexivity.
Qed.
Lemma fromCp_val : forall t p, 0 < t -> reported dH (logK_fT d ce t p) = v (rH d) /\ reported dS (logK_fT d ce t p) = v (rS d) /\ reported lgK (logK_fT d ce t p) = (v (rS d) - v (rH d) / t) / Rln10.
Proof.
  intros t p Ht. destruct (logK_from_Cp d ce t p Hce HA HC GH GS Ht) as [o [E [E1 [E2 _]]]]. rewrite E. cbn [reported]. split; [exact E1|]. split; [exact E2|].
  rewrite logK_split in E. assert (Ka : aL d t = A_of_C c (v (rS d)) (v (rH d)) t) by (unfold aL; rewrite HA, Hsc_given, Ssc_given; unfold c; destruct (rC d); [contradiction|reflexivity]).
  assert (K : lgK o = lgK7 (aL d t) t).
  { destruct Hce; subst ce; cbn [chosen outR] in E; cbv zeta in E; destruct (Nat.leb 7 _ && _); try discriminate; inversion E; reflexivity. }
  rewrite K, Ka. pose proof (lgK7_GHS (A_of_C c (v (rS d)) (v (rH d)) t) t Ht) as G. destruct (A_of_C_ref c (v (rS d)) (v (rH d)) t Ht) as [H1 H2]. rewrite H1, H2 in G.
  pose proof Rgas_pos. pose proof lg_pos. apply (Rmult_eq_reg_l (- (t * Rgas * lg_to_ln))); [|apply Ropp_neq_0_compat; apply Rmult_integral_contrapositive_currified; [apply Rmult_integral_contrapositive_currified|]; lra].
  transitivity (v (rH d) - t * v (rS d)); [rewrite <- G; ring|]. rewrite Rln10_eq. field. repeat split; lra.
Qed.
Theorem fromCp_carried : exists r, logKTS e ce T P = Some r /\
  ddt (oH r) = Cp5 c T /\ is_derive (fun t : R => reported dH (logK_fT d ce t (P / 100000))) T 0 /\
  T * ddt (oS r) = Cp5 c T /\ is_derive (fun t : R => reported dS (logK_fT d ce t (P / 100000))) T 0 /\
  carries (oK r) (fun t p => reported lgK (logK_fT d ce t (p / 100000))) T P.
Proof.
  eexists. split; [exact fromCp_TS|]. cbn [finTS oH oS oK].
  assert (LC : length c = 5%nat) by apply resize_length.
  assert (LP : locally T (fun t : R => 0 < t)) by exact (d_pos (fun t : R => t) T 1 (is_derive_id T) HT).
  assert (EC : C_of_A a = c) by exact (C_A_C c (v (rS d)) (v (rH d)) T LC).
  pose proof (H7_derive a T HT) as D1. pose proof (S7_derive a T HT) as D2. rewrite EC in D1, D2.
  split; [exact (c_unique _ _ _ _ _ (c_H7 T P HT a) D1)|].
  split; [apply (is_derive_ext_loc (fun _ : R => v (rH d))); [revert LP; apply filter_imp; intros t Ht; symmetry; apply (fromCp_val t _ Ht)|apply (is_derive_const (v (rH d)) T)]|].
  split; [rewrite (c_unique _ _ _ _ _ (c_S7 T P HT a) D2); field; lra|].
  split; [apply (is_derive_ext_loc (fun _ : R => v (rS d))); [revert LP; apply filter_imp; intros t Ht; symmetry; apply (fromCp_val t _ Ht)|apply (is_derive_const (v (rS d)) T)]|].
  pose proof (c_lgK7 T P HT a) as [A [B C]]. destruct (A_of_C_ref c (v (rS d)) (v (rH d)) T HT) as [H1 H2]. fold a in H1, H2.
  pose proof Rln10_pos. split; [|split].
  - rewrite A. destruct (fromCp_val T (P / 100000) HT) as [_ [_ E3]]. rewrite E3.
    pose proof (lgK7_GHS a T HT) as G. rewrite H1, H2 in G. pose proof Rgas_pos. pose proof lg_pos.
    apply (Rmult_eq_reg_l (- (T * Rgas * lg_to_ln))); [|apply Ropp_neq_0_compat; apply Rmult_integral_contrapositive_currified; [apply Rmult_integral_contrapositive_currified|]; lra].
    transitivity (v (rH d) - T * v (rS d)); [rewrite <- G; ring|]. rewrite Rln10_eq. field. repeat split; lra.
  - assert (Dd := d_unique _ _ _ _ B (lgK7_derive a T HT)). rewrite H1 in Dd. rewrite Dd.
    apply (is_derive_ext_loc (fun t : R => (v (rS d) - v (rH d) / t) / Rln10)); [revert LP; apply filter_imp; intros t Ht; symmetry; apply (fromCp_val t _ Ht)|].
    auto_derive; [lra|field; lra].
  - apply (is_derive_ext (fun _ : R => lgK7 a T)).
    + intro p. destruct (fromCp_val T (p / 100000) HT) as [_ [_ E3]]. rewrite E3.
      pose proof (lgK7_GHS a T HT) as G. rewrite H1, H2 in G. pose proof Rgas_pos. pose proof lg_pos.
      apply (Rmult_eq_reg_l (- (T * Rgas * lg_to_ln))); [|apply Ropp_neq_0_compat; apply Rmult_integral_contrapositive_currified; [apply Rmult_integral_contrapositive_currified|]; lra].
      transitivity (v (rH d) - T * v (rS d)); [rewrite <- G; ring|]. rewrite Rln10_eq. field. repeat split; lra.
    + exact C.
Qed.
End FromCp.
(** the numbers of one result obey the relations that the reported values obey *)
From Verif Require Import ReacSpec.
Theorem reaction_relations : forall r (q : R -> tpr) (o : R -> R -> option tpr) T P, (forall t, 0 < t -> o t P = Some (q t)) -> carriesR7 r o T P -> 0 < T -> consistent_T q T -> equilibrium lg_to_ln q T ->
  ddt (oG r) = - val (oS r) /\ ddt (oH r) = val (oCp r) /\ T * ddt (oS r) = val (oCp r) /\ ddt (oLn r) = val (oH r) / (Rgas * T ^ 2) /\ val (oG r) = val (oH r) - T * val (oS r).
Proof.
  intros r q o T P E [_ [L [G [H [S0 [C _]]]]]] HT [c1 c2 c3 c4] [_ [_ e3]].
  assert (LP : locally T (fun t : R => 0 < t)) by exact (d_pos (fun t : R => t) T 1 (is_derive_id T) HT).
  assert (X : forall (f : tpr -> R) x l, carries x (fun t p => reported f (o t p)) T P -> is_derive (fun t : R => f (q t)) T l -> ddt x = l).
  { intros f x l K D. apply (c_unique _ _ _ _ _ K). apply (is_derive_ext_loc (fun t : R => f (q t))); [revert LP; apply filter_imp; intros t Ht; now rewrite (E t Ht)|exact D]. }
  assert (Y : forall (f : tpr -> R) x, carries x (fun t p => reported f (o t p)) T P -> val x = f (q T)) by (intros f x [K _]; rewrite K, (E T HT); reflexivity).
  rewrite (Y _ _ S0), (Y _ _ C), (Y _ _ H), (Y _ _ G). split; [exact (X _ _ _ G c2)|]. split; [exact (X _ _ _ H c3)|]. split; [rewrite (X _ _ _ S0 c4); field; lra|]. split; [exact (X _ _ _ L e3)|exact c1].
Qed.
