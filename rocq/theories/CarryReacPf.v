(** Proofs about the derivatives carried by reaction results. *)
From Coq Require Import List Bool Reals Lra Lia.
Import ListNotations.
From Coquelicot Require Import Coquelicot.
From Verif Require Import RDeriv ThermoScalarModel ThermoScalarSpec ThermoScalarProofs CarryModel CarrySpec CarryPf CarryMin MineralModel MineralSpec MineralProofs ReacModel ReacProofs CarryReac CarryReacSpec.
Open Scope R_scope.
Lemma c_log10 : forall x f T P, carries x f T P -> 0 < f T P -> carries (ts_log10 x) (fun t p => log10 (f t p)) T P.
Proof. intros x f T P H N. unfold ts_log10, log10. apply (c_divd LN10 (ts_log x) (fun t p => ln (f t p))); [now apply c_log|pose proof LN10_pos; lra]. Qed.
Lemma c_nz : forall x f T P, carries x f T P -> f T P <> 0 -> locally T (fun t => f t P <> 0) /\ locally P (fun p => f T p <> 0).
Proof.
  assert (L : forall (f : R -> R) (x d : R), is_derive f x d -> f x <> 0 -> locally x (fun t => f t <> 0)).
  { intros f x d D H. destruct (Rtotal_order (f x) 0) as [A|[A|A]]; [|contradiction|].
    - assert (D' : is_derive (fun t : R => - f t) x (- d)) by exact (is_derive_opp f x d D). assert (B : 0 < - f x) by lra. generalize (d_pos (fun t : R => - f t) x (- d) D' B). apply filter_imp. intros t Ht. lra.
    - generalize (d_pos f x d D A). apply filter_imp. intros t Ht. lra. }
  intros x f T P [_ [B C]] H. split; [exact (L (fun t => f t P) T _ B H)|exact (L (fun p => f T p) P _ C H)].
Qed.
Section Seven.
Variables (T P : R).
Hypothesis HT : 0 < T.
Lemma sT : 0 < sqrt T. Proof. now apply sqrt_lt_R0. Qed.
Ltac nzs := first [lra | pose proof sT; nra].
Lemma c_lgK7 : forall a, carries (lgK7T a T) (fun t p => lgK7 a t) T P.
Proof. intro a. destruct (half_carries T P HT) as [K _]. pose proof sT. unfold lgK7T, lgK7. cs; nzs. Qed.
Lemma c_H7 : forall a, carries (H7T a T) (fun t p => H7 a t) T P.
Proof. intro a. destruct (half_carries T P HT) as [K _]. pose proof sT. unfold H7T, H7. cs; nzs. Qed.
Lemma c_S7 : forall a, carries (S7T a T) (fun t p => S7 a t) T P.
Proof. intro a. destruct (half_carries T P HT) as [K _]. pose proof sT. unfold S7T, S7. cs; nzs. Qed.
Lemma c_Cp5 : forall c, carries (Cp5T c T) (fun t p => Cp5 c t) T P.
Proof. intro a. destruct (half_carries T P HT) as [K _]. pose proof sT. unfold Cp5T, Cp5. cs; nzs. Qed.
End Seven.
(** the end of the function *)
Definition finR (d : rdata) (T P lg H S Cp : R) : tpr :=
  let U := if is_zero H then 0 else H - P * v (rV d) in
  mkTpr lg (lg * lg_to_ln) (- (T * Rgas) * lg * lg_to_ln) H S Cp (v (rV d)) (if is_zero H then 0 else U - T * S) U.
Section Fin.
Variables (e : rts) (d : rdata) (T P : R) (lg H S Cp : TS) (flg fH fS fCp : R -> R).
Hypothesis HV : read_value (xV e) (v (rV d)).
Hypothesis C1 : carries lg (fun t _ => flg t) T P.
Hypothesis C2 : carries H (fun t _ => fH t) T P.
Hypothesis C3 : carries S (fun t _ => fS t) T P.
Hypothesis C4 : carries Cp (fun t _ => fCp t) T P.
Let q (t p : R) : option tpr := Some (finR d t (p / 100000) (flg t) (fH t) (fS t) (fCp t)).
Lemma fin_7 : carriesR7 (finTS e T P lg H S Cp) q T P.
Proof.
  pose proof (c_read _ _ T P HV) as C5. unfold carriesR7, finTS, q, finR, reported. cbn [oK oLn oG oH oS oCp oV lgK lnK dG dH dS dCp dV].
  split; [exact C1|]. split; [cs|]. split; [cs|]. split; [exact C2|]. split; [exact C3|]. split; [exact C4|exact C5].
Qed.
Lemma fin_9 : fH T <> 0 -> carriesR (finTS e T P lg H S Cp) q T P.
Proof.
  intro N. split; [exact fin_7|]. pose proof (c_read _ _ T P HV) as C5. destruct (c_nz _ _ _ _ C2 N) as [L _]. unfold finTS, q, finR, reported. cbn [oA oU dA dU].
  assert (EZ : forall x : R, x <> 0 -> is_zero x = false) by (intros x Hx; unfold is_zero; destruct (Req_EM_T x 0); [contradiction|reflexivity]).
  rewrite (EZ (val H)) by (rewrite (proj1 C2); exact N).
  split; [apply (c_ext_loc _ (fun t p => fH t - p / 100000 * v (rV d) - t * fS t))|apply (c_ext_loc _ (fun t p => fH t - p / 100000 * v (rV d)))].
  1, 4: revert L; apply filter_imp; intros t Ht; now rewrite (EZ _ Ht).
  1, 3: apply all_loc; intro p; now rewrite (EZ _ N).
  1, 2: cs.
Qed.
End Fin.
(** the enthalpy and the entropy that the method works with *)
Definition Hsc (d : rdata) (T : R) : sc := if def (rS d) && def (rG d) && negb (def (rH d)) then mkSc (v (rG d) + v (rS d) * T) true else rH d.
Definition Ssc (d : rdata) (T : R) : sc := if def (rH d) && def (rG d) && negb (def (rS d)) then mkSc ((v (rH d) - v (rG d)) / T) true else rS d.
Definition chosen (d : rdata) (ce : CE) (T : R) : CE := match ce with EK3 => determineMethod (Hsc d T) (Ssc d T) (rCp d) | c => c end.
Definition aL (d : rdata) (T : R) : list R := match rA d, rC d with [], _ :: _ => A_of_C (resize 5 (rC d)) (v (Ssc d T)) (v (Hsc d T)) T | a, [] => match a with [] => [] | _ => resize 7 a end | a, _ => a end.
Definition cL (d : rdata) (a : list R) : list R := match rC d, rA d with [], _ :: _ => C_of_A a | c, [] => match c with [] => [] | _ => resize 5 c end | c, _ => c end.
Definition outR (d : rdata) (ce : CE) (T P : R) : option tpr :=
  let H := v (Hsc d T) in let S := v (Ssc d T) in let Cp := v (rCp d) in
  match ce with
  | EK0 => Some (finR d T P (v (rlgK d)) H S Cp)
  | EK1 => Some (finR d T P (- v (rG d) / T / Rln10) (v (rG d)) S Cp)
  | EK2 => Some (finR d T P ((S - H / T) / Rln10) H S Cp)
  | EK3 => Some (finR d T P ((S - H / T - Cp * (1 - rTr d / T - ln (T / rTr d))) / Rln10) (H + Cp * (T - rTr d)) (S + Cp * ln (T / rTr d)) Cp)
  | LGK | LGX => if Nat.leb 7 (length (aL d T)) && Nat.leb 5 (length (cL d (aL d T)))
      then Some (finR d T P (lgK7 (aL d T) T) (H7 (aL d T) T) (S7 (aL d T) T) (Cp5 (cL d (aL d T)) T)) else None
  end.
Lemma logK_split : forall d ce T P, logK_fT d ce T P = outR d (chosen d ce T) T P.
Proof. reflexivity. Qed.
(** the choice does not depend on the temperature *)
Lemma chosen_const : forall d ce t u, chosen d ce t = chosen d ce u.
Proof.
  intros d ce t u. destruct ce; try reflexivity. unfold chosen, determineMethod, Hsc, Ssc.
  destruct (def (rS d)) eqn:E1, (def (rG d)) eqn:E2, (def (rH d)) eqn:E3; cbn [andb negb def v]; rewrite ?E1, ?E2, ?E3; reflexivity.
Qed.
Section Read.
Variables (e : rts) (d : rdata) (T P : R).
Hypothesis HR : reads_reaction e d.
Hypothesis HT : 0 < T.
Lemma def_eqs : isdef (xG e) = def (rG d) /\ isdef (xH e) = def (rH d) /\ isdef (xS e) = def (rS d) /\ isdef (xCp e) = def (rCp d).
Proof. destruct HR as [[_ A] [[_ B] [[_ C] [[_ D] _]]]]. auto. Qed.
Lemma c_G : carries (xG e) (fun _ _ => v (rG d)) T P. Proof. apply c_read. apply HR. Qed.
Lemma c_H0 : carries (xH e) (fun _ _ => v (rH d)) T P. Proof. apply c_read. apply HR. Qed.
Lemma c_S0 : carries (xS e) (fun _ _ => v (rS d)) T P. Proof. apply c_read. apply HR. Qed.
Lemma c_Cp : carries (xCp e) (fun _ _ => v (rCp d)) T P. Proof. apply c_read. apply HR. Qed.
Lemma c_K : carries (xK e) (fun _ _ => v (rlgK d)) T P. Proof. apply c_read. apply HR. Qed.
Lemma c_H : carries (HTS e T) (fun t _ => v (Hsc d t)) T P /\ isdef (HTS e T) = def (Hsc d T).
Proof.
  destruct def_eqs as [E1 [E2 [E3 _]]]. pose proof c_G. pose proof c_H0. pose proof c_S0. unfold HTS, Hsc. rewrite <- E1, <- E2, <- E3.
  destruct (isdef (xS e)) eqn:D1, (isdef (xG e)) eqn:D2, (isdef (xH e)) eqn:D3; cbn [andb negb v def]; try (split; [assumption|congruence]).
  split; [cs|]. unfold isdef in *. cbn [ts_add ts_mul sta ctor5 TK Temperature]. unfold status2, status1. cbn [sta ts_mul ctor5 TK Temperature fst] in *. unfold status2 in *. cbn [sta ctor5 TK Temperature fst].
  destruct (fst (sta (xS e))), (fst (sta (xG e))); cbn in *; congruence || reflexivity.
Qed.
Lemma c_S : carries (STS e T) (fun t _ => v (Ssc d t)) T P /\ isdef (STS e T) = def (Ssc d T).
Proof.
  destruct def_eqs as [E1 [E2 [E3 _]]]. pose proof c_G. pose proof c_H0. pose proof c_S0. unfold STS, Ssc. rewrite <- E1, <- E2, <- E3.
  destruct (isdef (xS e)) eqn:D1, (isdef (xG e)) eqn:D2, (isdef (xH e)) eqn:D3; cbn [andb negb v def]; try (split; [assumption|congruence]).
  split; [cs; lra|]. unfold isdef in *. unfold ts_div, ts_sub. cbn [sta ctor5 fst]; unfold status2; cbn [sta ctor5 fst TK Temperature];
  destruct (fst (sta (xH e))), (fst (sta (xG e))); cbn in *; congruence || reflexivity.
Qed.
Lemma chosen_eq : forall ce, match ce with EK3 => determineMethod (sc_of (HTS e T)) (sc_of (STS e T)) (sc_of (xCp e)) | c => c end = chosen d ce T.
Proof.
  intro ce. destruct ce; try reflexivity. unfold chosen. destruct c_H as [[A _] B], c_S as [[C _] D]. destruct def_eqs as [_ [_ [_ E]]].
  unfold determineMethod, sc_of. cbn [def v]. now rewrite A, B, C, D, E.
Qed.
Lemma aL_eq : xA e = rA d -> xC e = rC d -> match xA e, xC e with [], _ :: _ => A_of_C (resize 5 (xC e)) (val (STS e T)) (val (HTS e T)) T | a, [] => match a with [] => [] | _ => resize 7 a end | a, _ => a end = aL d T.
Proof. intros A C. rewrite A, C, (proj1 (proj1 c_H)), (proj1 (proj1 c_S)). reflexivity. Qed.
End Read.
Lemma R7_ext : forall r q q' T P, (forall t p, q t p = q' t p) -> carriesR7 r q T P -> carriesR7 r q' T P.
Proof.
  intros r q q' T P E [A [B [C [D [F [G H]]]]]]. unfold carriesR7.
  split; [eapply c_ext; [|exact A]; intros; cbv beta; now rewrite E|]. split; [eapply c_ext; [|exact B]; intros; cbv beta; now rewrite E|]. split; [eapply c_ext; [|exact C]; intros; cbv beta; now rewrite E|].
  split; [eapply c_ext; [|exact D]; intros; cbv beta; now rewrite E|]. split; [eapply c_ext; [|exact F]; intros; cbv beta; now rewrite E|]. split; [eapply c_ext; [|exact G]; intros; cbv beta; now rewrite E|].
  eapply c_ext; [|exact H]; intros; cbv beta; now rewrite E.
Qed.
Lemma R9_ext : forall r q q' T P, (forall t p, q t p = q' t p) -> carriesR r q T P -> carriesR r q' T P.
Proof.
  intros r q q' T P E [A [B C]]. split; [exact (R7_ext _ _ _ _ _ E A)|]. split; [eapply c_ext; [|exact B]; intros; cbv beta; now rewrite E|eapply c_ext; [|exact C]; intros; cbv beta; now rewrite E].
Qed.
Section Main.
Variables (e : rts) (d : rdata) (T P : R).
Hypothesis HR : reads_reaction e d.
Hypothesis HT : 0 < T.
Lemma fin_out : forall ce lg H S Cp (flg fH fS fCp : R -> R),
  (forall t p, outR d (chosen d ce T) t p = Some (finR d t p (flg t) (fH t) (fS t) (fCp t))) ->
  logKTS e ce T P = Some (finTS e T P lg H S Cp) -> carries lg (fun t _ => flg t) T P -> carries H (fun t _ => fH t) T P -> carries S (fun t _ => fS t) T P -> carries Cp (fun t _ => fCp t) T P ->
  forall o, logK_fT d ce T (P / 100000) = Some o ->
  exists r, logKTS e ce T P = Some r /\ carriesR7 r (fun t p => logK_fT d ce t (p / 100000)) T P /\ (dH o <> 0 -> carriesR r (fun t p => logK_fT d ce t (p / 100000)) T P).
Proof.
  intros ce lg H S Cp flg fH fS fCp E EQ C1 C2 C3 C4 o Ho. exists (finTS e T P lg H S Cp). split; [exact EQ|].
  assert (HV : read_value (xV e) (v (rV d))) by apply HR.
  assert (X : forall t p, Some (finR d t (p / 100000) (flg t) (fH t) (fS t) (fCp t)) = logK_fT d ce t (p / 100000)) by (intros; rewrite logK_split, (chosen_const d ce t T), E; reflexivity).
  split; [exact (R7_ext _ _ _ T P X (fin_7 e d T P lg H S Cp flg fH fS fCp HV C1 C2 C3 C4))|].
  intro N. apply (R9_ext _ _ _ T P X), fin_9; try assumption. rewrite <- (X T P) in Ho. inversion Ho. subst o. exact N.
Qed.
Lemma seven_case : forall ce o, ce = LGK \/ ce = LGX -> rA d <> [] -> xA e = rA d -> xC e = rC d -> logK_fT d ce T (P / 100000) = Some o ->
  exists r, logKTS e ce T P = Some r /\ carriesR7 r (fun t p => logK_fT d ce t (p / 100000)) T P /\ (dH o <> 0 -> carriesR r (fun t p => logK_fT d ce t (p / 100000)) T P).
Proof.
  intros ce o Hce HA EA EC Ho.
  assert (Ea : forall t, aL d t = aL d T) by (intro t; unfold aL; destruct (rA d); [contradiction|destruct (rC d); reflexivity]).
  assert (Ech : chosen d ce T = ce) by (destruct Hce; now subst).
  assert (L : Nat.leb 7 (length (aL d T)) && Nat.leb 5 (length (cL d (aL d T))) = true).
  { rewrite logK_split, Ech in Ho. destruct Hce; subst ce; cbn [outR] in Ho; destruct (Nat.leb 7 _ && _); [reflexivity|discriminate|reflexivity|discriminate]. }
  apply (fin_out ce (lgK7T (aL d T) T) (H7T (aL d T) T) (S7T (aL d T) T) (Cp5T (cL d (aL d T)) T) (lgK7 (aL d T)) (H7 (aL d T)) (S7 (aL d T)) (Cp5 (cL d (aL d T)))); [ | | | | | |exact Ho].
  - intros t p. rewrite Ech. destruct Hce; subst ce; cbn [outR]; cbv zeta; rewrite (Ea t), L; reflexivity.
  - pose proof (aL_eq e d T P HR HT EA EC) as K. assert (K2 : forall a, match xC e, xA e with [], _ :: _ => C_of_A a | c, [] => match c with [] => [] | _ => resize 5 c end | c, _ => c end = cL d a) by (intro a; rewrite EA, EC; reflexivity).
    cbv zeta in K, K2. unfold logKTS. cbv zeta. destruct Hce; subst ce; cbv iota beta; rewrite K, K2, L; reflexivity.
  - now apply c_lgK7.
  - now apply c_H7.
  - now apply c_S7.
  - now apply c_Cp5.
Qed.
Lemma method_not_7 : forall a b c, determineMethod a b c <> LGK /\ determineMethod a b c <> LGX.
Proof. intros a b c. unfold determineMethod. destruct (_ && _ && _); [split; discriminate|]. destruct (_ && _); [split; discriminate|]. destruct (_ || _); split; discriminate. Qed.
Theorem logK_carries : forall ce o, 0 < rTr d -> (ce = LGK \/ ce = LGX -> rA d <> []) -> logK_fT d ce T (P / 100000) = Some o ->
  exists r, logKTS e ce T P = Some r /\ carriesR7 r (fun t p => logK_fT d ce t (p / 100000)) T P /\ (dH o <> 0 -> carriesR r (fun t p => logK_fT d ce t (p / 100000)) T P).
Proof.
  intros ce o HTr HA Ho. pose proof (proj1 (c_H e d T P HR)) as CH. pose proof (proj1 (c_S e d T P HR HT)) as CS. pose proof (c_Cp e d T P HR) as CC. pose proof (c_G e d T P HR) as CG. pose proof (c_K e d T P HR) as CK.
  pose proof (chosen_eq e d T P HR HT ce) as EC. pose proof Rln10_pos as RL. assert (ETr : xTr e = rTr d) by apply HR. assert (EA : xA e = rA d) by apply HR. assert (EX : xC e = rC d) by apply HR.
  assert (Hq : 0 < T / rTr d) by now apply Rdiv_lt_0_compat.
  destruct (chosen d ce T) eqn:Ech.
  - eapply (fin_out ce); [intros t p; rewrite Ech; reflexivity|unfold logKTS; cbv zeta; rewrite EC; reflexivity| | | | |exact Ho]; cs.
  - eapply (fin_out ce); [intros t p; rewrite Ech; cbn [outR]; cbv zeta| |..|exact Ho].
    + instantiate (1 := fun _ => v (rCp d)). instantiate (1 := fun t => v (Ssc d t)). instantiate (1 := fun t => v (rG d)). instantiate (1 := fun t => - v (rG d) / t / Rln10). reflexivity.
    + unfold logKTS; cbv zeta; rewrite EC; reflexivity.
    + cs; lra.
    + cs.
    + cs.
    + cs.
  - eapply (fin_out ce); [intros t p; rewrite Ech; cbn [outR]; cbv zeta| |..|exact Ho].
    + instantiate (1 := fun _ => v (rCp d)). instantiate (1 := fun t => v (Ssc d t)). instantiate (1 := fun t => v (Hsc d t)). instantiate (1 := fun t => (v (Ssc d t) - v (Hsc d t) / t) / Rln10). reflexivity.
    + unfold logKTS; cbv zeta; rewrite EC; reflexivity.
    + cs; lra.
    + cs.
    + cs.
    + cs.
  - eapply (fin_out ce); [intros t p; rewrite Ech; cbn [outR]; cbv zeta| |..|exact Ho].
    + instantiate (1 := fun _ => v (rCp d)). instantiate (1 := fun t => v (Ssc d t) + v (rCp d) * ln (t / rTr d)). instantiate (1 := fun t => v (Hsc d t) + v (rCp d) * (t - rTr d)).
      instantiate (1 := fun t => (v (Ssc d t) - v (Hsc d t) / t - v (rCp d) * (1 - rTr d / t - ln (t / rTr d))) / Rln10). reflexivity.
    + unfold logKTS; cbv zeta; rewrite EC, ETr; reflexivity.
    + cs; lra.
    + cs.
    + cs; lra.
    + cs.
  - assert (ce = LGK) by (destruct ce; try discriminate; try reflexivity; exfalso; exact (proj1 (method_not_7 _ _ _) Ech)). apply seven_case; auto.
  - assert (ce = LGX) by (destruct ce; try discriminate; try reflexivity; exfalso; exact (proj2 (method_not_7 _ _ _) Ech)). apply seven_case; auto.
Qed.
End Main.
