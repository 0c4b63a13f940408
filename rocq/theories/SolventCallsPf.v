(** Proofs about the calls of the water models.  *)
From Coq Require Import Bool List Reals Lra String.
From Verif Require Import GemsModel GemsRun HgkSat HgkTrans HgkRoute HgkRoutePf SolventCalls.
Import ListNotations.
Open Scope R_scope.

Definition psat_Pa (T : R) : R := PsHGK T * 1000000.
Lemma setP_sat : forall T P, P < low_bar -> set_P PsHGK T P = (true, PsHGK T * 10).
Proof. intros T P H. unfold set_P. cbv zeta. destruct (Rlt_dec P low_bar); [|contradiction]. destruct (Req_EM_T (Rabs 0) 0) as [_|N]; [reflexivity|exfalso; apply N, Rabs_R0]. Qed.
Lemma setP_flag : forall T P, fst (set_P PsHGK T P) = false -> snd (set_P PsHGK T P) = P /\ low_bar <= P.
Proof.
  intros T P. destruct (Rlt_dec P low_bar) as [L|L]; [rewrite setP_sat by exact L; discriminate|]. unfold set_P. cbv zeta. destruct (Rlt_dec P low_bar); [contradiction|].
  match goal with |- context [if ?c then (true, _) else _] => destruct c end; [discriminate|]. intros _. cbn. split; [reflexivity|lra].
Qed.
Lemma setP_true : forall T P, fst (set_P PsHGK T P) = true -> snd (set_P PsHGK T P) = PsHGK T * 10.
Proof. intros T P. unfold set_P. cbv zeta. match goal with |- context [if ?c then (true, _) else _] => destruct c end; [reflexivity|discriminate]. Qed.
Lemma low_pos : 0 < low_bar. Proof. unfold low_bar. lra. Qed.
Lemma setP_apart : forall T P, low_bar <= P -> (T <= 647067 / 1000 -> 1 / 10 ^ 14 <= Rabs (P - Rabs (PsHGK T * 10))) -> set_P PsHGK T P = (false, P).
Proof.
  intros T P L A. pose proof low_pos as L0. unfold set_P. cbv zeta. destruct (Rlt_dec P low_bar); [lra|].
  assert (E : Rabs P = P) by (apply Rabs_right; lra). rewrite E. destruct (Req_EM_T P 0); [lra|].
  destruct (Rlt_dec _ (1 / 10 ^ 14)) as [Q|]; [|reflexivity]. exfalso. destruct (Rle_dec T (647067 / 1000)) as [K|K].
  - specialize (A K). lra.
  - rewrite Rabs_R0, Rminus_0_r, E in Q. revert L Q. unfold low_bar. lra.
Qed.
(** the chosen pressure is chosen again *)
Lemma setP_again : forall T P, T <= 647067 / 1000 -> fst (set_P PsHGK T P) = true -> set_P PsHGK T (PsHGK T * 10) = (true, PsHGK T * 10).
Proof.
  intros T P K _. destruct (Rlt_dec (PsHGK T * 10) low_bar) as [L|L]; [now apply setP_sat|]. pose proof low_pos.
  unfold set_P. cbv zeta. destruct (Rlt_dec (PsHGK T * 10) low_bar); [contradiction|]. destruct (Rle_dec T (647067 / 1000)); [|contradiction].
  destruct (Req_EM_T _ 0); [reflexivity|]. replace (Rabs (PsHGK T * 10) - Rabs (PsHGK T * 10)) with 0 by ring. rewrite Rabs_R0.
  destruct (Rlt_dec 0 (1 / 10 ^ 14)) as [|N]; [reflexivity|]. exfalso. apply N. lra.
Qed.
Lemma back : forall T, T - 27315 / 100 + 27315 / 100 = T. Proof. intro T. ring. Qed.
Lemma bar : forall P, P / 100000 * 100000 = P. Proof. intro P. field. Qed.
Lemma bar' : forall P, P * 100000 / 100000 = P. Proof. intro P. field. Qed.

Section HGK.
Context {A : Type} (pf : R -> R) (body : triple -> bool -> R -> R -> bool -> nat -> A).
Lemma hgk_done : forall T P st ref a P', hgk_call pf body T P st ref = (Done a, P') ->
  exists w, triple_at ref = Some w /\ let s := set_P PsHGK T (P / 100000) in
    valid (fst s) (lift_0 (T - 27315 / 100)) (snd s) = true /\ P' = snd s * 100000 /\
    a = body w (fst s) (lift_0 (T - 27315 / 100) + 27315 / 100) (snd s) (crtreg pf (fst s) (lift_0 (T - 27315 / 100) + 27315 / 100) (snd s / 10)) st.
Proof.
  intros T P st ref a P'. unfold hgk_call. cbv zeta. destruct (triple_at ref) as [w|]; [|discriminate]. intro H. exists w. split; [reflexivity|]. revert H. unfold route. cbv zeta. rewrite back.
  destruct (valid _ _ _) eqn:V; [|discriminate]. intro H. injection H as Ea Ep. subst. repeat split; try reflexivity; assumption.
Qed.
Lemma hgk_of : forall T P st ref w s, triple_at ref = Some w -> set_P PsHGK T (P / 100000) = s -> valid (fst s) (lift_0 (T - 27315 / 100)) (snd s) = true ->
  hgk_call pf body T P st ref = (Done (body w (fst s) (lift_0 (T - 27315 / 100) + 27315 / 100) (snd s) (crtreg pf (fst s) (lift_0 (T - 27315 / 100) + 27315 / 100) (snd s / 10)) st), snd s * 100000).
Proof. intros T P st ref w s E Es V. unfold hgk_call. cbv zeta. rewrite E. unfold route. cbv zeta. rewrite back, Es, V. reflexivity. Qed.
Lemma hgk_pressure : forall T P st ref a P', hgk_call pf body T P st ref = (Done a, P') ->
  (P < 611732 / 1000 -> P' = psat_Pa T) /\
  (611732 / 1000 <= P -> (T <= 647067 / 1000 -> 1 / 10 ^ 9 <= Rabs (P - Rabs (psat_Pa T))) -> P' = P) /\
  (P' = P \/ P' = psat_Pa T).
Proof.
  intros T P st ref a P' H. destruct (hgk_done _ _ _ _ _ _ H) as (w & _ & _ & E & _). split; [|split].
  - intro L. rewrite E, setP_sat by (unfold low_bar; lra). unfold psat_Pa. cbn. ring.
  - intros L K. rewrite E, setP_apart; [cbn; apply bar|unfold low_bar; lra|]. intro T'. specialize (K T').
    replace (P / 100000 - Rabs (PsHGK T * 10)) with ((P - Rabs (psat_Pa T)) * / 100000).
    + rewrite Rabs_mult, (Rabs_right (/ 100000)) by lra. lra.
    + unfold psat_Pa. rewrite !Rabs_mult, (Rabs_right 1000000), (Rabs_right 10) by lra. field.
  - destruct (fst (set_P PsHGK T (P / 100000))) eqn:F.
    + right. rewrite E, (setP_true _ _ F). unfold psat_Pa. ring.
    + left. rewrite E, (proj1 (setP_flag _ _ F)). apply bar.
Qed.
Lemma setP_left : forall T P, T <= 647067 / 1000 \/ 611732 / 1000 <= P -> set_P PsHGK T (snd (set_P PsHGK T (P / 100000))) = set_P PsHGK T (P / 100000).
Proof.
  intros T P K. destruct (set_P PsHGK T (P / 100000)) as [[|] q] eqn:Q; cbn [snd].
  - pose proof (setP_true T (P / 100000)) as Z. rewrite Q in Z. cbn in Z. rewrite (Z eq_refl). destruct (Rle_dec T (647067 / 1000)) as [K'|K'].
    + apply (setP_again T (P / 100000) K'). rewrite Q. reflexivity.
    + destruct K as [K|K]; [contradiction|]. rewrite setP_apart in Q; [discriminate|unfold low_bar; lra|intro; contradiction].
  - pose proof (setP_flag T (P / 100000)) as Z. rewrite Q in Z. cbn in Z. destruct (Z eq_refl) as (Z1 & _). rewrite Z1. rewrite <- Z1 at 2. exact Q.
Qed.
Lemma hgk_again : forall T P st ref a P', T <= 647067 / 1000 \/ 611732 / 1000 <= P -> hgk_call pf body T P st ref = (Done a, P') -> hgk_call pf body T P' st ref = (Done a, P').
Proof.
  intros T P st ref a P' K H. destruct (hgk_done _ _ _ _ _ _ H) as (w & Ew & V & E & Ea). cbv zeta in *.
  assert (Es : set_P PsHGK T (P' / 100000) = set_P PsHGK T (P / 100000)) by (rewrite E, bar'; now apply setP_left).
  rewrite (hgk_of _ _ _ _ _ _ Ew Es V). rewrite Ea, E. reflexivity.
Qed.
Lemma hgk_nowhere : forall T P st ref, triple_at ref = None -> hgk_call pf body T P st ref = (Refused, P / 100000).
Proof. intros T P st ref E. unfold hgk_call. now rewrite E. Qed.
Lemma hgk_refused : forall T P st ref q, hgk_call pf body T P st ref = (Refused, q) -> q = P / 100000 \/ q = psat_Pa T / 100000.
Proof.
  intros T P st ref q. unfold hgk_call. cbv zeta. destruct (triple_at ref) as [w|]; [|intro H; injection H as <-; now left].
  destruct (route pf _ _) as [[[[i k] p] l]|]; [discriminate|]. rewrite back. intro H. injection H as <-. destruct (fst (set_P PsHGK T (P / 100000))) eqn:F.
  - right. rewrite (setP_true _ _ F). unfold psat_Pa. field.
  - left. exact (proj1 (setP_flag _ _ F)).
Qed.
Lemma hgk_retry : forall T P st ref w, triple_at ref = Some w -> 647067 / 1000 < T <= 227315 / 100 -> 30001 * 100000 <= P <= 4693 * 10 ^ 10 ->
  hgk_call pf body T P st ref = (Refused, P / 100000) /\ exists a, hgk_call pf body T (P / 100000) st ref = (Done a, P / 100000).
Proof.
  intros T P st ref w Ew HT HP. assert (N : forall q, low_bar <= q -> set_P PsHGK T q = (false, q)) by (intros q Hq; apply setP_apart; [exact Hq|intro; lra]).
  assert (L : lift_0 (T - 27315 / 100) = T - 27315 / 100) by (unfold lift_0, HgkTrans.gt; destruct (Rlt_dec (T - 27315 / 100) (1 / 100)); [lra|reflexivity]).
  split.
  - unfold hgk_call. cbv zeta. rewrite Ew. unfold route. cbv zeta. rewrite back, N by (unfold low_bar; lra). cbn [fst snd].
    assert (V : valid false (lift_0 (T - 27315 / 100)) (P / 100000) = false); [|rewrite V; reflexivity].
    unfold valid, valTP. assert (G : HgkTrans.gt (P / 100000 - FPTOL) 30000 = true) by (unfold HgkTrans.gt, FPTOL; destruct (Rlt_dec 30000 (P / 100000 - 1 / 10 ^ 7)); [reflexivity|lra]).
    rewrite G, !orb_true_r. reflexivity.
  - eexists. rewrite (hgk_of _ _ _ _ w (false, P / 100000 / 100000)); [cbn [snd]; rewrite bar; reflexivity|exact Ew|apply N; unfold low_bar; lra|].
    cbn [fst snd]. rewrite L. apply one_accepted; unfold low_bar; lra.
Qed.
End HGK.

Lemma electro_same : forall (A B : Type) pf (body : triple -> bool -> R -> R -> bool -> nat -> A) (diel : triple -> bool -> R -> R -> bool -> nat -> B) T P st a P',
  T <= 647067 / 1000 \/ 611732 / 1000 <= P -> hgk_call pf body T P st "NEA_HGK" = (Done a, P') ->
  exists w isat Tk Pb l, a = body w isat Tk Pb l st /\ P' = Pb * 100000 /\ electro_hgk pf body diel T P st = (Done (a, diel w isat Tk Pb l st), P').
Proof.
  intros A B pf body diel T P st a P' K H. destruct (hgk_done pf body _ _ _ _ _ _ H) as (w & Ew & V & E & Ea). cbv zeta in *.
  do 5 eexists. split; [exact Ea|]. split; [exact E|]. unfold electro_hgk. cbv zeta. rewrite H. cbn [fst snd].
  assert (Es : set_P PsHGK T (P' / 100000) = set_P PsHGK T (P / 100000)) by (rewrite E, bar'; now apply setP_left).
  rewrite (hgk_of pf diel _ _ _ _ _ _ Ew Es V). reflexivity.
Qed.
Lemma rea_pressure : forall (W A : Type) psat (state_of : R -> R -> nat -> option W) (out : R -> W -> triple -> A) T P st ref o P',
  rea_call psat state_of out T P st ref = (o, P') -> (P <> 0 -> P' = P) /\ (P = 0 -> P' = psat T \/ o = Refused /\ P' = 0).
Proof.
  intros W A psat state_of out T P st ref o P'. unfold rea_call. cbv zeta. destruct (Req_EM_T P 0) as [E|E].
  - intro H. split; [contradiction|]. intros _. destruct (state_of T (psat T) st); [|injection H as <- <-; right; split; [reflexivity|exact E]].
    left. destruct (triple_at ref); now injection H.
  - intro H. split; [|contradiction]. intros _. destruct (state_of T P st); [|now injection H]. destruct (triple_at ref); now injection H.
Qed.
Lemma rea_again : forall (W A : Type) psat (state_of : R -> R -> nat -> option W) (out : R -> W -> triple -> A) T P st ref a P',
  0 < psat T -> rea_call psat state_of out T P st ref = (Done a, P') -> rea_call psat state_of out T P' st ref = (Done a, P').
Proof.
  intros W A psat state_of out T P st ref a P' Hp. unfold rea_call. cbv zeta. destruct (Req_EM_T P 0) as [E|E].
  - destruct (state_of T (psat T) st) as [w|] eqn:Sw; [|discriminate]. destruct (triple_at ref) as [t|]; [|discriminate]. intro H. injection H as <- <-.
    destruct (Req_EM_T (psat T) 0); [lra|]. rewrite Sw. reflexivity.
  - destruct (state_of T P st) as [w|] eqn:Sw; [|discriminate]. destruct (triple_at ref) as [t|]; [|discriminate]. intro H. injection H as <- <-.
    destruct (Req_EM_T P 0); [contradiction|]. rewrite Sw. reflexivity.
Qed.
Lemma zd_iff : forall (A : Type) (f : R -> R -> A) T P, snd (zd_call f T P) = P /\
  (0 <= T <= 227315 / 100 /\ 10 ^ 8 <= P <= 3 * 10 ^ 10 -> fst (zd_call f T P) = Done (f T (P / 100000))) /\ (~ (0 <= T <= 227315 / 100 /\ 10 ^ 8 <= P <= 3 * 10 ^ 10) -> fst (zd_call f T P) = Refused).
Proof.
  intros A f T P. unfold zd_call, checkModelValidity. destruct (Rlt_dec T 0), (Rlt_dec (227315 / 100) T), (Rlt_dec (3 * 10 ^ 10) P), (Rlt_dec P (10 ^ 8)); cbn [fst snd]; (split; [reflexivity|split; [intros (? & ?); try reflexivity; exfalso; lra|intro N; try reflexivity; exfalso; apply N; lra]]).
Qed.
Lemma triples_known : triple_at "NEA_HGK" <> None /\ triple_at "NEA_IAPWS" <> None /\ triple_at "HKF_HGK_1974" <> None /\ triple_at "SUPCRT92" = None.
Proof. repeat split; cbn; discriminate. Qed.
Lemma sat_case : forall pf, exists a, hgk_call pf (fun _ isat Tk Pb _ _ => (isat, Tk, Pb)) (37315 / 100) 0 0 "NEA_HGK" = (Done a, PsHGK (37315 / 100) * 1000000) /\
  fst (fst a) = true /\ snd (fst a) = 37315 / 100.
Proof.
  intro pf. assert (L : lift_0 (37315 / 100 - 27315 / 100) = 100) by (unfold lift_0, HgkTrans.gt; destruct (Rlt_dec (37315 / 100 - 27315 / 100) (1 / 100)); [lra|cbn; lra]).
  eexists. split; [|split].
  - erewrite (hgk_of pf _ (37315 / 100) 0 0 "NEA_HGK" _ (true, PsHGK (37315 / 100) * 10)); [|reflexivity|apply setP_sat; unfold low_bar; lra|].
    + cbn [fst snd]. f_equal. ring.
    + cbn [fst snd]. rewrite L. unfold valid, HgkTrans.le, Ttr, Tc, FPTOL. cbn. repeat (match goal with |- context [Rle_dec ?a ?b] => destruct (Rle_dec a b); [|exfalso; lra] end). reflexivity.
  - reflexivity.
  - cbn [fst snd]. rewrite L. lra.
Qed.
Lemma rea_case : rea_call (fun _ => 3) (fun T P (_ : nat) => Some (T, P)) (fun _ w _ => w) 300 0 0 "NEA_IAPWS" = (Done (300, 3), 3).
Proof. unfold rea_call. cbv zeta. destruct (Req_EM_T 0 0); [reflexivity|contradiction]. Qed.
Lemma refused : forall (A : Type) pf (body : triple -> bool -> R -> R -> bool -> nat -> A) T P state ref,
  (triple_at ref = None -> hgk_call pf body T P state ref = (Refused, P / 100000)) /\
  (forall q, hgk_call pf body T P state ref = (Refused, q) -> q = P / 100000 \/ q = PsHGK T * 1000000 / 100000) /\
  (triple_at ref <> None -> 647067 / 1000 < T <= 227315 / 100 -> 30001 * 100000 <= P <= 4693 * 10 ^ 10 ->
     hgk_call pf body T P state ref = (Refused, P / 100000) /\ exists a, hgk_call pf body T (P / 100000) state ref = (Done a, P / 100000)).
Proof.
  intros A pf body T P state ref. split; [apply hgk_nowhere|]. split; [apply hgk_refused|]. intros N HT HP. destruct (triple_at ref) as [w|] eqn:E; [|contradiction].
  exact (hgk_retry pf body T P state ref w E HT HP).
Qed.
Lemma refused_case : triple_at "SUPCRT92" = None /\ triple_at "NEA_HGK" <> None /\ 647067 / 1000 < 700 <= 227315 / 100 /\ 30001 * 100000 <= 4000000000 <= 4693 * 10 ^ 10.
Proof. split; [reflexivity|]. split; [cbn; discriminate|]. lra. Qed.
Lemma frozen : forall (A : Type) (f : R -> R -> A) T, 0 <= T < 27315 / 100 -> fst (zd_call f T (10 ^ 9)) = Done (f T 10000).
Proof. intros A f T H. rewrite (proj1 (proj2 (zd_iff A f T (10 ^ 9)))) by lra. f_equal. f_equal. field. Qed.
