(** Caches are transparent when nothing hidden differs between calls (C09). *)
From Coq Require Import Reals String List Bool ZArith Lra Lia.
From Verif Require Import ThermoScalarModel EngineModel EngineSpec EngineProofs EngineInv EngineTerm.
Import ListNotations.
Open Scope R_scope.

Lemma ev_and : forall P Q : nat -> Prop, eventually P -> eventually Q -> eventually (fun n => P n /\ Q n).
Proof.
  intros P Q [N HN] [K HK]. exists (Nat.max N K). intros n Hn. split; [apply HN|apply HK]; lia.
Qed.
Lemma ev_imp : forall P Q : nat -> Prop, (forall n, P n -> Q n) -> eventually P -> eventually Q.
Proof. intros P Q Hi [N HN]. exists N. auto. Qed.
Lemma ev_always : forall P : nat -> Prop, (forall n, P n) -> eventually P.
Proof. intros P Hp. exists O. auto. Qed.
Lemma ev_pred : forall P : nat -> Prop, eventually P -> eventually (fun n => P (Nat.pred n) /\ (1 <= n)%nat).
Proof. intros P [N HN]. exists (Datatypes.S N). intros n Hn. split; [apply HN|]; lia. Qed.

Section Hist.
Context (mm : Models) (c : config).
Hypothesis Hsolv : exists s, assoc (g_solv c) (g_subs c) = Some s.
Hypothesis Hgas : no_gas_models c.
Hypothesis Hkp : keeps_pressure mm.
Hypothesis Hrp : refP_given c.
Notation cfg := (has_config c).

Definition ok (P : R) (e : est) : Prop := cfg e /\ e_wrapped e = false /\ pv e = P.
(** what the uncached engine answers, for every large enough fuel *)
Definition truth {X} (P : R) (m : nat -> M X) (r : res X) : Prop :=
  eventually (fun n => forall e2, ok P e2 -> snd (m n e2) = r /\ ok P (fst (m n e2))).
Definition good (e : est) : Prop :=
  (forall T P x v, In ((T, P, x), v) (c_s e) -> truth P (fun n => substFn mm n T x) (Ret v)) /\
  (forall T P x v, In ((T, P, x), v) (c_r e) -> truth P (fun n => reacFn mm n T x) (Ret v)) /\
  (forall T P x z v, In ((T, P, x, z), v) (c_ps e) -> truth P (fun _ => ps_fn mm T x z) (Ret v)) /\
  (forall T P x z v, In ((T, P, x, z), v) (c_eps e) -> truth P (fun _ => eps_fn mm T x z) (Ret v)).
Definition okc (P : R) (e : est) : Prop := cfg e /\ good e /\ pv e = P.

Definition sim {X} (pre : est -> Prop) (m1 : M X) (m2 : nat -> M X) : Prop :=
  forall P e1, P <> 0 -> okc P e1 -> pre e1 ->
    snd (m1 e1) = Fuel \/
    (okc P (fst (m1 e1)) /\
     eventually (fun n => forall e2, ok P e2 -> pre e2 -> snd (m2 n e2) = snd (m1 e1) /\ ok P (fst (m2 n e2)))).
Notation any := (fun _ : est => True).

Lemma sim_ret : forall X pre (x : X), sim pre (ret x) (fun _ => ret x).
Proof. intros X pre x P e1 HP He _. right. split; [exact He|]. apply ev_always. intros n e2 H2 _. split; [reflexivity|exact H2]. Qed.
Lemma sim_throw : forall X pre, sim pre (@throw X) (fun _ => throw).
Proof. intros X pre P e1 HP He _. right. split; [exact He|]. apply ev_always. intros n e2 H2 _. split; [reflexivity|exact H2]. Qed.
Lemma sim_lift : forall X pre (o : option X), sim pre (lift o) (fun _ => lift o).
Proof. intros X pre [x|]; [apply sim_ret|apply sim_throw]. Qed.
Lemma sim_bindp : forall X Y (pre post : est -> Prop) (m1 : M X) (m2 : nat -> M X) (f1 : X -> M Y) (f2 : nat -> X -> M Y),
  sim pre m1 m2 ->
  (forall e, pre e -> post (fst (m1 e))) -> (forall n e, pre e -> post (fst (m2 n e))) ->
  (forall x, sim post (f1 x) (fun n => f2 n x)) ->
  sim pre (bind m1 f1) (fun n => bind (m2 n) (f2 n)).
Proof.
  intros X Y pre post m1 m2 f1 f2 Hm Hp1 Hp2' Hf P e1 HP He Hpre.
  specialize (Hp1 e1 Hpre).
  destruct (Hm P e1 HP He Hpre) as [Hfu|[Hok Hev]].
  - left. unfold bind. destruct (m1 e1) as [e1' r]. cbn in Hfu. subst r. reflexivity.
  - unfold bind. destruct (m1 e1) as [e1' [x| |]]; cbn [fst snd] in *.
    + destruct (Hf x P e1' HP Hok Hp1) as [Hfu|[Hok' Hev']]; [left; exact Hfu|right].
      split; [exact Hok'|]. generalize (ev_and _ _ Hev Hev'). apply ev_imp. intros n [HA HB] e2 H2 Hp2.
      destruct (HA e2 H2 Hp2) as [Q1 Q2]. specialize (Hp2' n e2 Hp2).
      destruct (m2 n e2) as [e2' r]. cbn [fst snd] in *. subst r.
      apply HB; assumption.
    + right. split; [exact Hok|]. revert Hev. apply ev_imp. intros n HA e2 H2 Hp2.
      destruct (HA e2 H2 Hp2) as [Q1 Q2]. destruct (m2 n e2) as [e2' r]. cbn [fst snd] in *. subst r. auto.
    + left. reflexivity.
Qed.
Lemma sim_bind : forall X Y (pre : est -> Prop) (m1 : M X) (m2 : nat -> M X) (f1 : X -> M Y) (f2 : nat -> X -> M Y),
  sim pre m1 m2 -> (forall x, sim any (f1 x) (fun n => f2 n x)) ->
  sim pre (bind m1 f1) (fun n => bind (m2 n) (f2 n)).
Proof. intros. apply sim_bindp with (post := any); auto. Qed.
Lemma sim_weaken : forall X pre (m1 : M X) m2, sim any m1 m2 -> sim pre m1 m2.
Proof.
  intros X pre m1 m2 Hs P e1 HP He _. destruct (Hs P e1 HP He Logic.I) as [Q|[Q1 Q2]]; [left; exact Q|right].
  split; [exact Q1|]. revert Q2. apply ev_imp. intros n HA e2 H2 _. apply HA; [exact H2|exact Logic.I].
Qed.
(** two states that agree on everything but caches, the flag and the state *)
Definition alike (e1 e2 : est) : Prop := cfg e1 /\ cfg e2 /\ pv e1 = pv e2 /\ pv e1 <> 0.
Lemma sim_get : forall X (pre : est -> Prop) (f1 : est -> M X) (f2 : nat -> est -> M X),
  (forall e1 e2, alike e1 e2 -> pre e1 -> pre e2 -> forall n, f2 n e2 = f2 n e1) ->
  (forall e1, cfg e1 -> pv e1 <> 0 -> pre e1 -> sim pre (f1 e1) (fun n => f2 n e1)) ->
  sim pre (bind get f1) (fun n => bind get (f2 n)).
Proof.
  intros X pre f1 f2 Heq Hf P e1 HP He Hp. unfold bind, get.
  pose proof He as (Hc & _ & Hpv). assert (Hne : pv e1 <> 0) by congruence.
  destruct (Hf e1 Hc Hne Hp P e1 HP He Hp) as [Q|[Q1 Q2]]; [left; exact Q|right].
  split; [exact Q1|]. revert Q2. apply ev_imp. intros n HA e2 H2 Hp2.
  rewrite (Heq e1 e2); auto. destruct H2 as (Hc2 & _ & Hpv2). repeat split; try apply Hc; try apply Hc2; congruence.
Qed.
Lemma sim_upd : forall pre f, (forall e, cfg e -> cfg (f e)) -> (forall e, pv (f e) = pv e) ->
  (forall e, e_wrapped (f e) = e_wrapped e) ->
  (forall e, c_s (f e) = c_s e /\ c_r (f e) = c_r e /\ c_ps (f e) = c_ps e /\ c_eps (f e) = c_eps e) ->
  sim pre (upd f) (fun _ => upd f).
Proof.
  intros pre f H1 H2 H3 H4 P e1 HP (Hc & Hg & Hpv) _. right. cbn. split.
  - split; [auto|]. split; [|rewrite H2; exact Hpv]. destruct (H4 e1) as (E1 & E2 & E3 & E4).
    unfold good. rewrite E1, E2, E3, E4. exact Hg.
  - apply ev_always. intros n e2 (Q1 & Q2 & Q3) _. split; [reflexivity|]. repeat split; try apply H1; auto.
    + rewrite H3; exact Q2.
    + rewrite H2; exact Q3.
Qed.
Lemma sim_local : forall X p (m1 : M X) m2, p <> 0 -> sim any m1 m2 ->
  sim any (with_local p m1) (fun n => with_local p (m2 n)).
Proof.
  intros X p m1 m2 Hp0 Hs P e1 HP (Hc & Hg & Hpv) _. unfold with_local.
  assert (He : okc p (with_pv e1 p)) by (repeat split; try apply Hc; apply Hg).
  destruct (Hs p (with_pv e1 p) Hp0 He Logic.I) as [Q|[Q1 Q2]].
  - left. destruct (m1 (with_pv e1 p)) as [e' r]. exact Q.
  - right. destruct (m1 (with_pv e1 p)) as [e' r]. cbn [fst snd] in *. split.
    + destruct Q1 as (Qc & Qg & Qp). repeat split; try apply Qc; try apply Qg. exact Hpv.
    + revert Q2. apply ev_imp. intros n HA e2 (H1 & H2 & H3) _.
      assert (O2 : ok p (with_pv e2 p)) by (repeat split; try apply H1; exact H2).
      destruct (HA _ O2 Logic.I) as [A1 A2]. destruct (m2 n (with_pv e2 p)) as [e2' r2]. cbn [fst snd] in *.
      split; [exact A1|]. destruct A2 as (B1 & B2 & B3). repeat split; try apply B1; [exact B2|exact H3].
Qed.
Lemma sim_getS : forall X (pre : est -> Prop) x (f1 : Subst -> M X) (f2 : nat -> Subst -> M X),
  (forall s, assoc x (g_subs c) = Some s -> sim pre (f1 s) (fun n => f2 n s)) ->
  sim pre (bind (getSubstance x) f1) (fun n => bind (getSubstance x) (f2 n)).
Proof.
  intros X pre x f1 f2 Hf P e1 HP He Hp. unfold bind, getSubstance, bind, get, lift.
  pose proof He as ((E1 & _) & _). rewrite E1.
  destruct (assoc x (g_subs c)) as [s|] eqn:Ex.
  - unfold ret. destruct (Hf s eq_refl P e1 HP He Hp) as [Q|[Q1 Q2]]; [left; exact Q|right].
    split; [exact Q1|]. revert Q2. apply ev_imp. intros n HA e2 H2 Hp2.
    pose proof H2 as ((E2 & _) & _). rewrite E2, Ex. auto.
  - right. split; [exact He|]. apply ev_always. intros n e2 H2 Hp2.
    pose proof H2 as ((E2 & _) & _). rewrite E2, Ex. split; [reflexivity|exact H2].
Qed.
Lemma sim_getR : forall X (pre : est -> Prop) x (f1 : Reac -> M X) (f2 : nat -> Reac -> M X),
  (forall s, sim pre (f1 s) (fun n => f2 n s)) ->
  sim pre (bind (getReaction x) f1) (fun n => bind (getReaction x) (f2 n)).
Proof.
  intros X pre x f1 f2 Hf P e1 HP He Hp. unfold bind, getReaction, bind, get, lift.
  pose proof He as ((_ & E1 & _) & _). rewrite E1.
  destruct (assoc x (g_reacs c)) as [s|] eqn:Ex.
  - unfold ret. destruct (Hf s P e1 HP He Hp) as [Q|[Q1 Q2]]; [left; exact Q|right].
    split; [exact Q1|]. revert Q2. apply ev_imp. intros n HA e2 H2 Hp2.
    pose proof H2 as ((_ & E2 & _) & _). rewrite E2, Ex. auto.
  - right. split; [exact He|]. apply ev_always. intros n e2 H2 Hp2.
    pose proof H2 as ((_ & E2 & _) & _). rewrite E2, Ex. split; [reflexivity|exact H2].
Qed.
Lemma prefs_eq : forall s e, cfg e -> prefsSubstance s e = (with_state e (if s_gas s then 1 else 0)%Z, Ret tt).
Proof.
  intros s e (E1 & _ & _ & E4 & _). unfold prefsSubstance, bind, upd.
  destruct (is_solute (s_class s)); [|reflexivity]. cbn [e_solv e_subs with_state]. rewrite E1, E4.
  destruct Hsolv as [s' Hs']. rewrite Hs'. reflexivity.
Qed.
Definition at_state (z : Z) (e : est) : Prop := e_state e = z.
Lemma sim_prefs : forall X s (m1 : M X) m2,
  sim (at_state (if s_gas s then 1 else 0)%Z) m1 m2 ->
  sim any (bind (prefsSubstance s) (fun _ => m1)) (fun n => bind (prefsSubstance s) (fun _ => m2 n)).
Proof.
  intros X s m1 m2 Hs P e1 HP He _. unfold bind. pose proof He as (Hc & Hg & Hpv). rewrite (prefs_eq s e1 Hc).
  assert (He' : okc P (with_state e1 (if s_gas s then 1 else 0)%Z)) by (repeat split; try apply Hc; try apply Hg; exact Hpv).
  destruct (Hs P _ HP He' eq_refl) as [Q|[Q1 Q2]]; [left; exact Q|right]. split; [exact Q1|].
  revert Q2. apply ev_imp. intros n HA e2 (H1 & H2 & H3) _. rewrite (prefs_eq s e2 H1).
  apply HA; [|reflexivity]. repeat split; try apply H1; assumption.
Qed.
Lemma sim_setstate : forall X (pre : est -> Prop) z (m1 : M X) (m2 : nat -> M X),
  (forall z', sim (at_state z') m1 m2) ->
  (forall e1 e2, pre e1 -> pre e2 -> e_state e1 = e_state e2) ->
  sim pre (bind (setstate z) (fun _ => m1)) (fun n => bind (setstate z) (fun _ => m2 n)).
Proof.
  intros X pre z m1 m2 Hs Hpre P e1 HP He Hp. unfold setstate.
  destruct (Z.ltb (-1) z && Z.ltb z 2) eqn:Ez; unfold bind, upd, ret; pose proof He as (Hc & Hg & Hpv).
  - assert (He' : okc P (with_state e1 z)) by (repeat split; try apply Hc; try apply Hg; exact Hpv).
    destruct (Hs z P _ HP He' eq_refl) as [Q|[Q1 Q2]]; [left; exact Q|right]. split; [exact Q1|].
    revert Q2. apply ev_imp. intros n HA e2 (H1 & H2 & H3) _.
    apply HA; [|reflexivity]. repeat split; try apply H1; assumption.
  - destruct (Hs (e_state e1) P e1 HP He eq_refl) as [Q|[Q1 Q2]]; [left; exact Q|right]. split; [exact Q1|].
    revert Q2. apply ev_imp. intros n HA e2 H2 Hp2. apply HA; [exact H2|]. unfold at_state. symmetry. apply Hpre; assumption.
Qed.
(** a water model call: reads pv and the state, writes pv back *)
Lemma sim_water : forall X z (f : R -> Z -> option (X * R)),
  (forall P st x p, P <> 0 -> f P st = Some (x, p) -> p = P) ->
  sim (at_state z)
    (do e <- get; do x <- lift (f (pv e) (e_state e)); upd (fun e => with_pv e (snd x)) ;; ret (fst x))
    (fun _ => do e <- get; do x <- lift (f (pv e) (e_state e)); upd (fun e => with_pv e (snd x)) ;; ret (fst x)).
Proof.
  intros X z f Hf P e1 HP He Hst. unfold bind, get, lift, upd, ret. right.
  pose proof He as (Hc & Hg & Hpv). unfold at_state in *. rewrite Hpv, Hst.
  destruct (f P z) as [[x p]|] eqn:Ef.
  - assert (p = P) as -> by (eapply Hf; eauto). cbn [fst snd]. split.
    + repeat split; try apply Hc; apply Hg.
    + apply ev_always. intros n e2 (H1 & H2 & H3) Hs2. rewrite H3, Hs2, Ef. cbn. split; [reflexivity|].
      repeat split; try apply H1; exact H2.
  - split; [exact He|]. apply ev_always. intros n e2 (H1 & H2 & H3) Hs2. rewrite H3, Hs2, Ef. cbn. split; [reflexivity|].
    repeat split; try apply H1; assumption.
Qed.
Lemma at_same : forall z e1 e2, at_state z e1 -> at_state z e2 -> e_state e1 = e_state e2.
Proof. unfold at_state. congruence. Qed.
Lemma sim_solvent : forall T s z, sim any (propertiesSolvent mm T s z) (fun _ => propertiesSolvent mm T s z).
Proof.
  intros T s z. unfold propertiesSolvent. apply sim_prefs. apply sim_setstate; [|apply at_same].
  intros z'. destruct (ps_method s).
  - apply (sim_water PS z' (fun P st => m_ps mm (s_mT s) s T P st)). intros. destruct Hkp as (_ & K & _). eapply K; eauto.
  - apply sim_weaken, sim_ret.
Qed.
(** propertiesSolvent leaves the state number it was given *)
Lemma solvent_state : forall T s z e, e_state (fst (propertiesSolvent mm T s z e)) =
  if Z.ltb (-1) z && Z.ltb z 2 then z else (if s_gas s then 1 else 0)%Z.
Proof.
  intros T s z e. unfold propertiesSolvent, prefsSubstance, setstate, bind, upd, ret, get, lift, throw.
  destruct (is_solute (s_class s)); [match goal with |- context [assoc ?a ?b] => destruct (assoc a b) end|];
  destruct (Z.ltb (-1) z && Z.ltb z 2); destruct (ps_method s); cbn;
  try match goal with |- context [m_ps ?a ?b ?c ?d ?e ?f] => destruct (m_ps a b c d e f) as [[? ?]|] end; reflexivity.
Qed.
Lemma sim_electro : forall T s z, sim any (electroPropertiesSolvent mm T s z) (fun _ => electroPropertiesSolvent mm T s z).
Proof.
  intros T s z. unfold electroPropertiesSolvent. apply sim_prefs. apply sim_setstate; [|apply at_same].
  intros z'. apply sim_get.
  - intros e1 e2 _ H1 H2 n. rewrite (at_same z' e2 e1 H2 H1). reflexivity.
  - intros e1 _ _ H1. apply sim_bindp with (post := at_state (if Z.ltb (-1) z' && Z.ltb z' 2 then z' else (if s_gas s then 1 else 0)%Z)).
    + apply sim_weaken, sim_solvent.
    + intros e _. unfold at_state in *. rewrite <- H1. apply solvent_state.
    + intros _ e _. unfold at_state in *. rewrite <- H1. apply solvent_state.
    + intros ps. destruct (eps_method s); [|apply sim_weaken, sim_ret].
      apply (sim_water EPS _ (fun P st => m_eps mm (s_eos s) s T P ps st)).
      intros. destruct Hkp as (_ & _ & K). eapply K; eauto.
Qed.
Lemma pkey_in : forall X (k : pkey) (l : list (pkey * X)) v, lookup pkey_eqb k l = Some v -> In (k, v) l.
Proof.
  intros X k l. induction l as [|[k' v'] l IH]; intros v Hv; cbn in Hv; [discriminate|].
  destruct (pkey_eqb k k') eqn:E.
  - left. inversion Hv; subst. f_equal. unfold pkey_eqb in E.
    destruct k as [[[t p] s] z], k' as [[[t' p'] s'] z']. apply andb_prop in E. destruct E as [E E4].
    apply andb_prop in E. destruct E as [E E3].
    apply andb_prop in E. destruct E as [E1 E2]. apply String.eqb_eq in E3. apply Z.eqb_eq in E4.
    unfold req in *. destruct (Req_EM_T t t'), (Req_EM_T p p'); try discriminate. congruence.
  - right. auto.
Qed.
Lemma ok_unw : forall P e, ok P e -> e_wrapped e = false. Proof. intros P e (_ & H1 & _). exact H1. Qed.
Lemma truth_weaken : forall X P (m : nat -> M X) r, truth P m r -> 
  eventually (fun n => forall e2, ok P e2 -> True -> snd (m n e2) = r /\ ok P (fst (m n e2))).
Proof. intros X P m r. apply ev_imp. auto. Qed.

Lemma sim_memo : forall X (mc body : M X) (m2 body2 : nat -> M X) (hit : est -> option X) (ins : est -> X -> est -> est),
  (forall e, mc e = if e_wrapped e then match hit e with
                      | Some v => (e, Ret v)
                      | None => (do v <- body; upd (ins e v) ;; ret v) e end
                    else body e) ->
  (forall P n e2, ok P e2 -> (1 <= n)%nat -> m2 n e2 = body2 (Nat.pred n) e2) ->
  sim any body body2 ->
  (forall P e v, okc P e -> hit e = Some v -> truth P m2 (Ret v)) ->
  (forall P e v e', pv e = P -> okc P e' -> truth P m2 (Ret v) -> okc P (ins e v e')) ->
  sim any mc m2.
Proof.
  intros X mc body m2 body2 hit ins Hmc Hm2 B Hhit Hins P e1 HP He _.
  pose proof He as (Hc & Hg & Hpv). rewrite Hmc.
  assert (S2 : forall r, eventually (fun n => forall e2, ok P e2 -> True -> snd (body2 n e2) = r /\ ok P (fst (body2 n e2))) ->
                truth P m2 r).
  { intros r Hev. apply ev_pred in Hev. revert Hev. apply ev_imp. intros n [HA Hn] e2 H2.
    rewrite (Hm2 P n e2 H2 Hn). apply HA; [exact H2|exact Logic.I]. }
  destruct (e_wrapped e1).
  - destruct (hit e1) as [v|] eqn:El.
    + right. cbn. split; [exact He|]. apply truth_weaken. eapply Hhit; eauto.
    + destruct (B P e1 HP He Logic.I) as [Q|[Q1 Q2]].
      { left. unfold bind. destruct (body e1) as [e' r]. cbn in Q. subst r. reflexivity. }
      apply S2 in Q2. unfold bind.
      destruct (body e1) as [e' [v| |]]; cbn [fst snd upd ret] in *.
      * right. split; [apply Hins; assumption|]. apply truth_weaken. exact Q2.
      * right. split; [exact Q1|]. apply truth_weaken. exact Q2.
      * left. reflexivity.
  - destruct (B P e1 HP He Logic.I) as [Q|[Q1 Q2]]; [left; exact Q|right]. split; [exact Q1|].
    apply truth_weaken, S2, Q2.
Qed.

Lemma sim_ps_fn : forall T x z, sim any (ps_fn mm T x z) (fun _ => ps_fn mm T x z).
Proof.
  intros T x z.
  apply sim_memo with (body := do s <- getSubstance x; propertiesSolvent mm T s z)
    (body2 := fun _ => do s <- getSubstance x; propertiesSolvent mm T s z)
    (hit := fun e => lookup pkey_eqb (T, pv e, x, z) (c_ps e))
    (ins := fun e v e' => with_caches e' (c_s e') (c_r e') (((T, pv e, x, z), v) :: c_ps e') (c_eps e')).
  - intros e. unfold ps_fn. unfold bind at 1, get at 1.
    destruct (e_wrapped e); [destruct (lookup _ _ _)|]; reflexivity.
  - intros P n e2 H2 _. unfold ps_fn. unfold bind at 1, get at 1. rewrite (ok_unw P e2 H2). reflexivity.
  - apply (sim_getS _ _ x (fun s => propertiesSolvent mm T s z) (fun _ s => propertiesSolvent mm T s z)). intros. apply sim_solvent.
  - intros P e v (_ & (_ & _ & Hg & _) & Hpv) El. apply pkey_in in El. rewrite Hpv in El. exact (Hg _ _ _ _ _ El).
  - intros P e v e' Hp (C1 & (G1 & G2 & G3 & G4) & P1) Tr. split; [exact C1|]. split; [|exact P1].
    split; [exact G1|]. split; [exact G2|]. split; [|exact G4].
    intros T' P' x' z' v' [Hin|Hin]; [|exact (G3 _ _ _ _ _ Hin)]. inversion Hin; subst. exact Tr.
Qed.
Lemma sim_eps_fn : forall T x z, sim any (eps_fn mm T x z) (fun _ => eps_fn mm T x z).
Proof.
  intros T x z.
  apply sim_memo with (body := do s <- getSubstance x; electroPropertiesSolvent mm T s z)
    (body2 := fun _ => do s <- getSubstance x; electroPropertiesSolvent mm T s z)
    (hit := fun e => lookup pkey_eqb (T, pv e, x, z) (c_eps e))
    (ins := fun e v e' => with_caches e' (c_s e') (c_r e') (c_ps e') (((T, pv e, x, z), v) :: c_eps e')).
  - intros e. unfold eps_fn. unfold bind at 1, get at 1.
    destruct (e_wrapped e); [destruct (lookup _ _ _)|]; reflexivity.
  - intros P n e2 H2 _. unfold eps_fn. unfold bind at 1, get at 1. rewrite (ok_unw P e2 H2). reflexivity.
  - apply (sim_getS _ _ x (fun s => electroPropertiesSolvent mm T s z) (fun _ s => electroPropertiesSolvent mm T s z)). intros. apply sim_electro.
  - intros P e v (_ & (_ & _ & _ & Hg) & Hpv) El. apply pkey_in in El. rewrite Hpv in El. exact (Hg _ _ _ _ _ El).
  - intros P e v e' Hp (C1 & (G1 & G2 & G3 & G4) & P1) Tr. split; [exact C1|]. split; [|exact P1].
    split; [exact G1|]. split; [exact G2|]. split; [exact G3|].
    intros T' P' x' z' v' [Hin|Hin]; [|exact (G4 _ _ _ _ _ Hin)]. inversion Hin; subst. exact Tr.
Qed.
(** what both states answer when read *)
Lemma read_pv : forall X (g : R -> M X) e1 e2, alike e1 e2 -> g (pv e2) = g (pv e1).
Proof. intros X g e1 e2 (_ & _ & Hp & _). rewrite Hp. reflexivity. Qed.
Lemma solv_same : forall e1 e2, alike e1 e2 -> e_solv e2 = e_solv e1.
Proof. intros e1 e2 ((_&_&_&E1&_) & (_&_&_&E2&_) & _). congruence. Qed.
Lemma cfg_solv : forall e, cfg e -> e_solv e = g_solv c.
Proof. intros e (_&_&_&E1&_). exact E1. Qed.
Lemma fb_same : forall e1 e2, alike e1 e2 -> e_fallback e2 = e_fallback e1.
Proof. intros e1 e2 ((_&_&_&_&E1&_) & (_&_&_&_&E2&_) & _). congruence. Qed.
Lemma pv_same : forall e1 e2, alike e1 e2 -> pv e2 = pv e1.
Proof. intros e1 e2 (_ & _ & Hp & _). auto. Qed.
Lemma conv_same : forall e1 e2, alike e1 e2 -> e_water e2 = e_water e1 /\ e_apparent e2 = e_apparent e1 /\ e_triple e2 = e_triple e1.
Proof. intros e1 e2 ((_&_&E3&_&_&E6&E7) & (_&_&F3&_&_&F6&F7) & _). repeat split; congruence. Qed.

Definition plainS (s : Subst) : Prop := is_gasm (s_mP s) = false /\ s_mP s <> CPM_OFF.

Lemma sim_genEOS : forall T s, sim any (genEOS mm T s) (fun _ => genEOS mm T s).
Proof.
  intros T s. unfold genEOS. cbv zeta.
  destruct (Z.eqb (s_eos s) CTPM_CON); [apply sim_ret|].
  destruct (Z.eqb (s_eos s) CTPM_CPT).
  { apply (sim_get _ _ (fun e => lift (m_cpt mm s T (pv e))) (fun _ e => lift (m_cpt mm s T (pv e)))); [|intros; apply sim_lift].
    intros e1 e2 Ha _ _ n. rewrite (pv_same _ _ Ha). reflexivity. }
  destruct (_ || _).
  { apply (sim_get _ _ _ (fun _ e => do ps <- ps_fn mm T (e_solv e) (-1); do e1 <- get; do eps <- eps_fn mm T (e_solv e1) (-1); do e2 <- get; lift (m_hkf mm (s_eos s) s T (pv e2) ps eps))).
    { intros e1 e2 Ha _ _ n. rewrite (solv_same _ _ Ha). reflexivity. }
    intros e Hc _ _. apply (sim_bind _ _ _ _ _ _ (fun _ ps => do e1 <- get; do eps <- eps_fn mm T (e_solv e1) (-1); do e2 <- get; lift (m_hkf mm (s_eos s) s T (pv e2) ps eps))); [apply sim_ps_fn|].
    intros ps. apply (sim_get _ _ _ (fun _ e1 => do eps <- eps_fn mm T (e_solv e1) (-1); do e2 <- get; lift (m_hkf mm (s_eos s) s T (pv e2) ps eps))).
    { intros e1 e2 Ha _ _ n. rewrite (solv_same _ _ Ha). reflexivity. }
    intros e0 Hc0 _ _. apply (sim_bind _ _ _ _ _ _ (fun _ eps => do e2 <- get; lift (m_hkf mm (s_eos s) s T (pv e2) ps eps))); [apply sim_eps_fn|].
    intros eps. apply (sim_get _ _ _ (fun _ e2 => lift (m_hkf mm (s_eos s) s T (pv e2) ps eps))); [|intros; apply sim_lift].
    intros e1 e2 Ha _ _ n. rewrite (pv_same _ _ Ha). reflexivity. }
  destruct (_ || _); [|apply sim_ret].
  apply (sim_get _ _ _ (fun _ e => do sv <- getSubstance (e_solv e); do psr <- with_local (s_refP sv) (ps_fn mm (s_refT sv) (e_solv e) (-1)); do ps <- ps_fn mm T (e_solv e) (-1); do e2 <- get; lift (m_dens mm (s_eos s) s T (pv e2) psr ps))).
  { intros e1 e2 Ha _ _ n. rewrite (solv_same _ _ Ha). reflexivity. }
  intros e Hc _ _. apply (sim_getS _ _ _ _ (fun _ sv => do psr <- with_local (s_refP sv) (ps_fn mm (s_refT sv) (e_solv e) (-1)); do ps <- ps_fn mm T (e_solv e) (-1); do e2 <- get; lift (m_dens mm (s_eos s) s T (pv e2) psr ps))).
  intros sv Hsv.
  apply (sim_bind _ _ _ _ _ _ (fun _ psr => do ps <- ps_fn mm T (e_solv e) (-1); do e2 <- get; lift (m_dens mm (s_eos s) s T (pv e2) psr ps))).
  { apply (sim_local _ _ _ (fun _ => ps_fn mm (s_refT sv) (e_solv e) (-1))); [exact (Hrp _ _ Hsv)|apply sim_ps_fn]. }
  intros psr. apply (sim_bind _ _ _ _ _ _ (fun _ ps => do e2 <- get; lift (m_dens mm (s_eos s) s T (pv e2) psr ps))); [apply sim_ps_fn|].
  intros ps. apply (sim_get _ _ _ (fun _ e2 => lift (m_dens mm (s_eos s) s T (pv e2) psr ps))); [|intros; apply sim_lift].
  intros e1 e2 Ha _ _ n. rewrite (pv_same _ _ Ha). reflexivity.
Qed.
Lemma sim_methT : forall T s t, sim any (methT mm T s t) (fun _ => methT mm T s t).
Proof.
  intros T s t. unfold methT.
  destruct (Z.eqb (s_eos s) CTPM_CON); [apply sim_ret|].
  destruct (Z.eqb (s_mT s) CTM_CHP).
  { apply (sim_get _ _ _ (fun _ e => lift (m_landau mm s T (pv e) t))); [|intros; apply sim_lift].
    intros e1 e2 Ha _ _ n. rewrite (pv_same _ _ Ha). reflexivity. }
  destruct (_ && _); [|apply sim_ret].
  apply (sim_get _ _ _ (fun _ e => lift (m_cst mm s T (pv e)))); [|intros; apply sim_lift].
  intros e1 e2 Ha _ _ n. rewrite (pv_same _ _ Ha). reflexivity.
Qed.
Lemma sim_methP : forall rs1 rs2 T s t, plainS s -> (forall T x, sim any (rs1 T x) (fun n => rs2 n T x)) ->
  sim any (methP mm rs1 T s t) (fun n => methP mm (rs2 n) T s t).
Proof.
  intros rs1 rs2 T s t [Hg Ho] Hrs. unfold methP. cbv zeta. rewrite Hg.
  replace (Z.eqb (s_mP s) CPM_OFF) with false by (symmetry; apply Z.eqb_neq; exact Ho).
  destruct (Z.eqb (s_eos s) CTPM_CON); [apply sim_ret|].
  destruct (Z.eqb (s_mP s) CPM_AKI).
  { match goal with |- sim _ (bind get ?f) _ =>
      apply (sim_get _ _ f (fun n e => do sv <- getSubstance (e_solv e);
         do w <- rs2 n T (e_solv e); do e1 <- get; do wig <- lift (m_woolley mm sv T (pv e1));
         do ps <- ps_fn mm T (e_solv e) (-1);
         do wr <- with_local (s_refP sv) (rs2 n (s_refT sv) (e_solv e));
         do wigr <- lift (m_woolley mm sv (s_refT sv) (s_refP sv));
         do psr <- with_local (s_refP sv) (ps_fn mm (s_refT sv) (e_solv e) (-1));
         do e2 <- get; lift (m_aki mm s T (pv e2) t w wig ps wr wigr psr))) end.
    { intros e1 e2 Ha _ _ n. rewrite (solv_same _ _ Ha). reflexivity. }
    intros e Hc _ _.
    apply (sim_getS _ _ _ _ (fun n sv =>
         do w <- rs2 n T (e_solv e); do e1 <- get; do wig <- lift (m_woolley mm sv T (pv e1));
         do ps <- ps_fn mm T (e_solv e) (-1);
         do wr <- with_local (s_refP sv) (rs2 n (s_refT sv) (e_solv e));
         do wigr <- lift (m_woolley mm sv (s_refT sv) (s_refP sv));
         do psr <- with_local (s_refP sv) (ps_fn mm (s_refT sv) (e_solv e) (-1));
         do e2 <- get; lift (m_aki mm s T (pv e2) t w wig ps wr wigr psr))).
    intros sv Hsv. pose proof (Hrp _ _ Hsv) as Hrp0.
    apply (sim_bind _ _ _ _ _ _ (fun n w => do e1 <- get; do wig <- lift (m_woolley mm sv T (pv e1));
         do ps <- ps_fn mm T (e_solv e) (-1);
         do wr <- with_local (s_refP sv) (rs2 n (s_refT sv) (e_solv e));
         do wigr <- lift (m_woolley mm sv (s_refT sv) (s_refP sv));
         do psr <- with_local (s_refP sv) (ps_fn mm (s_refT sv) (e_solv e) (-1));
         do e2 <- get; lift (m_aki mm s T (pv e2) t w wig ps wr wigr psr))); [apply Hrs|].
    intros w. apply (sim_get _ _ _ (fun n e1 => do wig <- lift (m_woolley mm sv T (pv e1));
         do ps <- ps_fn mm T (e_solv e) (-1);
         do wr <- with_local (s_refP sv) (rs2 n (s_refT sv) (e_solv e));
         do wigr <- lift (m_woolley mm sv (s_refT sv) (s_refP sv));
         do psr <- with_local (s_refP sv) (ps_fn mm (s_refT sv) (e_solv e) (-1));
         do e2 <- get; lift (m_aki mm s T (pv e2) t w wig ps wr wigr psr))).
    { intros e1 e2 Ha _ _ n. rewrite (pv_same _ _ Ha). reflexivity. }
    intros e0 _ _ _. apply (sim_bind _ _ _ _ _ _ (fun n wig =>
         do ps <- ps_fn mm T (e_solv e) (-1);
         do wr <- with_local (s_refP sv) (rs2 n (s_refT sv) (e_solv e));
         do wigr <- lift (m_woolley mm sv (s_refT sv) (s_refP sv));
         do psr <- with_local (s_refP sv) (ps_fn mm (s_refT sv) (e_solv e) (-1));
         do e2 <- get; lift (m_aki mm s T (pv e2) t w wig ps wr wigr psr))); [apply sim_lift|].
    intros wig. apply (sim_bind _ _ _ _ _ _ (fun n ps =>
         do wr <- with_local (s_refP sv) (rs2 n (s_refT sv) (e_solv e));
         do wigr <- lift (m_woolley mm sv (s_refT sv) (s_refP sv));
         do psr <- with_local (s_refP sv) (ps_fn mm (s_refT sv) (e_solv e) (-1));
         do e2 <- get; lift (m_aki mm s T (pv e2) t w wig ps wr wigr psr))); [apply sim_ps_fn|].
    intros ps. apply (sim_bind _ _ _ _ _ _ (fun n wr =>
         do wigr <- lift (m_woolley mm sv (s_refT sv) (s_refP sv));
         do psr <- with_local (s_refP sv) (ps_fn mm (s_refT sv) (e_solv e) (-1));
         do e2 <- get; lift (m_aki mm s T (pv e2) t w wig ps wr wigr psr))).
    { apply (sim_local _ _ _ (fun n => rs2 n (s_refT sv) (e_solv e))); [exact Hrp0|apply Hrs]. }
    intros wr. apply (sim_bind _ _ _ _ _ _ (fun n wigr =>
         do psr <- with_local (s_refP sv) (ps_fn mm (s_refT sv) (e_solv e) (-1));
         do e2 <- get; lift (m_aki mm s T (pv e2) t w wig ps wr wigr psr))); [apply sim_lift|].
    intros wigr. apply (sim_bind _ _ _ _ _ _ (fun n psr =>
         do e2 <- get; lift (m_aki mm s T (pv e2) t w wig ps wr wigr psr))).
    { apply (sim_local _ _ _ (fun n => ps_fn mm (s_refT sv) (e_solv e) (-1))); [exact Hrp0|apply sim_ps_fn]. }
    intros psr. apply (sim_get _ _ _ (fun n e2 => lift (m_aki mm s T (pv e2) t w wig ps wr wigr psr))); [|intros; apply sim_lift].
    intros e1 e2 Ha _ _ n. rewrite (pv_same _ _ Ha). reflexivity. }
  destruct (is_min (s_mP s)).
  { apply (sim_get _ _ _ (fun _ e => lift (m_min mm (s_mP s) s T (pv e) t))); [|intros; apply sim_lift].
    intros e1 e2 Ha _ _ n. rewrite (pv_same _ _ Ha). reflexivity. }
  destruct (Z.eqb (s_mP s) CPM_CON); [|apply sim_ret].
  apply (sim_get _ _ _ (fun _ e => ret (conMolVol s T (pv e) t))); [|intros; apply sim_ret].
  intros e1 e2 Ha _ _ n. rewrite (pv_same _ _ Ha). reflexivity.
Qed.
Lemma sim_waterSwitch : forall z T s, sim (at_state z) (waterSwitch mm T s) (fun _ => waterSwitch mm T s).
Proof.
  intros z T s. unfold waterSwitch.
  destruct (Z.eqb (s_eos s) CTPM_CON); [apply sim_weaken, sim_ret|].
  destruct (is_waterT (s_mT s)).
  { apply (sim_water TPS z (fun P st => m_water mm (s_mT s) s T P st)).
    intros. destruct Hkp as (K & _ & _). eapply K; eauto. }
  apply sim_weaken. destruct (Z.eqb (s_eos s) CTPM_CPT); [|apply sim_ret].
  apply (sim_get _ _ _ (fun _ e => lift (m_cpt mm s T (pv e)))); [|intros; apply sim_lift].
  intros e1 e2 Ha _ _ n. rewrite (pv_same _ _ Ha). reflexivity.
Qed.
Lemma sim_convention : forall s t, sim any (convention mm s t) (fun _ => convention mm s t).
Proof.
  intros s t. unfold convention.
  apply (sim_get _ _ _ (fun _ e => if is_solvent (s_class s)
    then ret (if iequals (e_water e) "STEAM_TABLES" then toSteamTables t (e_triple e) else t)
    else if iequals (e_apparent e) "BERMAN_BROWN"
       then do ee <- lift (m_elent mm s); ret (toBermanBrown t (s_refT s) ee)
       else ret t)).
  - intros e1 e2 Ha _ _ n. destruct (conv_same _ _ Ha) as (E1 & E2 & E3). rewrite E1, E2, E3. reflexivity.
  - intros e _ _ _. destruct (is_solvent (s_class s)); [apply sim_ret|].
    destruct (iequals (e_apparent e) "BERMAN_BROWN"); [|apply sim_ret].
    apply (sim_bind _ _ _ _ _ _ (fun _ ee => ret (toBermanBrown t (s_refT s) ee))); [apply sim_lift|intros; apply sim_ret].
Qed.
Lemma sim_direct : forall z rs1 rs2 T s, plainS s -> (forall T x, sim any (rs1 T x) (fun n => rs2 n T x)) ->
  sim (at_state z) (direct mm rs1 T s) (fun n => direct mm (rs2 n) T s).
Proof.
  intros z rs1 rs2 T s Hp Hrs. unfold direct.
  apply (sim_bind _ _ _ _ (fun n => if is_solvent (s_class s) || isH2Ovapor s then waterSwitch mm T s
           else do a <- genEOS mm T s; do b <- methT mm T s a; methP mm (rs2 n) T s b) _ (fun _ t => convention mm s t)).
  - destruct (_ || _); [apply sim_waterSwitch|]. apply sim_weaken.
    apply (sim_bind _ _ _ _ _ _ (fun n a => do b <- methT mm T s a; methP mm (rs2 n) T s b)); [apply sim_genEOS|].
    intros a. apply (sim_bind _ _ _ _ _ _ (fun n b => methP mm (rs2 n) T s b)); [apply sim_methT|].
    intros b. apply sim_methP; assumption.
  - intros t. apply sim_convention.
Qed.
Lemma sim_subr : forall rs1 rs2 T self l t, (forall T x, sim any (rs1 T x) (fun n => rs2 n T x)) ->
  sim any (sub_reactants rs1 T self l t) (fun n => sub_reactants (rs2 n) T self l t).
Proof.
  intros rs1 rs2 T self l. induction l as [|[x d] l IH]; intros t Hrs; cbn; [apply sim_ret|].
  destruct (String.eqb x self); [apply IH; exact Hrs|].
  apply (sim_bind _ _ _ _ _ _ (fun n r => sub_reactants (rs2 n) T self l (sub_reactant t r d))); [apply Hrs|].
  intros r. apply IH. exact Hrs.
Qed.
Lemma sim_addr : forall rs1 rs2 T a b l t, (forall T x, sim any (rs1 T x) (fun n => rs2 n T x)) ->
  sim any (add_reactants rs1 T a b l t) (fun n => add_reactants (rs2 n) T a b l t).
Proof.
  intros rs1 rs2 T a b l. induction l as [|[x d] l IH]; intros t Hrs; cbn; [apply sim_ret|].
  apply (sim_getS _ _ _ _ (fun n s => if noMethods s && String.eqb (s_reaction s) a then throw
      else do t0 <- rs2 n T x; add_reactants (rs2 n) T a b l (add_reactant T b x t t0 d))).
  intros s _. destruct (_ && _); [apply sim_throw|].
  apply (sim_bind _ _ _ _ _ _ (fun n t0 => add_reactants (rs2 n) T a b l (add_reactant T b x t t0 d))); [apply Hrs|].
  intros r. apply IH. exact Hrs.
Qed.
Lemma sim_applyP : forall pre b, sim pre (upd (fun e => with_applyP e b)) (fun _ => upd (fun e => with_applyP e b)).
Proof. intros pre b. apply sim_upd; auto. Qed.
Lemma sim_reacDC : forall rs1 rs2 rr1 rr2 ro1 ro2 T s,
  (forall T x, sim any (rs1 T x) (fun n => rs2 n T x)) ->
  (forall T x, sim any (rr1 T x) (fun n => rr2 n T x)) ->
  (forall T, sim any (ro1 T (set_eos s CTPM_CON)) (fun n => ro2 n T (set_eos s CTPM_CON))) ->
  sim any (reacDC rs1 rr1 ro1 T s) (fun n => reacDC (rs2 n) (rr2 n) (ro2 n) T s).
Proof.
  intros rs1 rs2 rr1 rr2 ro1 ro2 T s Hrs Hrr Hro. unfold reacDC. cbv zeta.
  apply (sim_bind _ _ _ _ _ _ (fun n _ => if String.eqb (s_reaction s) "" then ro2 n T (set_eos s CTPM_CON)
   else do r <- getReaction (s_reaction s); do tpr <- rr2 n T (s_reaction s);
    do t <- sub_reactants (rs2 n) T (s_symbol s) (r_reactants r) (tps_of_tpr tpr);
    upd (fun e => with_applyP e false) ;;
    if Z.eqb (s_mP s) CPM_CON && (Z.eqb (r_mP r) CPM_OFF || Z.eqb (r_mP r) 0)
    then do e <- get; ret (conMolVol s T (pv e) (fallback (e_fallback e) (div_all t (coef (s_symbol s) (r_reactants r))) s))
    else ret (div_all t (coef (s_symbol s) (r_reactants r))))); [apply sim_applyP|].
  intros _. destruct (String.eqb (s_reaction s) ""); [apply Hro|].
  apply (sim_getR _ _ _ _ (fun n r => do tpr <- rr2 n T (s_reaction s);
    do t <- sub_reactants (rs2 n) T (s_symbol s) (r_reactants r) (tps_of_tpr tpr);
    upd (fun e => with_applyP e false) ;;
    if Z.eqb (s_mP s) CPM_CON && (Z.eqb (r_mP r) CPM_OFF || Z.eqb (r_mP r) 0)
    then do e <- get; ret (conMolVol s T (pv e) (fallback (e_fallback e) (div_all t (coef (s_symbol s) (r_reactants r))) s))
    else ret (div_all t (coef (s_symbol s) (r_reactants r))))).
  intros r. apply (sim_bind _ _ _ _ _ _ (fun n tpr => 
    do t <- sub_reactants (rs2 n) T (s_symbol s) (r_reactants r) (tps_of_tpr tpr);
    upd (fun e => with_applyP e false) ;;
    if Z.eqb (s_mP s) CPM_CON && (Z.eqb (r_mP r) CPM_OFF || Z.eqb (r_mP r) 0)
    then do e <- get; ret (conMolVol s T (pv e) (fallback (e_fallback e) (div_all t (coef (s_symbol s) (r_reactants r))) s))
    else ret (div_all t (coef (s_symbol s) (r_reactants r))))); [apply Hrr|].
  intros tpr. apply (sim_bind _ _ _ _ _ _ (fun n t => 
    upd (fun e => with_applyP e false) ;;
    if Z.eqb (s_mP s) CPM_CON && (Z.eqb (r_mP r) CPM_OFF || Z.eqb (r_mP r) 0)
    then do e <- get; ret (conMolVol s T (pv e) (fallback (e_fallback e) (div_all t (coef (s_symbol s) (r_reactants r))) s))
    else ret (div_all t (coef (s_symbol s) (r_reactants r))))); [apply sim_subr; exact Hrs|].
  intros t. apply (sim_bind _ _ _ _ _ _ (fun n _ => 
    if Z.eqb (s_mP s) CPM_CON && (Z.eqb (r_mP r) CPM_OFF || Z.eqb (r_mP r) 0)
    then do e <- get; ret (conMolVol s T (pv e) (fallback (e_fallback e) (div_all t (coef (s_symbol s) (r_reactants r))) s))
    else ret (div_all t (coef (s_symbol s) (r_reactants r))))); [apply sim_applyP|].
  intros _. destruct (_ && _); [|apply sim_ret].
  apply (sim_get _ _ _ (fun n e => ret (conMolVol s T (pv e) (fallback (e_fallback e) (div_all t (coef (s_symbol s) (r_reactants r))) s)))); [|intros; apply sim_ret].
  intros e1 e2 Ha _ _ n. rewrite (pv_same _ _ Ha), (fb_same _ _ Ha). reflexivity.
Qed.
Lemma sim_substBody : forall rs1 rs2 rr1 rr2 ro1 ro2 T s, plainS s ->
  (forall T x, sim any (rs1 T x) (fun n => rs2 n T x)) ->
  (forall T x, sim any (rr1 T x) (fun n => rr2 n T x)) ->
  (forall T, sim any (ro1 T (set_eos s CTPM_CON)) (fun n => ro2 n T (set_eos s CTPM_CON))) ->
  sim any (substBody mm rs1 rr1 ro1 T s) (fun n => substBody mm (rs2 n) (rr2 n) (ro2 n) T s).
Proof.
  intros rs1 rs2 rr1 rr2 ro1 ro2 T s Hp Hrs Hrr Hro. unfold substBody.
  apply sim_prefs. destruct (String.eqb (s_symbol s) "H+"); [apply sim_weaken, sim_ret|].
  apply (sim_bind _ _ _ _ (fun n => if isReacDC s then reacDC (rs2 n) (rr2 n) (ro2 n) T s else direct mm (rs2 n) T s) _
     (fun _ t => do e <- get; ret (fallback (e_fallback e) t s))).
  - destruct (isReacDC s); [apply sim_weaken, sim_reacDC; assumption|apply sim_direct; assumption].
  - intros t. apply (sim_get _ _ _ (fun _ e => ret (fallback (e_fallback e) t s))); [|intros; apply sim_ret].
    intros e1 e2 Ha _ _ n. rewrite (fb_same _ _ Ha). reflexivity.
Qed.
Lemma sim_reacP : forall T r t, sim any (reacP mm T r t) (fun _ => reacP mm T r t).
Proof.
  intros T r t. unfold reacP.
  apply (sim_get _ _ _ (fun _ e => if Z.eqb (r_mP r) CPM_VKE || Z.eqb (r_mP r) CPM_VBE then lift (m_rvol mm r T (pv e))
    else if Z.eqb (r_mP r) CPM_NUL || Z.eqb (r_mP r) CPM_CON then ret (reacConVol r T (pv e) t) else ret t)).
  - intros e1 e2 Ha _ _ n. rewrite (pv_same _ _ Ha). reflexivity.
  - intros e _ _ _. destruct (_ || _); [apply sim_lift|]. destruct (_ || _); apply sim_ret.
Qed.
Lemma sim_reacBody : forall rs1 rs2 T r, (forall T x, sim any (rs1 T x) (fun n => rs2 n T x)) ->
  sim any (reacBody mm rs1 T r) (fun n => reacBody mm (rs2 n) T r).
Proof.
  intros rs1 rs2 T r Hrs. unfold reacBody. cbv zeta.
  destruct (isFromReactants r).
  { unfold fromReactants.
    apply (sim_bind _ _ _ _ _ _ (fun n _ => do t <- add_reactants (rs2 n) T (r_symbol r)
            ("Calculated from the reaction components: " ++ r_symbol r ++ "; ")%string (r_reactants r) zeroTPR;
            upd (fun e => with_applyP e false) ;; ret t)); [apply sim_applyP|].
    intros _. apply (sim_bind _ _ _ _ _ _ (fun n t => upd (fun e => with_applyP e false) ;; ret t)); [apply sim_addr; exact Hrs|].
    intros t. apply (sim_bind _ _ _ _ _ _ (fun n _ => ret t)); [apply sim_applyP|intros; apply sim_ret]. }
  destruct (Z.eqb (r_eos r) CTPM_CON); [apply sim_ret|].
  set (mT := if Z.eqb (r_eos r) CTPM_REA then CTM_LGK else r_mT r).
  destruct (is_logK mT).
  { apply (sim_get _ _ _ (fun _ e => do t <- lift (m_logK mm r T (pv e) mT); reacP mm T r t)).
    - intros e1 e2 Ha _ _ n. rewrite (pv_same _ _ Ha). reflexivity.
    - intros e _ _ _. apply (sim_bind _ _ _ _ _ _ (fun _ t => reacP mm T r t)); [apply sim_lift|intros; apply sim_reacP]. }
  destruct (_ || _).
  { apply (sim_get _ _ _ (fun _ e => do ps <- ps_fn mm T (e_solv e) (-1); do e1 <- get; do t <- lift (m_rdens mm mT r T (pv e1) ps); reacP mm T r t)).
    - intros e1 e2 Ha _ _ n. rewrite (solv_same _ _ Ha). reflexivity.
    - intros e _ _ _. apply (sim_bind _ _ _ _ _ _ (fun _ ps => do e1 <- get; do t <- lift (m_rdens mm mT r T (pv e1) ps); reacP mm T r t)); [apply sim_ps_fn|].
      intros ps. apply (sim_get _ _ _ (fun _ e1 => do t <- lift (m_rdens mm mT r T (pv e1) ps); reacP mm T r t)).
      + intros e1 e2 Ha _ _ n. rewrite (pv_same _ _ Ha). reflexivity.
      + intros e0 _ _ _. apply (sim_bind _ _ _ _ _ _ (fun _ t => reacP mm T r t)); [apply sim_lift|intros; apply sim_reacP]. }
  destruct (Z.eqb mT CTM_MRB); [|apply sim_reacP].
  apply (sim_get _ _ _ (fun _ e => do ps <- ps_fn mm T (e_solv e) (-1); do e1 <- get; lift (m_rdens mm mT r T (pv e1) ps))).
  - intros e1 e2 Ha _ _ n. rewrite (solv_same _ _ Ha). reflexivity.
  - intros e _ _ _. apply (sim_bind _ _ _ _ _ _ (fun _ ps => do e1 <- get; lift (m_rdens mm mT r T (pv e1) ps))); [apply sim_ps_fn|].
    intros ps. apply (sim_get _ _ _ (fun _ e1 => lift (m_rdens mm mT r T (pv e1) ps))); [|intros; apply sim_lift].
    intros e1 e2 Ha _ _ n. rewrite (pv_same _ _ Ha). reflexivity.
Qed.
Lemma sim_reacSym : forall rs1 rs2 T x, (forall T x, sim any (rs1 T x) (fun n => rs2 n T x)) ->
  sim any (reacSym mm rs1 T x) (fun n => reacSym mm (rs2 n) T x).
Proof.
  intros rs1 rs2 T x Hrs. unfold reacSym.
  apply (sim_get _ _ _ (fun n e => match assoc x (e_reacs e) with
    | Some r => reacBody mm (rs2 n) T r
    | None => if has_eq x then do r <- lift (m_equation mm x); reacBody mm (rs2 n) T r else throw end)).
  - intros e1 e2 ((_ & E1 & _) & (_ & E2 & _) & _) _ _ n. rewrite E1, E2. reflexivity.
  - intros e _ _ _. destruct (assoc x (e_reacs e)); [apply sim_reacBody; exact Hrs|].
    destruct (has_eq x); [|apply sim_throw].
    apply (sim_bind _ _ _ _ _ _ (fun n r => reacBody mm (rs2 n) T r)); [apply sim_lift|]. intros r. apply sim_reacBody. exact Hrs.
Qed.
(** shifting the fuel of the right-hand side *)
Lemma sim_shift : forall X pre (m1 : M X) (m2 m2' : nat -> M X),
  (forall n, m2' (Datatypes.S n) = m2 n) -> sim pre m1 m2 -> sim pre m1 m2'.
Proof.
  intros X pre m1 m2 m2' He Hs P e1 HP H1 Hp. destruct (Hs P e1 HP H1 Hp) as [Q|[Q1 Q2]]; [left; exact Q|right].
  split; [exact Q1|]. apply ev_pred in Q2. revert Q2. apply ev_imp. intros [|n] [HA Hn] e2 H2 Hp2; [lia|].
  rewrite He. apply HA; assumption.
Qed.
Lemma sim_all : forall k,
  (forall T s, plainS s -> sim any (substObj mm k T s) (fun n => substObj mm n T s)) /\
  (forall T x, sim any (substFn mm k T x) (fun n => substFn mm n T x)) /\
  (forall T x, sim any (reacFn mm k T x) (fun n => reacFn mm n T x)).
Proof.
  intros k. induction k as [|k (IHo & IHs & IHr)].
  - split; [|split]; intros; intros P e1 HP He _; left; reflexivity.
  - split; [|split].
    + intros T s Hp. apply (sim_shift _ _ _ (fun n => substBody mm (substFn mm n) (reacFn mm n) (substObj mm n) T s)); [reflexivity|].
      rewrite substObj_S. apply sim_substBody; auto. 
    + intros T x.
      apply sim_memo with (body := do s <- getSubstance x; substObj mm k T s)
        (body2 := fun n => do s <- getSubstance x; substObj mm n T s)
        (hit := fun e => lookup skey_eqb (T, pv e, x) (c_s e))
        (ins := fun e v e' => with_caches e' (((T, pv e, x), v) :: c_s e') (c_r e') (c_ps e') (c_eps e')).
      * intros e. rewrite substFn_S. unfold memoS. unfold bind at 1, get at 1.
        destruct (e_wrapped e); [destruct (lookup _ _ _)|]; reflexivity.
      * intros P [|n] e2 H2 Hn; [lia|]. rewrite substFn_S. unfold memoS. unfold bind at 1, get at 1.
        rewrite (ok_unw P e2 H2). reflexivity.
      * apply (sim_getS _ _ _ _ (fun n s => substObj mm n T s)). intros s Hs. apply IHo. exact (Hgas _ _ Hs).
      * intros P e v (_ & (Hg & _) & Hpv) El. apply lookup_in in El. rewrite Hpv in El. exact (Hg _ _ _ _ El).
      * intros P e v e' Hp (C1 & (G1 & G2 & G3 & G4) & P1) Tr. split; [exact C1|]. split; [|exact P1].
        split; [|split; [exact G2|split; [exact G3|exact G4]]].
        intros T' P' x' v' [Hin|Hin]; [|exact (G1 _ _ _ _ Hin)]. inversion Hin; subst. exact Tr.
    + intros T x.
      apply sim_memo with (body := reacSym mm (substFn mm k) T x)
        (body2 := fun n => reacSym mm (substFn mm n) T x)
        (hit := fun e => lookup skey_eqb (T, pv e, x) (c_r e))
        (ins := fun e v e' => with_caches e' (c_s e') (((T, pv e, x), v) :: c_r e') (c_ps e') (c_eps e')).
      * intros e. rewrite reacFn_S. unfold memoR. unfold bind at 1, get at 1.
        destruct (e_wrapped e); [destruct (lookup _ _ _)|]; reflexivity.
      * intros P [|n] e2 H2 Hn; [lia|]. rewrite reacFn_S. unfold memoR. unfold bind at 1, get at 1.
        rewrite (ok_unw P e2 H2). reflexivity.
      * apply sim_reacSym. exact IHs.
      * intros P e v (_ & (_ & Hg & _) & Hpv) El. apply lookup_in in El. rewrite Hpv in El. exact (Hg _ _ _ _ El).
      * intros P e v e' Hp (C1 & (G1 & G2 & G3 & G4) & P1) Tr. split; [exact C1|]. split; [|exact P1].
        split; [exact G1|split; [|split; [exact G3|exact G4]]].
        intros T' P' x' v' [Hin|Hin]; [|exact (G2 _ _ _ _ Hin)]. inversion Hin; subst. exact Tr.
Qed.

(** histories of queries *)
Lemma okc_pv : forall P P' e, okc P e -> okc P' (with_pv e P').
Proof. intros P P' e (H1 & H2 & _). split; [exact H1|split; [exact H2|reflexivity]]. Qed.
Definition uncached_out (n : nat) (q : query) : out := snd (step mm n (uncached c) (op_of q)).
Lemma step_query : forall k e P0 q, okc P0 e -> qP q <> 0 ->
  let '(e', o) := step mm k e (op_of q) in
  crashed o \/ ((exists P1, okc P1 e') /\ eventually (fun n => uncached_out n q = o)).
Proof.
  intros k e P0 q He Hq. destruct (sim_all k) as (_ & Ss & Sr).
  assert (Ou : forall P, ok P (with_pv (uncached c) P)) by (intros; repeat split).
  destruct q as [T P x|T P x]; cbn in *; unfold call.
  - destruct (Ss T x P (with_pv e P) Hq (okc_pv _ _ _ He) Logic.I) as [Q|[Q1 Q2]].
    + destruct (substFn mm k T x (with_pv e P)) as [e' r]. cbn in Q. subst r. left. left. reflexivity.
    + destruct (substFn mm k T x (with_pv e P)) as [e' r]. cbn [fst snd] in *. right. split; [eexists; exact Q1|].
      revert Q2. apply ev_imp. intros n HA. destruct (HA _ (Ou P) Logic.I) as [A1 _].
      unfold uncached_out. cbn. unfold call. destruct (substFn mm n T x (with_pv (uncached c) P)). cbn in *. congruence.
  - destruct (Sr T x P (with_pv e P) Hq (okc_pv _ _ _ He) Logic.I) as [Q|[Q1 Q2]].
    + destruct (reacFn mm k T x (with_pv e P)) as [e' r]. cbn in Q. subst r. left. right. reflexivity.
    + destruct (reacFn mm k T x (with_pv e P)) as [e' r]. cbn [fst snd] in *. right. split; [eexists; exact Q1|].
      revert Q2. apply ev_imp. intros n HA. destruct (HA _ (Ou P) Logic.I) as [A1 _].
      unfold uncached_out. cbn. unfold call. destruct (reacFn mm n T x (with_pv (uncached c) P)). cbn in *. congruence.
Qed.
Lemma run_queries : forall k qs e P0, okc P0 e -> (forall q, In q qs -> qP q <> 0) ->
  (exists o, In o (snd (run_ops mm k e (map op_of qs))) /\ crashed o) \/
  eventually (fun n => snd (run_ops mm k e (map op_of qs)) = map (uncached_out n) qs).
Proof.
  intros k qs. induction qs as [|q qs IH]; intros e P0 He Hq; cbn.
  - right. apply ev_always. reflexivity.
  - pose proof (step_query k e P0 q He (Hq q (or_introl eq_refl))) as S1.
    destruct (step mm k e (op_of q)) as [e' o].
    destruct S1 as [S1|[[P1 S1] S2]].
    + left. exists o. split; [|exact S1]. destruct (run_ops mm k e' (map op_of qs)). now left.
    + destruct (IH e' P1 S1) as [(o' & Hi & Hc)|Hev].
      { intros; apply Hq; now right. }
      * left. exists o'. split; [|exact Hc]. destruct (run_ops mm k e' (map op_of qs)). now right.
      * right. generalize (ev_and _ _ S2 Hev). apply ev_imp. intros n [A B].
        destruct (run_ops mm k e' (map op_of qs)). cbn in *. congruence.
Qed.
Lemma history_independent : forall k qs, (forall q, In q qs -> qP q <> 0) ->
  (exists o, In o (snd (run_ops mm k (fresh c) (map op_of qs))) /\ crashed o) \/
  exists N, forall n, (N <= n)%nat -> snd (run_ops mm k (fresh c) (map op_of qs)) = map (uncached_out n) qs.
Proof.
  intros k qs Hq. apply (run_queries k qs (fresh c) 0); [|exact Hq].
  split; [repeat split|]. split; [|reflexivity].
  split; [|split; [|split]]; intros; contradiction.
Qed.
End Hist.
