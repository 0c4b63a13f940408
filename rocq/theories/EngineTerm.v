(** Termination of engine queries (C13). *)
From Coq Require Import Reals String List Bool ZArith Lra Lia.
From Verif Require Import ThermoScalarModel EngineModel EngineSpec EngineProofs EngineInv.
Import ListNotations.
Open Scope R_scope.

Section Term.
Context (mm : Models) (ss : list (string * Subst)) (rr : list (string * Reac)) (sol : string).
Notation J := (on_db ss rr sol).
Notation nd := (needs (m_equation mm) ss rr sol).

Definition nf {T} (m : M T) : Prop := forall e, J e -> snd (m e) <> Fuel /\ J (fst (m e)).

Lemma nf_ret : forall T (x : T), nf (ret x). Proof. intros T x e He. split; [discriminate|exact He]. Qed.
Lemma nf_throw : forall T, nf (@throw T). Proof. intros T e He. split; [discriminate|exact He]. Qed.
Lemma nf_get_bind : forall T (f : est -> M T), (forall e, J e -> snd (f e e) <> Fuel /\ J (fst (f e e))) -> nf (bind get f).
Proof. intros T f Hf e He. cbn. apply Hf. exact He. Qed.
Lemma nf_lift : forall T (o : option T), nf (lift o).
Proof. intros T [x|] e He; (split; [discriminate|exact He]). Qed.
Lemma nf_bind : forall T U (m : M T) (f : T -> M U), nf m -> (forall x, nf (f x)) -> nf (bind m f).
Proof.
  intros T U m f Hm Hf e He. unfold bind. destruct (Hm e He) as [H1 H2].
  destruct (m e) as [e' [x| |]]; cbn in *; try congruence.
  - apply Hf. exact H2.
  - split; [discriminate|exact H2].
Qed.
Lemma nf_upd : forall f, (forall e, J e -> J (f e)) -> nf (upd f).
Proof. intros f Hf e He. split; [discriminate|cbn; auto]. Qed.
Lemma nf_if : forall T (b : bool) (m1 m2 : M T), (b = true -> nf m1) -> (b = false -> nf m2) -> nf (if b then m1 else m2).
Proof. intros T [] m1 m2 H1 H2; auto. Qed.
Lemma nf_getS : forall x, nf (getSubstance x).
Proof. intros x e He. cbn. unfold getSubstance, bind, get. apply nf_lift. exact He. Qed.
Lemma nf_getR : forall x, nf (getReaction x).
Proof. intros x e He. cbn. unfold getReaction, bind, get. apply nf_lift. exact He. Qed.
Lemma nf_get : nf get. Proof. intros e He. split; [discriminate|exact He]. Qed.
Lemma nf_getR_bind : forall T x (f : Reac -> M T), (forall r, assoc x rr = Some r -> nf (f r)) -> nf (bind (getReaction x) f).
Proof.
  intros T x f Hf e He. unfold bind. destruct (nf_getR x e He) as [G1 G2].
  destruct (getReaction x e) as [e1 [r| |]] eqn:Eg; cbn in G1, G2; [|split; [discriminate|exact G2]|congruence].
  apply getReaction_state in Eg. destruct Eg as [-> Eg]. apply Hf; [|exact He].
  destruct He as (_ & E2 & _). rewrite <- E2. exact Eg.
Qed.
Lemma nf_getS_bind : forall T x (f : Subst -> M T), (forall r, assoc x ss = Some r -> nf (f r)) -> nf (bind (getSubstance x) f).
Proof.
  intros T x f Hf e He. unfold bind. destruct (nf_getS x e He) as [G1 G2].
  destruct (getSubstance x e) as [e1 [r| |]] eqn:Eg; cbn in G1, G2; [|split; [discriminate|exact G2]|congruence].
  apply getS_inv in Eg. destruct Eg as [-> Eg]. apply Hf; [|exact He].
  destruct He as (E2 & _). rewrite <- E2. exact Eg.
Qed.
Lemma nf_local : forall T p (m : M T), nf m -> nf (with_local p m).
Proof.
  intros T p m Hm e He. unfold with_local. destruct (Hm (with_pv e p) He) as [H1 H2].
  destruct (m (with_pv e p)) as [e' r]. cbn in *. split; [exact H1|exact H2].
Qed.
Lemma last_solvent_cand : forall l d, (forall k s, In (k, s) l -> In (k, s) ss) -> cand ss sol d ->
  cand ss sol (last_solvent l d).
Proof.
  intros l. induction l as [|[k s] l IH]; intros d Hl Hd; cbn; [exact Hd|].
  apply IH; [intros; apply Hl; now right|].
  destruct (s_class s) eqn:E; cbn; try exact Hd. right. exists s. split; [apply Hl; now left|exact E].
Qed.
Lemma nf_prefs : forall s, nf (prefsSubstance s).
Proof.
  intros s e He. unfold prefsSubstance, bind, upd; cbn. split; [discriminate|].
  destruct He as (H1 & H2 & H3). destruct (is_solute (s_class s)).
  - destruct (assoc _ _); (split; [exact H1|split; [exact H2|]]); [exact H3|].
    cbn. rewrite H1. apply last_solvent_cand; auto.
  - split; [exact H1|split; [exact H2|exact H3]].
Qed.

Ltac kn := repeat first
  [ assumption
  | match goal with
    | |- nf (bind _ _) => apply nf_bind; [|intros]
    | |- nf (ret _) => apply nf_ret
    | |- nf throw => apply nf_throw
    | |- nf get => apply nf_get
    | |- nf (lift _) => apply nf_lift
    | |- nf (getSubstance _) => apply nf_getS
    | |- nf (getReaction _) => apply nf_getR
    | |- nf (with_local _ _) => apply nf_local
    | |- nf (prefsSubstance _) => apply nf_prefs
    | |- nf (upd (fun e => with_pv e _)) => apply nf_upd; intros ? ?; assumption
    | |- nf (upd (fun e => with_applyP e _)) => apply nf_upd; intros ? ?; assumption
    | |- nf (upd (fun e => with_state e _)) => apply nf_upd; intros ? ?; assumption
    | |- nf (upd (fun e => with_caches e _ _ _ _)) => apply nf_upd; intros ? ?; assumption
    | |- nf (if _ then _ else _) => apply nf_if; intros
    | |- nf (match ?x with Some _ => _ | None => _ end) => destruct x
    end ].

Lemma nf_solvent : forall T s z, nf (propertiesSolvent mm T s z).
Proof. intros. unfold propertiesSolvent, setstate. kn. Qed.
Lemma nf_electro : forall T s z, nf (electroPropertiesSolvent mm T s z).
Proof. intros. unfold electroPropertiesSolvent, setstate. kn. apply nf_solvent. Qed.
Lemma nf_ps_fn : forall T s z, nf (ps_fn mm T s z).
Proof. intros. unfold ps_fn. cbv zeta. kn; apply nf_solvent. Qed.
Lemma nf_eps_fn : forall T s z, nf (eps_fn mm T s z).
Proof. intros. unfold eps_fn. cbv zeta. kn; apply nf_electro. Qed.
Lemma nf_methP : forall rs T s t,
  (s_eos s <> CTPM_CON -> s_mP s = CPM_AKI -> forall T w, cand ss sol w -> nf (rs T w)) -> nf (methP mm rs T s t).
Proof.
  intros rs T s t Hrs. unfold methP. cbv zeta.
  apply nf_if; intro Hc; [kn|]. apply nf_if; intro Ha; [|kn].
  apply Z.eqb_eq in Ha. apply Z.eqb_neq in Hc.
  apply nf_get_bind. intros e He.
  assert (Q : nf (do sv <- getSubstance (e_solv e); do w <- rs T (e_solv e);
    do e1 <- get; do wig <- lift (m_woolley mm sv T (pv e1));
    do ps <- ps_fn mm T (e_solv e) (-1);
    do wr <- with_local (s_refP sv) (rs (s_refT sv) (e_solv e));
    do wigr <- lift (m_woolley mm sv (s_refT sv) (s_refP sv));
    do psr <- with_local (s_refP sv) (ps_fn mm (s_refT sv) (e_solv e) (-1));
    do e2 <- get; lift (m_aki mm s T (pv e2) t w wig ps wr wigr psr))).
  { destruct He as (_ & _ & Hs). kn; try (apply Hrs; assumption); apply nf_ps_fn. }
  apply Q. exact He.
Qed.
Lemma nf_direct : forall rs T s,
  (s_eos s <> CTPM_CON -> s_mP s = CPM_AKI -> forall T w, cand ss sol w -> nf (rs T w)) -> nf (direct mm rs T s).
Proof.
  intros rs T s Hrs. unfold direct, waterSwitch, genEOS, methT, convention. cbv zeta. kn;
  first [apply nf_ps_fn | apply nf_eps_fn | apply nf_methP; assumption].
Qed.
Lemma nf_subr : forall rs T self l t, (forall x, In x (others self l) -> nf (rs T x)) -> nf (sub_reactants rs T self l t).
Proof.
  intros rs T self l. unfold others. induction l as [|[x c] l IH]; intros t Hrs; cbn in *; [kn|].
  destruct (String.eqb x self) eqn:E; cbn in *.
  - apply IH. exact Hrs.
  - apply nf_bind; [apply Hrs; now left|]. intros r. apply IH. intros y Hy. apply Hrs. now right.
Qed.
Lemma nf_addr : forall rs T a b l t, (forall x, In x (species l) -> nf (rs T x)) -> nf (add_reactants rs T a b l t).
Proof.
  intros rs T a b l. induction l as [|[x c] l IH]; intros t Hrs; cbn in *; kn.
  - apply Hrs. now left.
  - apply IH. intros y Hy. apply Hrs. now right.
Qed.
Lemma nf_reacSym : forall rs T x,
  (forall b, nd (NR x) (NS b) -> nf (rs T b)) -> nf (reacSym mm rs T x).
Proof.
  intros rs T x Hrs. unfold reacSym. apply nf_get_bind. intros e He.
  destruct He as (H1 & H2 & H3). rewrite H2.
  assert (B : forall r, (assoc x rr = Some r \/ (assoc x rr = None /\ m_equation mm x = Some r)) -> nf (reacBody mm rs T r)).
  { intros r Hr. unfold reacBody. apply nf_if; intro Hf.
    - unfold fromReactants. kn. apply nf_addr. intros b Hb. apply Hrs. eapply n_sum; eauto.
    - unfold reacP. cbv zeta. kn; apply nf_ps_fn. }
  destruct (assoc x rr) as [r|] eqn:Er.
  - apply B; [auto|]. repeat split; assumption.
  - destruct (has_eq x).
    + destruct (m_equation mm x) as [r|] eqn:Eq.
      * cbn. unfold bind, ret. apply B; [auto|]. repeat split; assumption.
      * split; [discriminate|]. repeat split; assumption.
    + split; [discriminate|]. repeat split; assumption.
Qed.

Definition ask (n : nat) (T : R) (a : node) : M unit :=
  match a with NS x => do _ <- substFn mm n T x; ret tt | NR x => do _ <- reacFn mm n T x; ret tt end.
Lemma nf_ask_S : forall n T x, nf (ask n T (NS x)) -> nf (substFn mm n T x).
Proof.
  intros n T x Ha e He. specialize (Ha e He). cbn in Ha. unfold bind, ret in Ha.
  destruct (substFn mm n T x e) as [e' [y| |]]; cbn in *; destruct Ha; split; auto; discriminate.
Qed.
Lemma nf_ask_R : forall n T x, nf (ask n T (NR x)) -> nf (reacFn mm n T x).
Proof.
  intros n T x Ha e He. specialize (Ha e He). cbn in Ha. unfold bind, ret in Ha.
  destruct (reacFn mm n T x e) as [e' [y| |]]; cbn in *; destruct Ha; split; auto; discriminate.
Qed.
Definition eventually (P : nat -> Prop) : Prop := exists N, forall n, (N <= n)%nat -> P n.
Lemma ev_list : forall X (l : list X) (P : X -> nat -> Prop), (forall x, In x l -> eventually (P x)) ->
  eventually (fun n => forall x, In x l -> P x n).
Proof.
  intros X l P. induction l as [|x l IH]; intros Hl.
  - exists O. intros n _ x [].
  - destruct (Hl x (or_introl eq_refl)) as [N1 H1].
    destruct IH as [N2 H2]; [intros; apply Hl; now right|].
    exists (Nat.max N1 N2). intros n Hn y [<-|Hy]; [apply H1; lia|apply H2; [lia|exact Hy]].
Qed.
Lemma assoc_db : forall x e s, J e -> assoc x (e_subs e) = Some s -> assoc x ss = Some s.
Proof. intros x e s (H1 & _) Ha. rewrite <- H1. exact Ha. Qed.

Lemma nf_con : forall k T s, s_reacdc s = false -> nf (substObj mm (Datatypes.S k) T (set_eos s CTPM_CON)).
Proof.
  intros k T s Hs. rewrite substObj_S. unfold substBody.
  assert (E : isReacDC (set_eos s CTPM_CON) = false).
  { unfold isReacDC. change (s_reacdc (set_eos s CTPM_CON)) with (s_reacdc s). rewrite Hs. reflexivity. }
  rewrite E. kn.
  apply nf_direct. intros Q. exfalso. apply Q. reflexivity.
Qed.
Lemma nf_obj : forall k T x s, assoc x ss = Some s ->
  (s_reacdc s = true -> s_reaction s = ""%string -> False) ->
  (isReacDC s = true -> s_reaction s <> ""%string -> nf (reacFn mm (Datatypes.S k) T (s_reaction s))) ->
  (forall r, isReacDC s = true -> assoc (s_reaction s) rr = Some r ->
     forall b, In b (others (s_symbol s) (r_reactants r)) -> nf (substFn mm (Datatypes.S k) T b)) ->
  (isReacDC s = false -> s_mP s = CPM_AKI -> forall T w, cand ss sol w -> nf (substFn mm (Datatypes.S k) T w)) ->
  nf (substObj mm (Datatypes.S (Datatypes.S k)) T s).
Proof.
  intros k T x s Hx Hself Hr Hb Hw. rewrite substObj_S. unfold substBody.
  apply nf_bind; [kn|intros _]. apply nf_if; intros _; [kn|].
  apply nf_bind; [|intros; kn]. apply nf_if; intro Hd.
  - unfold reacDC. cbv zeta. apply nf_bind; [kn|intros _]. apply nf_if; intro Hes.
    + apply nf_con. apply String.eqb_eq in Hes. destruct (s_reacdc s); auto. exfalso. auto.
    + apply nf_getR_bind. intros r Er. kn.
      * apply Hr; [assumption|]. apply String.eqb_neq. exact Hes.
      * apply nf_subr. intros b Hbin. apply (Hb r); assumption.
  - apply nf_direct. intros _ Ha. apply Hw; assumption.
Qed.
Lemma nf_fn : forall k T x, (forall s, assoc x ss = Some s -> nf (substObj mm k T s)) -> nf (substFn mm (Datatypes.S k) T x).
Proof.
  intros k T x Ho. rewrite substFn_S. unfold memoS.
  assert (Q : nf (do s <- getSubstance x; substObj mm k T s)).
  { apply nf_getS_bind. exact Ho. }
  kn.
Qed.

Lemma needs_sum_inv : forall x b, nd (NR x) (NS b) -> exists r,
  (assoc x rr = Some r \/ (assoc x rr = None /\ m_equation mm x = Some r)) /\
  isFromReactants r = true /\ In b (species (r_reactants r)).
Proof. intros x b Hb. inversion Hb; subst. eauto. Qed.
Lemma grounded_terminates : forall a, grounded (m_equation mm) ss rr sol a ->
  eventually (fun n => forall T, nf (ask n T a)).
Proof.
  intros a Ha. induction Ha as [a Hacc IH].
  assert (self_absurd : forall x, a = NS x -> nd a (NS x) -> False).
  { intros x -> Hn. clear IH.
    assert (Ac : Acc (fun b a => nd a b) (NS x)) by (constructor; exact Hacc).
    clear Hacc. revert Hn. induction Ac as [z _ IHz]. intros Hn. exact (IHz _ Hn Hn). }
  assert (NSb : forall b, nd a (NS b) -> eventually (fun n => forall T, nf (substFn mm n T b))).
  { intros b Hb. destruct (IH _ Hb) as [N HN]. exists N. intros n Hn T. apply nf_ask_S. auto. }
  destruct a as [x|x].
  - destruct (assoc x ss) as [s|] eqn:Ex.
    + (* collect what the record needs *)
      assert (E1 : eventually (fun n => forall T, isReacDC s = true -> s_reaction s <> ""%string -> nf (reacFn mm n T (s_reaction s)))).
      { destruct (isReacDC s) eqn:Ed; [|exists O; intros; discriminate].
        destruct (String.eqb (s_reaction s) "") eqn:Es.
        - apply String.eqb_eq in Es. exists O. intros. contradiction.
        - apply String.eqb_neq in Es. destruct (IH (NR (s_reaction s))) as [N HN]; [eapply n_reaction; eauto|].
          exists N. intros n Hn T _ _. apply nf_ask_R. auto. }
      assert (E2 : eventually (fun n => forall T r, isReacDC s = true -> assoc (s_reaction s) rr = Some r ->
         forall b, In b (others (s_symbol s) (r_reactants r)) -> nf (substFn mm n T b))).
      { destruct (isReacDC s) eqn:Ed; [|exists O; intros; discriminate].
        destruct (assoc (s_reaction s) rr) as [r|] eqn:Er; [|exists O; intros; discriminate].
        destruct (ev_list _ (others (s_symbol s) (r_reactants r)) (fun b n => forall T, nf (substFn mm n T b))) as [N HN].
        - intros b Hb. apply NSb. eapply n_other; eauto.
        - exists N. intros n Hn T r0 _ E0 b Hb. inversion E0; subst. apply HN; assumption. }
      assert (E3 : eventually (fun n => isReacDC s = false -> s_mP s = CPM_AKI -> forall T w, cand ss sol w -> nf (substFn mm n T w))).
      { destruct (isReacDC s) eqn:Ed; [exists O; intros; discriminate|].
        destruct (Z.eq_dec (s_mP s) CPM_AKI) as [Ea|Ea]; [|exists O; intros; contradiction].
        pose (cs := sol :: map fst (filter (fun p => is_solvent (s_class (snd p))) ss)).
        destruct (ev_list _ cs (fun w n => forall T, nf (substFn mm n T w))) as [N HN].
        - intros w Hw. apply NSb. eapply n_aki; eauto. unfold cs in Hw. destruct Hw as [<-|Hw]; [now left|right].
          apply in_map_iff in Hw. destruct Hw as ([w' s'] & E & Hw). cbn in E. subst w'.
          apply filter_In in Hw. destruct Hw as [Hw Hc]. exists s'. split; [exact Hw|].
          cbn in Hc. destruct (s_class s'); try discriminate. reflexivity.
        - exists N. intros n Hn _ _ T w Hw. apply HN; [exact Hn|].
          destruct Hw as [->|(s' & Hin & Hc)]; [now left|right]. apply in_map_iff. exists (w, s'). split; [reflexivity|].
          apply filter_In. split; [exact Hin|]. cbn. rewrite Hc. reflexivity. }
      destruct E1 as [N1 H1], E2 as [N2 H2], E3 as [N3 H3].
      exists (4 + N1 + N2 + N3)%nat. intros n Hn T.
      destruct n as [|[|[|k]]]; try lia. cbn [ask]. apply nf_bind; [|intros; apply nf_ret].
      apply nf_fn. intros s' Es'. rewrite Ex in Es'. inversion Es'; subst s'. apply (nf_obj k T x s Ex).
      * intros Hd He. apply (self_absurd x eq_refl). eapply n_self; eauto.
      * apply H1. lia.
      * intros r Hd Er b Hb. eapply H2; eauto. lia.
      * apply H3. lia.
    + exists 1%nat. intros [|k] Hn T; [lia|]. cbn [ask]. apply nf_bind; [|intros; apply nf_ret].
      apply nf_fn. intros s Es. congruence.
  - (* reaction *)
    assert (E : exists l, forall b, nd (NR x) (NS b) <-> In b l).
    { destruct (assoc x rr) as [r|] eqn:Er.
      - destruct (isFromReactants r) eqn:Ef.
        + exists (species (r_reactants r)). intro b. split.
          * intro Hb. apply needs_sum_inv in Hb. destruct Hb as (r0 & H0 & Hf0 & Hin0). destruct H0 as [E|[E _]]; [|congruence]. rewrite E in Er. inversion Er; subst. assumption.
          * intro Hb. eapply n_sum; eauto.
        + exists []. intro b. split; [|intros []]. intro Hb. apply needs_sum_inv in Hb. destruct Hb as (r0 & H0 & Hf0 & Hin0).
          destruct H0 as [E|[E _]]; congruence.
      - destruct (m_equation mm x) as [r|] eqn:Eq.
        + destruct (isFromReactants r) eqn:Ef.
          * exists (species (r_reactants r)). intro b. split.
            -- intro Hb. apply needs_sum_inv in Hb. destruct Hb as (r0 & H0 & Hf0 & Hin0). destruct H0 as [E|[_ E]]; [congruence|]. rewrite E in Eq. inversion Eq; subst. assumption.
            -- intro Hb. eapply n_sum; eauto.
          * exists []. intro b. split; [|intros []]. intro Hb. apply needs_sum_inv in Hb. destruct Hb as (r0 & H0 & Hf0 & Hin0).
            destruct H0 as [E|[_ E]]; congruence.
        + exists []. intro b. split; [|intros []]. intro Hb. apply needs_sum_inv in Hb. destruct Hb as (r0 & H0 & Hf0 & Hin0).
          destruct H0 as [E|[_ E]]; congruence. }
    destruct E as [l Hl].
    destruct (ev_list _ l (fun b n => forall T, nf (substFn mm n T b))) as [N HN].
    { intros b Hb. apply NSb. apply Hl. exact Hb. }
    exists (Datatypes.S N). intros [|k] Hn T; [lia|]. cbn [ask]. apply nf_bind; [|intros; apply nf_ret].
    rewrite reacFn_S. unfold memoR.
    assert (Q : nf (reacSym mm (substFn mm k) T x)).
    { apply nf_reacSym. intros b Hb. apply HN; [lia|]. apply Hl. exact Hb. }
    kn.
Qed.
End Term.

(** both kinds of query, on any state holding the database *)
Lemma grounded_query : forall mm ss rr sol,
  (forall x, grounded (m_equation mm) ss rr sol (NS x) ->
     exists N, forall n, (N <= n)%nat -> forall T e, on_db ss rr sol e -> snd (substFn mm n T x e) <> Fuel) /\
  (forall x, grounded (m_equation mm) ss rr sol (NR x) ->
     exists N, forall n, (N <= n)%nat -> forall T e, on_db ss rr sol e -> snd (reacFn mm n T x e) <> Fuel).
Proof.
  intros mm ss rr sol. split; intros x Hg;
    destruct (grounded_terminates mm ss rr sol _ Hg) as [N HN]; exists N; intros n Hn T e He.
  - apply (nf_ask_S mm ss rr sol n T x (HN n Hn T) e He).
  - apply (nf_ask_R mm ss rr sol n T x (HN n Hn T) e He).
Qed.
