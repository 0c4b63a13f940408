(** Preferences that matter and preferences that do not (C09, C15). *)
From Coq Require Import Reals String List Bool ZArith Lra Lia.
From Verif Require Import ThermoScalarModel EngineModel EngineSpec EngineProofs EngineInv.
Import ListNotations.
Open Scope R_scope.

(** ** changing preferences a computation does not read *)
Section Commute.
Context (fe ff : bool -> bool) (fw fa : string -> string).
Definition retune (e : est) : est :=
  mkE (e_subs e) (e_reacs e) (e_triple e) (fe (e_enable e)) (e_solv e) (e_state e) (ff (e_fallback e)) (e_applyP e)
      (fw (e_water e)) (fa (e_apparent e)) (e_wrapped e) (c_s e) (c_r e) (c_ps e) (c_eps e) (pv e).
Definition commutes {X} (m : M X) : Prop := forall e, m (retune e) = (retune (fst (m e)), snd (m e)).

Lemma c_ret : forall X (x : X), commutes (ret x). Proof. intros X x e. reflexivity. Qed.
Lemma c_throw : forall X, commutes (@throw X). Proof. intros X e. reflexivity. Qed.
Lemma c_fuel : forall X, commutes (@fuelout X). Proof. intros X e. reflexivity. Qed.
Lemma c_lift : forall X (o : option X), commutes (lift o). Proof. intros X [x|] e; reflexivity. Qed.
Lemma c_bind : forall X Y (m : M X) (f : X -> M Y), commutes m -> (forall x, commutes (f x)) -> commutes (bind m f).
Proof.
  intros X Y m f Hm Hf e. unfold bind. rewrite Hm. destruct (m e) as [e' [x| |]]; cbn [fst snd]; [apply Hf|reflexivity|reflexivity].
Qed.
Lemma c_get : forall X (f : est -> M X), (forall e, f (retune e) = f e) -> (forall e, commutes (f e)) -> commutes (bind get f).
Proof. intros X f H1 H2 e. unfold bind, get. rewrite H1. apply H2. Qed.
Lemma c_upd : forall f, (forall e, f (retune e) = retune (f e)) -> commutes (upd f).
Proof. intros f Hf e. unfold upd. rewrite Hf. reflexivity. Qed.
Lemma c_if : forall X (b : bool) (m1 m2 : M X), commutes m1 -> commutes m2 -> commutes (if b then m1 else m2).
Proof. intros X [] m1 m2 H1 H2; assumption. Qed.
Lemma c_local : forall X p (m : M X), commutes m -> commutes (with_local p m).
Proof.
  intros X p m Hm e. unfold with_local.
  change (with_pv (retune e) p) with (retune (with_pv e p)). rewrite Hm.
  destruct (m (with_pv e p)) as [e' r]. reflexivity.
Qed.
Lemma c_getS : forall x, commutes (getSubstance x).
Proof. intros x. apply c_get; [reflexivity|intros; apply c_lift]. Qed.
Lemma c_getR : forall x, commutes (getReaction x).
Proof. intros x. apply c_get; [reflexivity|intros; apply c_lift]. Qed.
Lemma c_prefs : forall s, commutes (prefsSubstance s).
Proof.
  intros s. apply c_bind; [apply c_upd; reflexivity|intros _]. apply c_upd. intros e.
  destruct (is_solute (s_class s)); [|reflexivity].
  change (e_solv (retune e)) with (e_solv e). change (e_subs (retune e)) with (e_subs e).
  destruct (assoc (e_solv e) (e_subs e)); reflexivity.
Qed.
Ltac cm := repeat first
  [ assumption
  | match goal with
    | |- commutes (bind get _) => apply c_get;
         [intros; first [reflexivity | cbn [retune e_fallback pv]; 
            match goal with Hf : forall b : bool, _ = b |- _ => rewrite Hf end; reflexivity]|intros]
    | |- commutes (bind _ _) => apply c_bind; [|intros]
    | |- commutes (ret _) => apply c_ret
    | |- commutes throw => apply c_throw
    | |- commutes fuelout => apply c_fuel
    | |- commutes (lift _) => apply c_lift
    | |- commutes (getSubstance _) => apply c_getS
    | |- commutes (getReaction _) => apply c_getR
    | |- commutes (prefsSubstance _) => apply c_prefs
    | |- commutes (with_local _ _) => apply c_local
    | |- commutes (upd _) => apply c_upd; intros; reflexivity
    | |- commutes (if _ then _ else _) => apply c_if
    | |- commutes (match ?x with Some _ => _ | None => _ end) => destruct x
    end ].
Lemma c_solvent : forall mm T s z, commutes (propertiesSolvent mm T s z).
Proof. intros. unfold propertiesSolvent, setstate. cm. Qed.
Lemma c_electro : forall mm T s z, commutes (electroPropertiesSolvent mm T s z).
Proof. intros. unfold electroPropertiesSolvent, setstate. cm. apply c_solvent. Qed.
Lemma c_ps_fn : forall mm T s z, commutes (ps_fn mm T s z).
Proof. intros. unfold ps_fn. cbv zeta. cm; apply c_solvent. Qed.
Lemma c_eps_fn : forall mm T s z, commutes (eps_fn mm T s z).
Proof. intros. unfold eps_fn. cbv zeta. cm; apply c_electro. Qed.
Lemma c_waterSwitch : forall mm T s, commutes (waterSwitch mm T s).
Proof. intros. unfold waterSwitch. cm. Qed.
Lemma c_genEOS : forall mm T s, commutes (genEOS mm T s).
Proof. intros. unfold genEOS. cbv zeta. cm; first [apply c_ps_fn|apply c_eps_fn]. Qed.
Lemma c_methT : forall mm T s t, commutes (methT mm T s t).
Proof. intros. unfold methT. cm. Qed.
Lemma c_methP : forall mm rs T s t, (s_mP s = CPM_AKI -> forall T x, commutes (rs T x)) -> commutes (methP mm rs T s t).
Proof.
  intros mm rs T s t Hrs. unfold methP. cbv zeta.
  destruct (Z.eqb (s_eos s) CTPM_CON); [cm|].
  destruct (Z.eqb_spec (s_mP s) CPM_AKI) as [E|E]; [|cm]. specialize (Hrs E).
  cm; first [apply Hrs|apply c_ps_fn].
Qed.
(** the part of [direct] before the convention is applied *)
Definition model_part mm rs T s : M TPS :=
  if is_solvent (s_class s) || isH2Ovapor s then waterSwitch mm T s
  else do a <- genEOS mm T s; do b <- methT mm T s a; methP mm rs T s b.
Lemma c_model : forall mm rs T s, (s_mP s = CPM_AKI -> forall T x, commutes (rs T x)) -> commutes (model_part mm rs T s).
Proof.
  intros mm rs T s Hrs. unfold model_part. cm.
  - apply c_waterSwitch. - apply c_genEOS. - apply c_methT. - apply c_methP. exact Hrs.
Qed.
Section Conv.
Hypothesis Hw : forall x, fw x = x.
Hypothesis Ha : forall x, fa x = x.
Lemma c_convention : forall mm s t, commutes (convention mm s t).
Proof.
  intros mm s t. unfold convention. apply c_get.
  - intros e. cbn [retune e_water e_apparent e_triple]. rewrite Hw, Ha. reflexivity.
  - intros e. cm.
Qed.
Lemma c_direct : forall mm rs T s, (s_mP s = CPM_AKI -> forall T x, commutes (rs T x)) -> commutes (direct mm rs T s).
Proof. intros mm rs T s Hrs. unfold direct. apply c_bind; [apply c_model; exact Hrs|intros; apply c_convention]. Qed.
Hypothesis Hf : forall b, ff b = b.
Lemma c_subr : forall rs T self l t, (forall T x, commutes (rs T x)) -> commutes (sub_reactants rs T self l t).
Proof. intros rs T self l. induction l as [|[x c] l IH]; intros t Hrs; cbn; cm; auto. Qed.
Lemma c_addr : forall rs T a b l t, (forall T x, commutes (rs T x)) -> commutes (add_reactants rs T a b l t).
Proof. intros rs T a b l. induction l as [|[x c] l IH]; intros t Hrs; cbn; cm; auto. Qed.
Lemma c_body : forall mm rs rr ro T s, (forall T x, commutes (rs T x)) -> (forall T x, commutes (rr T x)) ->
  (forall T x, commutes (ro T x)) -> commutes (substBody mm rs rr ro T s).
Proof.
  intros mm rs rr ro T s Hrs Hrr Hro. unfold substBody. cm.
  - unfold reacDC. cm; auto. apply c_subr; assumption.
  - apply c_direct. auto.
Qed.
Lemma c_reacSym : forall mm rs T x, (forall T x, commutes (rs T x)) -> commutes (reacSym mm rs T x).
Proof.
  intros mm rs T x Hrs. unfold reacSym, reacBody, fromReactants, reacP. cbv zeta. cm; 
  first [apply c_ps_fn | apply c_addr; assumption].
Qed.
Lemma c_all : forall mm n,
  (forall T s, commutes (substObj mm n T s)) /\ (forall T x, commutes (substFn mm n T x)) /\
  (forall T x, commutes (reacFn mm n T x)).
Proof.
  intros mm n. induction n as [|k (IHo & IHs & IHr)].
  - split; [|split]; intros; apply c_fuel.
  - split; [|split]; intros T x.
    + rewrite substObj_S. apply c_body; assumption.
    + rewrite substFn_S. unfold memoS. cm; auto.
    + rewrite reacFn_S. unfold memoR. cm; apply c_reacSym; assumption.
Qed.
End Conv.
End Commute.

(** ** enable_memoize set after construction changes no answer *)
Lemma step_with_enable : forall mm n b e o,
  step mm n (with_enable e b) o = 
  (match o with SetEnable _ => fst (step mm n e o) | _ => with_enable (fst (step mm n e o)) b end, snd (step mm n e o)).
Proof.
  intros mm n b e o.
  destruct (c_all (fun _ => b) (fun x => x) (fun x => x) (fun x => x) (fun _ => eq_refl) (fun _ => eq_refl) (fun _ => eq_refl) mm n) as (_ & Cs & Cr).
  destruct o; try reflexivity; cbn [step]; unfold call.
  - pose proof (Cs T sym (with_pv e P)) as Q.
    change (with_pv (with_enable e b) P) with (retune (fun _ => b) (fun x => x) (fun x => x) (fun x => x) (with_pv e P)).
    rewrite Q. destruct (substFn mm n T sym (with_pv e P)). reflexivity.
  - pose proof (Cr T sym (with_pv e P)) as Q.
    change (with_pv (with_enable e b) P) with (retune (fun _ => b) (fun x => x) (fun x => x) (fun x => x) (with_pv e P)).
    rewrite Q. destruct (reacFn mm n T sym (with_pv e P)). reflexivity.
Qed.
Definition is_setenable (o : op) : bool := match o with SetEnable _ => true | _ => false end.
Lemma run_with_enable : forall mm n l b e, exists b',
  run_ops mm n (with_enable e b) l = (with_enable (fst (run_ops mm n e l)) b', snd (run_ops mm n e l)).
Proof.
  intros mm n l. induction l as [|o l IH]; intros b e; cbn [run_ops].
  - exists b. reflexivity.
  - rewrite step_with_enable. destruct (step mm n e o) as [e' x] eqn:Es. cbn [fst snd].
    assert (exists b0, (match o with SetEnable _ => e' | _ => with_enable e' b end) = with_enable e' b0) as [b0 E0].
    { destruct o; try (exists b; reflexivity). exists (e_enable e'). destruct e'; reflexivity. }
    rewrite E0. destruct (IH b0 e') as [b' E']. rewrite E'. exists b'.
    destruct (run_ops mm n e' l) as [e'' xs]. reflexivity.
Qed.
Definition keep_outs (l : list op) (f : op -> bool) (xs : list out) : list out :=
  map snd (filter (fun p => f (fst p)) (combine l xs)).
Lemma run_length : forall mm n l e, length (snd (run_ops mm n e l)) = length l.
Proof.
  intros mm n l. induction l as [|o l IH]; intros e; cbn; [reflexivity|].
  destruct (step mm n e o) as [e' x]. specialize (IH e'). destruct (run_ops mm n e' l). cbn in *. now rewrite IH.
Qed.
(** dropping every setter of enable_memoize from a history leaves all other answers as they are *)
Lemma enable_inert : forall mm n l e,
  keep_outs l (fun o => negb (is_setenable o)) (snd (run_ops mm n e l)) =
  snd (run_ops mm n e (filter (fun o => negb (is_setenable o)) l)).
Proof.
  intros mm n l. unfold keep_outs. induction l as [|o l IH]; intros e; cbn [run_ops filter]; [reflexivity|].
  destruct (is_setenable o) eqn:Eo; cbn [negb].
  - destruct o; try discriminate. cbn [step]. destruct (run_with_enable mm n l b e) as [b' Eb].
    rewrite Eb. cbn [snd combine filter fst negb map is_setenable]. apply IH.
  - cbn [run_ops]. destruct (step mm n e o) as [e' x]. specialize (IH e').
    destruct (run_ops mm n e' l) as [e1 xs]. cbn [snd] in *.
    destruct (run_ops mm n e' (filter _ l)) as [e2 ys]. cbn [snd combine filter fst] in *.
    rewrite Eo. cbn [negb map snd]. now rewrite IH.
Qed.

(** ** the solvent state preference is overwritten before it is read *)
Definition upto (e1 e2 : est) : Prop := exists z, e2 = with_state e1 z.
Definition blind {X} (m : M X) : Prop := forall e z, snd (m (with_state e z)) = snd (m e) /\ upto (fst (m e)) (fst (m (with_state e z))).
Definition absorbs {X} (m : M X) : Prop := forall e z, m (with_state e z) = m e.
Lemma upto_refl : forall e, upto e e. Proof. intros []. now exists e_state. Qed.
Lemma b_absorbs : forall X (m : M X), absorbs m -> blind m.
Proof. intros X m Hm e z. rewrite Hm. split; [reflexivity|apply upto_refl]. Qed.
Lemma b_ret : forall X (x : X), blind (ret x). Proof. intros X x e z. split; [reflexivity|now exists z]. Qed.
Lemma b_throw : forall X, blind (@throw X). Proof. intros X e z. split; [reflexivity|now exists z]. Qed.
Lemma b_fuel : forall X, blind (@fuelout X). Proof. intros X e z. split; [reflexivity|now exists z]. Qed.
Lemma b_lift : forall X (o : option X), blind (lift o). Proof. intros X [x|]; [apply b_ret|apply b_throw]. Qed.
Lemma b_bind : forall X Y (m : M X) (f : X -> M Y), blind m -> (forall x, blind (f x)) -> blind (bind m f).
Proof.
  intros X Y m f Hm Hf e z. unfold bind. destruct (Hm e z) as [Q1 [z' Q2]].
  destruct (m (with_state e z)) as [e2 r2], (m e) as [e1 r1]. cbn [fst snd] in *. subst r2 e2.
  destruct r1; [apply Hf|split; [reflexivity|now exists z']|split; [reflexivity|now exists z']].
Qed.
Lemma b_get : forall X (f : est -> M X), (forall e z, f (with_state e z) = f e) -> (forall e, blind (f e)) -> blind (bind get f).
Proof. intros X f H1 H2 e z. unfold bind, get. rewrite H1. apply H2. Qed.
Lemma b_upd : forall f, (forall e z, f (with_state e z) = with_state (f e) z) -> blind (upd f).
Proof. intros f Hf e z. cbn. split; [reflexivity|]. exists z. apply Hf. Qed.
Lemma b_if : forall X (b : bool) (m1 m2 : M X), blind m1 -> blind m2 -> blind (if b then m1 else m2).
Proof. intros X [] m1 m2 H1 H2; assumption. Qed.
Lemma b_getS : forall x, blind (getSubstance x).
Proof. intros x. apply b_get; [reflexivity|intros; apply b_lift]. Qed.
Ltac bl := repeat first
  [ assumption
  | match goal with
    | |- blind (bind get _) => apply b_get; [intros; reflexivity|intros]
    | |- blind (bind _ _) => apply b_bind; [|intros]
    | |- blind (ret _) => apply b_ret
    | |- blind throw => apply b_throw
    | |- blind fuelout => apply b_fuel
    | |- blind (lift _) => apply b_lift
    | |- blind (getSubstance _) => apply b_getS
    | |- blind (upd _) => apply b_upd; intros; reflexivity
    | |- blind (if _ then _ else _) => apply b_if
    | |- blind (match ?x with Some _ => _ | None => _ end) => destruct x
    end ].
Lemma prefs_absorbs : forall X s (f : unit -> M X), absorbs (bind (prefsSubstance s) f).
Proof. intros X s f e z. reflexivity. Qed.
Lemma b_ps_fn : forall mm T x z, blind (ps_fn mm T x z).
Proof. intros. unfold ps_fn. cbv zeta. bl; apply b_absorbs; unfold propertiesSolvent; apply prefs_absorbs. Qed.
Lemma b_reacSym : forall mm rs T x, (forall T x, blind (rs T x)) -> blind (reacSym mm rs T x).
Proof.
  intros mm rs T x Hrs. unfold reacSym, reacBody, fromReactants, reacP. cbv zeta.
  assert (Ha : forall T a b l t, blind (add_reactants rs T a b l t)).
  { intros T0 a b l. induction l as [|[y c] l IH]; intros t; cbn; bl; auto. }
  bl; first [apply b_ps_fn|apply Ha].
Qed.
Lemma b_all : forall mm n,
  (forall T s, blind (substObj mm n T s)) /\ (forall T x, blind (substFn mm n T x)) /\ (forall T x, blind (reacFn mm n T x)).
Proof.
  intros mm n. induction n as [|k (IHo & IHs & IHr)].
  - split; [|split]; intros; apply b_fuel.
  - split; [|split]; intros T x.
    + rewrite substObj_S. apply b_absorbs. unfold substBody. apply prefs_absorbs.
    + rewrite substFn_S. unfold memoS. bl; auto.
    + rewrite reacFn_S. unfold memoR. bl; apply b_reacSym; assumption.
Qed.
Definition is_setstate (o : op) : bool := match o with SetState _ => true | _ => false end.
Lemma run_with_state : forall mm n l z e,
  snd (run_ops mm n (with_state e z) l) = snd (run_ops mm n e l).
Proof.
  intros mm n l. induction l as [|o l IH]; intros z e; cbn [run_ops]; [reflexivity|].
  destruct (b_all mm n) as (_ & Bs & Br).
  assert (snd (step mm n (with_state e z) o) = snd (step mm n e o) /\ upto (fst (step mm n e o)) (fst (step mm n (with_state e z) o))) as [Q1 [z' Q2]].
  { destruct o; try (split; [reflexivity|now exists z]); cbn [step]; unfold call.
    - destruct (Bs T sym (with_pv e P) z) as [B1 B2].
      change (with_pv (with_state e z) P) with (with_state (with_pv e P) z).
      destruct (substFn mm n T sym (with_state (with_pv e P) z)), (substFn mm n T sym (with_pv e P)). cbn in *. split; [congruence|exact B2].
    - destruct (Br T sym (with_pv e P) z) as [B1 B2].
      change (with_pv (with_state e z) P) with (with_state (with_pv e P) z).
      destruct (reacFn mm n T sym (with_state (with_pv e P) z)), (reacFn mm n T sym (with_pv e P)). cbn in *. split; [congruence|exact B2].
    - cbn. split; [reflexivity|]. apply upto_refl. }
  destruct (step mm n (with_state e z) o) as [e2 x2], (step mm n e o) as [e1 x1]. cbn [fst snd] in *. subst.
  specialize (IH z' e1). destruct (run_ops mm n (with_state e1 z') l), (run_ops mm n e1 l). cbn in *. now rewrite IH.
Qed.
Lemma state_inert : forall mm n l e,
  keep_outs l (fun o => negb (is_setstate o)) (snd (run_ops mm n e l)) =
  snd (run_ops mm n e (filter (fun o => negb (is_setstate o)) l)).
Proof.
  intros mm n l. unfold keep_outs. induction l as [|o l IH]; intros e; cbn [run_ops filter]; [reflexivity|].
  destruct (is_setstate o) eqn:Eo; cbn [negb].
  - destruct o; try discriminate. cbn [step]. pose proof (run_with_state mm n l z e) as Eb.
    destruct (run_ops mm n (with_state e z) l) as [e1 xs]. cbn [snd] in *. subst xs.
    cbn [snd combine filter fst negb map is_setstate]. apply IH.
  - cbn [run_ops]. destruct (step mm n e o) as [e' x]. specialize (IH e').
    destruct (run_ops mm n e' l) as [e1 xs]. cbn [snd] in *.
    destruct (run_ops mm n e' (filter _ l)) as [e2 ys]. cbn [snd combine filter fst] in *.
    rewrite Eo. cbn [negb map snd]. now rewrite IH.
Qed.

(** ** fallback fills gaps only (C15) *)
Definition filled (t t' r : TPS) : Prop :=
  forall p, In p props -> (undefined (p t) -> p t' = p r) /\ (~ undefined (p t) -> p t' = p t).
Lemma fb_filled : forall t r, (undefined t -> fb t r = r) /\ (~ undefined t -> fb t r = t).
Proof.
  intros t r. unfold fb, undefined. destruct (fst (sta t)); cbn; split; intro H0; try reflexivity; try congruence.
Qed.
Lemma fallback_filled : forall t s, filled t (fallback true t s) (s_ref s).
Proof.
  intros t s p Hp. unfold props in Hp. repeat destruct Hp as [<-|Hp]; try contradiction; cbn; apply fb_filled.
Qed.
Lemma fallback_direct : forall mm n T s e e1 t,
  s_symbol s <> "H+"%string -> isReacDC s = false -> s_mP s <> CPM_AKI -> e_fallback e = false ->
  substObj mm (Datatypes.S n) T s e = (e1, Ret t) ->
  exists t', substObj mm (Datatypes.S n) T s (with_fallback e true) = (with_fallback e1 true, Ret t') /\ filled t t' (s_ref s).
Proof.
  intros mm n T s e e1 t Hh Hd Hk Hf He. rewrite substObj_S in *. unfold substBody in *.
  apply String.eqb_neq in Hh. rewrite Hh, Hd in *.
  assert (C : commutes (fun x => x) (fun _ => true) (fun x => x) (fun x => x)
     (bind (prefsSubstance s) (fun _ => direct mm (substFn mm n) T s))).
  { apply c_bind; [apply c_prefs|intros _]. apply c_direct; try reflexivity. intros E. contradiction. }
  specialize (C e).
  assert (K : e_fallback (fst (bind (prefsSubstance s) (fun _ => direct mm (substFn mm n) T s) e)) = false).
  { assert (keeps (fun e0 => e_fallback e0 = false) (bind (prefsSubstance s) (fun _ => direct mm (substFn mm n) T s))) as K.
    { apply keeps_bind.
      - intros e0 H0. unfold prefsSubstance, bind, upd; cbn. destruct (is_solute (s_class s)); [destruct (assoc _ _)|]; exact H0.
      - intros _. apply keeps_direct; try (intros; assumption).
        + intros e0 s0 H0. unfold prefsSubstance, bind, upd; cbn. destruct (is_solute (s_class s0)); [destruct (assoc _ _)|]; exact H0.
        + intros T0 x e0 H0. destruct (settings_kept mm n T0 x e0) as ((_&_&_&_&E&_) & _). congruence. }
    apply K. exact Hf. }
  change (retune (fun x => x) (fun _ => true) (fun x => x) (fun x => x) e) with (with_fallback e true) in C.
  assert (Assoc : forall e0, bind (prefsSubstance s) (fun _ => bind (direct mm (substFn mm n) T s) (fun t0 => do e2 <- get; ret (fallback (e_fallback e2) t0 s))) e0
     = bind (bind (prefsSubstance s) (fun _ => direct mm (substFn mm n) T s)) (fun t0 => do e2 <- get; ret (fallback (e_fallback e2) t0 s)) e0).
  { intros e0. unfold bind. destruct (prefsSubstance s e0) as [e2 [u| |]]; reflexivity. }
  rewrite Assoc in He. rewrite Assoc.
  set (m := bind (prefsSubstance s) (fun _ => direct mm (substFn mm n) T s)) in *.
  unfold bind in He |- *. unfold bind in He |- *. rewrite C.
  destruct (m e) as [e2 [t0| |]]; cbn [fst snd] in *; try discriminate.
  unfold get, ret in *. rewrite K in He. cbn [fallback] in He. inversion He; subst. clear He.
  exists (fallback true t s). split; [reflexivity|apply fallback_filled].
Qed.
(** with fallback on, whatever is still undefined is undefined in the reference record *)
Lemma fallback_gap : forall mm n T s e e1 t,
  s_symbol s <> "H+"%string -> e_fallback e = true ->
  substObj mm (Datatypes.S n) T s e = (e1, Ret t) ->
  forall p, In p props -> undefined (p t) -> undefined (p (s_ref s)).
Proof.
  intros mm n T s e e1 t Hh Hf He p Hp Hu.
  pose proof (settings_kept mm (Datatypes.S n) T "x"%string e) as (_ & _ & K). specialize (K s).
  rewrite He in K. destruct K as (_&_&_&_&K&_). cbn [fst] in K. rewrite Hf in K.
  rewrite substObj_S in He. unfold substBody in He.
  apply String.eqb_neq in Hh. rewrite Hh in *.
  apply bind_ret_inv in He. destruct He as (e2 & u & _ & He).
  apply bind_ret_inv in He. destruct He as (e3 & t0 & _ & He).
  unfold bind, get, ret in He. inversion He; subst. clear He. rewrite K in *.
  destruct (fallback_filled t0 s p Hp) as [F1 F2].
  assert (Dec : undefined (p t0) \/ ~ undefined (p t0)).
  { unfold undefined. destruct (fst (sta (p t0))); (left; reflexivity) || (right; discriminate). }
  destruct Dec as [D|D].
  - rewrite (F1 D) in Hu. exact Hu.
  - rewrite (F2 D) in Hu. contradiction.
Qed.
