(** Invariants of the engine: what a calculation leaves alone, termination, the proton. *)
From Coq Require Import Reals String List Bool ZArith Lra Lia.
From Verif Require Import ThermoScalarModel EngineModel EngineSpec EngineProofs.
Import ListNotations.
Open Scope R_scope.

Definition keeps {T} (I : est -> Prop) (m : M T) : Prop := forall e, I e -> I (fst (m e)).

Section Combinators.
Context (I : est -> Prop).
Lemma keeps_ret : forall T (x : T), keeps I (ret x). Proof. intros T x e He. exact He. Qed.
Lemma keeps_throw : forall T, keeps I (@throw T). Proof. intros T e He. exact He. Qed.
Lemma keeps_fuel : forall T, keeps I (@fuelout T). Proof. intros T e He. exact He. Qed.
Lemma keeps_get : keeps I get. Proof. intros e He. exact He. Qed.
Lemma keeps_lift : forall T (o : option T), keeps I (lift o).
Proof. intros T [x|] e He; exact He. Qed.
Lemma keeps_bind : forall T U (m : M T) (f : T -> M U),
  keeps I m -> (forall x, keeps I (f x)) -> keeps I (bind m f).
Proof.
  intros T U m f Hm Hf e He. unfold bind. specialize (Hm e He). destruct (m e) as [e' [x| |]]; cbn in *; auto.
  apply Hf. exact Hm.
Qed.
Lemma keeps_upd : forall f, (forall e, I e -> I (f e)) -> keeps I (upd f).
Proof. intros f Hf e He. cbn. auto. Qed.
Lemma keeps_getS : forall x, keeps I (getSubstance x).
Proof. intros x. apply keeps_bind; [apply keeps_get|intros; apply keeps_lift]. Qed.
Lemma keeps_getR : forall x, keeps I (getReaction x).
Proof. intros x. apply keeps_bind; [apply keeps_get|intros; apply keeps_lift]. Qed.
Lemma keeps_if : forall T (b : bool) (m1 m2 : M T), keeps I m1 -> keeps I m2 -> keeps I (if b then m1 else m2).
Proof. intros T [] m1 m2 H1 H2; assumption. Qed.

Hypothesis Hsolv : forall e s, I e -> I (fst (prefsSubstance s e)).
Hypothesis Hstate : forall e x, I e -> I (with_state e x).
Hypothesis Happly : forall e x, I e -> I (with_applyP e x).
Hypothesis Hpv : forall e x, I e -> I (with_pv e x).
Hypothesis Hps : forall e l, I e -> I (with_caches e (c_s e) (c_r e) l (c_eps e)).
Hypothesis Heps : forall e l, I e -> I (with_caches e (c_s e) (c_r e) (c_ps e) l).
Hypothesis Hcr : forall e l, I e -> I (with_caches e (c_s e) l (c_ps e) (c_eps e)).

Lemma keeps_local : forall T p (m : M T), keeps I m -> keeps I (with_local p m).
Proof.
  intros T p m Hm e He. unfold with_local. pose proof (Hm (with_pv e p) (Hpv e p He)) as Q.
  destruct (m (with_pv e p)) as [e' r]. cbn in *. apply Hpv. exact Q.
Qed.

Ltac kp := repeat first
  [ assumption
  | match goal with
    | |- keeps _ (bind _ _) => apply keeps_bind; [|intros]
    | |- keeps _ (ret _) => apply keeps_ret
    | |- keeps _ throw => apply keeps_throw
    | |- keeps _ fuelout => apply keeps_fuel
    | |- keeps _ get => apply keeps_get
    | |- keeps _ (lift _) => apply keeps_lift
    | |- keeps _ (getSubstance _) => apply keeps_getS
    | |- keeps _ (getReaction _) => apply keeps_getR
    | |- keeps _ (with_local _ _) => apply keeps_local
    | |- keeps _ (prefsSubstance _) => intros ? ?; apply Hsolv; assumption
    | |- keeps _ (upd (fun e => with_pv e _)) => apply keeps_upd; intros; apply Hpv
    | |- keeps _ (upd (fun e => with_applyP e _)) => apply keeps_upd; intros; apply Happly
    | |- keeps _ (upd (fun e => with_state e _)) => apply keeps_upd; intros; apply Hstate
    | |- keeps _ (upd (fun e => with_caches e _ _ _ _)) => apply keeps_upd; intros;
         first [apply Hps | apply Heps | apply Hcr]
    | |- keeps _ (if _ then _ else _) => apply keeps_if
    | |- keeps _ (match ?x with Some _ => _ | None => _ end) => destruct x
    end ].

Lemma keeps_solvent : forall mm T s z, keeps I (propertiesSolvent mm T s z).
Proof. intros. unfold propertiesSolvent, setstate. kp. Qed.
Lemma keeps_electro : forall mm T s z, keeps I (electroPropertiesSolvent mm T s z).
Proof. intros. unfold electroPropertiesSolvent, setstate. kp. apply keeps_solvent. Qed.
Lemma keeps_ps_fn : forall mm T s z, keeps I (ps_fn mm T s z).
Proof. intros. unfold ps_fn. cbv zeta. kp; apply keeps_solvent. Qed.
Lemma keeps_eps_fn : forall mm T s z, keeps I (eps_fn mm T s z).
Proof. intros. unfold eps_fn. cbv zeta. kp; apply keeps_electro. Qed.
Lemma keeps_direct : forall mm rs T s, (forall T x, keeps I (rs T x)) -> keeps I (direct mm rs T s).
Proof.
  intros mm rs T s Hrs. unfold direct, waterSwitch, genEOS, methT, methP, convention. cbv zeta. kp;
  first [apply keeps_ps_fn | apply keeps_eps_fn | apply Hrs].
Qed.
Lemma keeps_subr : forall rs T self l t, (forall T x, keeps I (rs T x)) -> keeps I (sub_reactants rs T self l t).
Proof.
  intros rs T self l. induction l as [|[x c] l IH]; intros t Hrs; cbn; kp; auto.
Qed.
Lemma keeps_addr : forall rs T a b l t, (forall T x, keeps I (rs T x)) -> keeps I (add_reactants rs T a b l t).
Proof.
  intros rs T a b l. induction l as [|[x c] l IH]; intros t Hrs; cbn; kp; auto.
Qed.
Lemma keeps_substBody : forall mm rs rr ro T s,
  (forall T x, keeps I (rs T x)) -> (forall T x, keeps I (rr T x)) -> (forall T x, keeps I (ro T x)) ->
  keeps I (substBody mm rs rr ro T s).
Proof.
  intros mm rs rr ro T s Hrs Hrr Hro. unfold substBody, reacDC. cbv zeta. kp; auto.
  - apply keeps_subr; assumption.
  - apply keeps_direct; assumption.
Qed.
Lemma keeps_fromReac : forall rs T r, (forall T x, keeps I (rs T x)) -> keeps I (fromReactants rs T r).
Proof. intros rs T r Hrs. unfold fromReactants. kp. apply keeps_addr; assumption. Qed.
Lemma keeps_reacBody : forall mm rs T r, (forall T x, keeps I (rs T x)) -> keeps I (reacBody mm rs T r).
Proof.
  intros mm rs T r Hrs. unfold reacBody, reacP. cbv zeta. kp;
  first [apply keeps_ps_fn | apply keeps_fromReac; assumption].
Qed.
Lemma keeps_reacSym : forall mm rs T r, (forall T x, keeps I (rs T x)) -> keeps I (reacSym mm rs T r).
Proof.
  intros mm rs T r Hrs. unfold reacSym. kp; apply keeps_reacBody; assumption.
Qed.

Hypothesis Hcs : forall mm k T sym e e' x, I e ->
  (do s <- getSubstance sym; substObj mm k T s) e = (e', Ret x) -> I e' ->
  I (with_caches e' ((T, pv e, sym, x) :: c_s e') (c_r e') (c_ps e') (c_eps e')).

Lemma keeps_all : forall mm n,
  (forall T s, keeps I (substObj mm n T s)) /\ (forall T x, keeps I (substFn mm n T x)) /\
  (forall T x, keeps I (reacFn mm n T x)).
Proof.
  intros mm n. induction n as [|k (IHo & IHs & IHr)].
  - split; [|split]; intros; apply keeps_fuel.
  - split; [|split]; intros T x.
    + rewrite substObj_S. apply keeps_substBody; assumption.
    + rewrite substFn_S. unfold memoS. intros e He. unfold bind at 1, get at 1. cbn beta iota.
      assert (KK : keeps I (do s <- getSubstance x; substObj mm k T s)) by (kp; apply IHo).
      destruct (e_wrapped e); [|apply KK; exact He].
      destruct (lookup skey_eqb (T, pv e, x) (c_s e)); [exact He|].
      specialize (KK e He). pose proof (Hcs mm k T x e) as Q.
      unfold bind at 1. destruct ((do s <- getSubstance x; substObj mm k T s) e) as [e' [y| |]]; cbn in KK |- *; auto.
    + rewrite reacFn_S. unfold memoR. kp; apply keeps_reacSym; assumption.
Qed.
End Combinators.

(** *** a calculation leaves the data and the client's settings alone *)
Lemma same_settings_refl : forall e, same_settings e e.
Proof. intro e. repeat split. Qed.
Lemma prefs_settings : forall e0 e s, same_settings e0 e -> same_settings e0 (fst (prefsSubstance s e)).
Proof.
  intros e0 e s He. unfold prefsSubstance, bind, upd; cbn.
  destruct (is_solute (s_class s)); [destruct (assoc _ _)|]; exact He.
Qed.
Lemma settings_kept : forall mm n T x e,
  same_settings e (fst (substFn mm n T x e)) /\ same_settings e (fst (reacFn mm n T x e)) /\
  (forall s, same_settings e (fst (substObj mm n T s e))).
Proof.
  intros mm n T x e.
  destruct (keeps_all (same_settings e)) with (mm := mm) (n := n) as (Ho & Hs & Hr);
    try (intros; assumption).
  - intros. apply prefs_settings; assumption.
  - split; [|split]; intros; [apply Hs|apply Hr|apply Ho]; apply same_settings_refl.
Qed.

(** *** the proton *)
Definition Hcache (e : est) : Prop :=
  keys_ok (e_subs e) /\ forall T P x, In ((T, P, "H+"%string), x) (c_s e) -> x = zeroTPS.
Lemma assoc_in : forall X k (l : list (string * X)) v, assoc k l = Some v -> In (k, v) l.
Proof.
  intros X k l. induction l as [|[k' v'] l IH]; intros v Hv; cbn in Hv; [discriminate|].
  destruct (String.eqb k k') eqn:E.
  - apply String.eqb_eq in E. inversion Hv; subst. now left.
  - right. auto.
Qed.
Lemma getS_inv : forall x e e1 s, getSubstance x e = (e1, Ret s) -> e1 = e /\ assoc x (e_subs e) = Some s.
Proof.
  intros x e e1 s Hs. unfold getSubstance, bind, get, lift, ret, throw in Hs. destruct (assoc x (e_subs e)); inversion Hs; subst; auto.
Qed.
Lemma body_proton : forall mm k T s e e' x, s_symbol s = "H+"%string ->
  substObj mm k T s e = (e', Ret x) -> x = zeroTPS.
Proof.
  intros mm [|k] T s e e' x Hs Hr; [discriminate|]. rewrite substObj_S in Hr. unfold substBody in Hr.
  apply bind_ret_inv in Hr. destruct Hr as (e1 & [] & _ & Hr). cbn beta in Hr. rewrite Hs in Hr. inversion Hr; reflexivity.
Qed.
Lemma proton_kept : forall mm n,
  (forall T s, keeps Hcache (substObj mm n T s)) /\ (forall T x, keeps Hcache (substFn mm n T x)) /\
  (forall T x, keeps Hcache (reacFn mm n T x)).
Proof.
  intros mm n. apply keeps_all; try (intros; assumption).
  - intros e s He. unfold prefsSubstance, bind, upd; cbn.
    destruct (is_solute (s_class s)); [destruct (assoc _ _)|]; exact He.
  - intros mm' k T sym e e' x [Hk He] Hr [Hk' He']. split; [exact Hk'|].
    intros T' P' x' [Hin|Hin]; [|eapply He'; exact Hin]. inversion Hin; subst; clear Hin.
    apply bind_ret_inv in Hr. destruct Hr as (e1 & s & Hs & Hr). apply getS_inv in Hs. destruct Hs as [-> Hs].
    apply assoc_in in Hs. apply Hk in Hs. eapply body_proton; eassumption.
Qed.
Lemma lookup_in : forall X (k : skey) (l : list (skey * X)) v, lookup skey_eqb k l = Some v -> In (k, v) l.
Proof.
  intros X k l. induction l as [|[k' v'] l IH]; intros v Hv; cbn in Hv; [discriminate|].
  destruct (skey_eqb k k') eqn:E.
  - left. inversion Hv; subst. f_equal. unfold skey_eqb in E.
    destruct k as [[t p] s], k' as [[t' p'] s']. apply andb_prop in E. destruct E as [E E3].
    apply andb_prop in E. destruct E as [E1 E2]. apply String.eqb_eq in E3.
    unfold req in *. destruct (Req_EM_T t t'), (Req_EM_T p p'); try discriminate. congruence.
  - right. auto.
Qed.
Lemma proton_answer : forall mm n T e s, Hcache e -> assoc "H+" (e_subs e) = Some s ->
  snd (substFn mm (Datatypes.S (Datatypes.S n)) T "H+" e) = Ret zeroTPS.
Proof.
  intros mm n T e s He Hs. rewrite substFn_S. unfold memoS.
  assert (B : forall e0, assoc "H+" (e_subs e0) = Some s ->
     exists e1, (do s <- getSubstance "H+"; substObj mm (Datatypes.S n) T s) e0 = (e1, Ret zeroTPS)).
  { intros e0 H0. unfold bind at 1, getSubstance at 1, bind at 1, get at 1, lift. rewrite H0. unfold ret at 1.
    rewrite substObj_S. unfold substBody.
    destruct He as [Hk _]. apply assoc_in in Hs. apply Hk in Hs. rewrite Hs.
    unfold bind at 1. cbn. eexists. reflexivity. }
  unfold bind at 1, get at 1. destruct (e_wrapped e).
  - destruct (lookup skey_eqb (T, pv e, "H+"%string) (c_s e)) eqn:L.
    + apply lookup_in in L. destruct He as [_ He]. apply He in L. subst. reflexivity.
    + destruct (B e Hs) as [e1 E1]. unfold bind at 1. rewrite E1. reflexivity.
  - destruct (B e Hs) as [e1 E1]. rewrite E1. reflexivity.
Qed.
Lemma put_in : forall X k (v : X) l k' v', In (k', v') (put k v l) -> (k' = k /\ v' = v) \/ In (k', v') l.
Proof.
  intros X k v l k' v'. induction l as [|[a b] l IH]; cbn; intros Hin.
  - destruct Hin as [E|[]]. inversion E; auto.
  - destruct (String.eqb k a); cbn in Hin; destruct Hin as [E|Hin]; auto.
    + inversion E; auto.
    + apply IH in Hin. tauto.
Qed.
Lemma step_proton : forall mm n e o, Hcache e -> Hcache (fst (step mm n e o)).
Proof.
  intros mm n e o He.
  destruct (proton_kept mm n) as (_ & Ks & Kr).
  destruct o as [T P sym|T P sym|x|z|b|b|w a|s|r]; cbn; try exact He.
  - unfold call. pose proof (Ks T sym (with_pv e P) He) as Q.
    destruct (substFn mm n T sym (with_pv e P)). exact Q.
  - unfold call. pose proof (Kr T sym (with_pv e P) He) as Q.
    destruct (reacFn mm n T sym (with_pv e P)). exact Q.
  - destruct He as [Hk He]. split; [|exact He]. intros k s' Hin. apply put_in in Hin.
    destruct Hin as [[-> ->]|Hin]; [reflexivity|]. apply (Hk _ _ Hin).
Qed.
Lemma run_proton : forall mm n l e, Hcache e -> Hcache (fst (run_ops mm n e l)).
Proof.
  intros mm n l. induction l as [|o l IH]; intros e He; cbn; [exact He|].
  pose proof (step_proton mm n e o He) as Q. destruct (step mm n e o) as [e' r]. cbn in Q.
  specialize (IH e' Q). destruct (run_ops mm n e' l) as [e'' rs]. exact IH.
Qed.
Lemma proton_zero : forall mm n ss rr tr l T P s, keys_ok ss ->
  let e := fst (run_ops mm (Datatypes.S (Datatypes.S n)) (new_engine ss rr tr) l) in
  assoc "H+" (e_subs e) = Some s ->
  exists t, snd (call (substFn mm (Datatypes.S (Datatypes.S n)) T "H+") P e) = Ret t /\
    forall p, In p props -> val (p t) = 0 /\ ddt (p t) = 0 /\ ddp (p t) = 0 /\ err (p t) = 0 /\ ~ undefined (p t).
Proof.
  intros mm n ss rr tr l T P s Hk e Hs. exists zeroTPS. split.
  - unfold call. apply (proton_answer mm n T (with_pv e P) s).
    + assert (Q : Hcache e) by (apply run_proton; split; [exact Hk|intros ? ? ? []]). exact Q.
    + exact Hs.
  - intros p Hp. unfold props in Hp. cbn in Hp.
    repeat (destruct Hp as [<-|Hp]; [cbn; repeat split; discriminate|]). destruct Hp.
Qed.
