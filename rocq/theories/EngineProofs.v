(** Lemmas on the engine model. *)
From Coq Require Import Reals String List Bool ZArith Lra Lia Permutation.
From Verif Require Import ThermoScalarModel ThermoScalarProofs EngineModel EngineSpec.
Import ListNotations.
Open Scope R_scope.

Lemma bind_ret_inv : forall T U (m : M T) (f : T -> M U) e e' y,
  bind m f e = (e', Ret y) -> exists e1 x, m e = (e1, Ret x) /\ f x e1 = (e', Ret y).
Proof.
  intros T U m f e e' y Hb. unfold bind in Hb. destruct (m e) as [e1 [x| |]]; try discriminate.
  eauto.
Qed.

Lemma substObj_S : forall mm k T s,
  substObj mm (Datatypes.S k) T s = substBody mm (substFn mm k) (reacFn mm k) (substObj mm k) T s.
Proof. reflexivity. Qed.
Lemma substFn_S : forall mm k T sym,
  substFn mm (Datatypes.S k) T sym = memoS T sym (do s <- getSubstance sym; substObj mm k T s).
Proof. reflexivity. Qed.
Lemma reacFn_S : forall mm k T sym,
  reacFn mm (Datatypes.S k) T sym = memoR T sym (reacSym mm (substFn mm k) T sym).
Proof. reflexivity. Qed.

(** ** values of the ThermoScalar operators used *)
Lemma val_ip_add : forall a b, val (ip_add a b) = val a + val b.
Proof. reflexivity. Qed.
Lemma val_ip_sub : forall a b, val (ip_sub a b) = val a - val b.
Proof. reflexivity. Qed.
Lemma val_mul_d : forall a c, val (ts_mul_d a c) = c * val a.
Proof. intros. unfold ts_mul_d, d_mul_ts. destruct (is0 (val a)); reflexivity. Qed.
Lemma ddt_mul_d : forall a c, ddt (ts_mul_d a c) = c * ddt a.
Proof. intros. unfold ts_mul_d, d_mul_ts. destruct (is0 (val a)); reflexivity. Qed.
Lemma ddp_mul_d : forall a c, ddp (ts_mul_d a c) = c * ddp a.
Proof. intros. unfold ts_mul_d, d_mul_ts. destruct (is0 (val a)); reflexivity. Qed.
Lemma val_div_d : forall a c, val (ts_div_d a c) = 1 / c * val a.
Proof. intros. unfold ts_div_d. apply (val_mul_d a (1 / c)). Qed.
Lemma ddt_div_d : forall a c, ddt (ts_div_d a c) = 1 / c * ddt a.
Proof. intros. unfold ts_div_d. apply (ddt_mul_d a (1 / c)). Qed.
Lemma ddp_div_d : forall a c, ddp (ts_div_d a c) = 1 / c * ddp a.
Proof. intros. unfold ts_div_d. apply (ddp_mul_d a (1 / c)). Qed.
Lemma sta_mul_d : forall a c, sta (ts_mul_d a c) = status1 a.
Proof. intros. unfold ts_mul_d, d_mul_ts. destruct (is0 (val a)); reflexivity. Qed.
Lemma sta_div_d : forall a c, sta (ts_div_d a c) = status1 a.
Proof. intros. apply sta_mul_d. Qed.
Lemma und_status1 : forall a, fst (status1 a) = notdefined <-> undefined a.
Proof.
  intros a. unfold status1, undefined. destruct (fst (sta a)) eqn:E; cbn; split; intro Q; congruence.
Qed.
Lemma und_ip_add : forall a b, undefined (ip_add a b) <-> undefined a \/ undefined b.
Proof.
  intros a b. unfold undefined, ip_add; cbn. unfold status_ip, status2.
  destruct (fst (sta a)), (fst (sta b)); cbn; split; intro Q; try tauto; try discriminate;
    destruct Q; congruence.
Qed.
Lemma und_mul_d : forall a c, undefined (ts_mul_d a c) <-> undefined a.
Proof. intros. unfold undefined at 1. rewrite sta_mul_d. apply und_status1. Qed.

(** ** C10, C11: sums over the reactants *)
Definition lin (p : TPR -> TS) (q : TPS -> TS) (f : TS -> R) : Prop :=
  forall T msg name a t c, f (p (add_reactant T msg name a t c)) = f (p a) + c * f (q t).
Lemma lin_G_val : lin rG G val. Proof. intros T msg name a t c. cbn. now rewrite val_mul_d. Qed.
Lemma lin_H_val : lin rH H val. Proof. intros T msg name a t c. cbn. now rewrite val_mul_d. Qed.
Lemma lin_S_val : lin rS S val. Proof. intros T msg name a t c. cbn. now rewrite val_mul_d. Qed.
Lemma lin_V_val : lin rV V val. Proof. intros T msg name a t c. cbn. now rewrite val_mul_d. Qed.
Lemma lin_Cp_val : lin rCp Cp val. Proof. intros T msg name a t c. cbn. now rewrite val_mul_d. Qed.
Lemma lin_G_ddt : lin rG G ddt. Proof. intros T msg name a t c. cbn. now rewrite ddt_mul_d. Qed.
Lemma lin_H_ddt : lin rH H ddt. Proof. intros T msg name a t c. cbn. now rewrite ddt_mul_d. Qed.
Lemma lin_S_ddt : lin rS S ddt. Proof. intros T msg name a t c. cbn. now rewrite ddt_mul_d. Qed.
Lemma lin_V_ddt : lin rV V ddt. Proof. intros T msg name a t c. cbn. now rewrite ddt_mul_d. Qed.
Lemma lin_Cp_ddt : lin rCp Cp ddt. Proof. intros T msg name a t c. cbn. now rewrite ddt_mul_d. Qed.
Lemma lin_G_ddp : lin rG G ddp. Proof. intros T msg name a t c. cbn. now rewrite ddp_mul_d. Qed.
Lemma lin_H_ddp : lin rH H ddp. Proof. intros T msg name a t c. cbn. now rewrite ddp_mul_d. Qed.
Lemma lin_S_ddp : lin rS S ddp. Proof. intros T msg name a t c. cbn. now rewrite ddp_mul_d. Qed.
Lemma lin_V_ddp : lin rV V ddp. Proof. intros T msg name a t c. cbn. now rewrite ddp_mul_d. Qed.
Lemma lin_Cp_ddp : lin rCp Cp ddp. Proof. intros T msg name a t c. cbn. now rewrite ddp_mul_d. Qed.

(** the shape of a successful sum: the answers of the substance function in sequence *)
Fixpoint fold_add (T : R) (msg : string) (l : list (string * R)) (ts : list TPS) (a : TPR) : TPR :=
  match l, ts with
  | (x, c) :: l', t :: ts' => fold_add T msg l' ts' (add_reactant T msg x a t c)
  | _, _ => a
  end.
Lemma add_reactants_inv : forall rs T rsym msg l a e e' t,
  add_reactants rs T rsym msg l a e = (e', Ret t) ->
  exists ts, answers (rs T) (species l) e ts e' /\ t = fold_add T msg l ts a /\ length ts = length l.
Proof.
  intros rs T rsym msg l. induction l as [|[x c] l IH]; intros a e e' t Hr; cbn in Hr.
  - inversion Hr; subst. exists []. repeat split. constructor.
  - apply bind_ret_inv in Hr. destruct Hr as (e1 & s & Hs & Hr).
    assert (e1 = e) as ->.
    { unfold getSubstance, bind, get, lift, ret, throw in Hs. destruct (assoc x (e_subs e)); inversion Hs; congruence. }
    destruct (noMethods s && String.eqb (s_reaction s) rsym); [discriminate|].
    apply bind_ret_inv in Hr. destruct Hr as (e2 & y & Hy & Hr).
    apply IH in Hr. destruct Hr as (ts & Ha & Ht & Hl).
    exists (y :: ts). repeat split; cbn; [econstructor; eauto | assumption | lia].
Qed.
Lemma fold_lin : forall p q f, lin p q f -> forall T msg l ts a, length ts = length l ->
  f (p (fold_add T msg l ts a)) = f (p a) + weighted l (map (fun t => f (q t)) ts).
Proof.
  intros p q f Hl T msg l. induction l as [|[x c] l IH]; intros [|t ts] a Hlen; cbn in *; try discriminate.
  - lra.
  - rewrite IH by lia. rewrite Hl. lra.
Qed.
Lemma fold_K : forall T msg l ts a, length ts = length l ->
  val (lnK a) = 1 / - (R_CONSTANT * T) * val (rG a) -> val (logK a) = ln_to_lg * val (lnK a) ->
  val (lnK (fold_add T msg l ts a)) = 1 / - (R_CONSTANT * T) * val (rG (fold_add T msg l ts a)) /\
  val (logK (fold_add T msg l ts a)) = ln_to_lg * val (lnK (fold_add T msg l ts a)).
Proof.
  intros T msg l. induction l as [|[x c] l IH]; intros [|t ts] a Hlen H1 H2; cbn in *; try discriminate.
  - tauto.
  - apply IH; [lia|..]; unfold add_reactant, set_msg; cbn [val lnK logK rG].
    + apply val_div_d.
    + apply val_mul_d.
Qed.
Definition und_lin (p : TPR -> TS) (q : TPS -> TS) : Prop :=
  forall T msg name a t c, undefined (p (add_reactant T msg name a t c)) <-> undefined (p a) \/ undefined (q t).
Lemma und_lin_ok : und_lin rG G /\ und_lin rH H /\ und_lin rS S /\ und_lin rV V /\ und_lin rCp Cp.
Proof.
  split; [|split; [|split; [|split]]]; intros T msg name a t c;
    unfold add_reactant, set_msg; unfold undefined at 1;
    cbn [sta fst rG rH rS rV rCp];
    match goal with |- fst (sta (ip_add ?x (ts_mul_d ?y ?d))) = notdefined <-> _ =>
      rewrite <- (und_mul_d y d); exact (und_ip_add x (ts_mul_d y d)) end.
Qed.
Lemma fold_und : forall p q, und_lin p q -> forall T msg l ts a, length ts = length l ->
  (undefined (p (fold_add T msg l ts a)) <-> undefined (p a) \/ exists t, In t ts /\ undefined (q t)).
Proof.
  intros p q Hu T msg l. induction l as [|[x c] l IH]; intros [|t ts] a Hlen; cbn in *; try discriminate.
  - split; [tauto|]. intros [Hx|(t & [] & _)]; assumption.
  - rewrite IH by lia. rewrite (Hu T msg x a t c). split.
    + intros [[Hx|Hx]|(u & Hu1 & Hu2)]; eauto.
    + intros [Hx|(u & [->|Hu1] & Hu2)]; eauto.
Qed.

Lemma fromReactants_inv : forall rs T r e e' t,
  fromReactants rs T r e = (e', Ret t) ->
  exists ts e1, answers (rs T) (species (r_reactants r)) (with_applyP e true) ts e1 /\
    e' = with_applyP e1 false /\
    t = fold_add T ("Calculated from the reaction components: " ++ r_symbol r ++ "; ") (r_reactants r) ts zeroTPR /\
    length ts = length (r_reactants r).
Proof.
  intros rs T r e e' t Hr. unfold fromReactants in Hr.
  apply bind_ret_inv in Hr. destruct Hr as (e1 & [] & H1 & Hr). cbn in H1. inversion H1; subst; clear H1.
  apply bind_ret_inv in Hr. destruct Hr as (e2 & y & H2 & Hr).
  apply bind_ret_inv in Hr. destruct Hr as (e3 & [] & H3 & Hr). cbn in H3. inversion H3; subst; clear H3.
  cbn in Hr. inversion Hr; subst; clear Hr.
  apply add_reactants_inv in H2. destruct H2 as (ts & Ha & Ht & Hl).
  exists ts, e2. repeat split; assumption.
Qed.

Lemma reaction_sum : forall mm n T r e e' t,
  reacFromReactants mm n T r e = (e', Ret t) ->
  exists ts e1, answers (substFn mm n T) (species (r_reactants r)) (with_applyP e true) ts e1 /\
    let sum f := weighted (r_reactants r) (map f ts) in
    (val (rG t) = sum (fun x => val (G x)) /\ val (rH t) = sum (fun x => val (H x)) /\
     val (rS t) = sum (fun x => val (S x)) /\ val (rV t) = sum (fun x => val (V x)) /\
     val (rCp t) = sum (fun x => val (Cp x))) /\
    (ddt (rG t) = sum (fun x => ddt (G x)) /\ ddt (rH t) = sum (fun x => ddt (H x)) /\
     ddt (rS t) = sum (fun x => ddt (S x)) /\ ddt (rV t) = sum (fun x => ddt (V x)) /\
     ddt (rCp t) = sum (fun x => ddt (Cp x))) /\
    (ddp (rG t) = sum (fun x => ddp (G x)) /\ ddp (rH t) = sum (fun x => ddp (H x)) /\
     ddp (rS t) = sum (fun x => ddp (S x)) /\ ddp (rV t) = sum (fun x => ddp (V x)) /\
     ddp (rCp t) = sum (fun x => ddp (Cp x))) /\
    ((undefined (rG t) <-> exists x, In x ts /\ undefined (G x)) /\
     (undefined (rH t) <-> exists x, In x ts /\ undefined (H x)) /\
     (undefined (rS t) <-> exists x, In x ts /\ undefined (S x)) /\
     (undefined (rV t) <-> exists x, In x ts /\ undefined (V x)) /\
     (undefined (rCp t) <-> exists x, In x ts /\ undefined (Cp x))) /\
    val (lnK t) = - val (rG t) / (R_CONSTANT * T) /\ val (logK t) = val (lnK t) * ln_to_lg.
Proof.
  intros mm n T r e e' t Hr. apply fromReactants_inv in Hr.
  destruct Hr as (ts & e1 & Ha & _ & Ht & Hl). exists ts, e1. split; [exact Ha|].
  cbv zeta. rewrite Ht.
  assert (L : forall p q f, lin p q f -> f (p zeroTPR) = 0 -> forall msg, f (p (fold_add T msg (r_reactants r) ts zeroTPR)) =
             weighted (r_reactants r) (map (fun x => f (q x)) ts)).
  { intros p q f Hlin H0 msg. rewrite (fold_lin p q f Hlin) by assumption. rewrite H0. lra. }
  assert (Un : forall p q, und_lin p q -> ~ undefined (p zeroTPR) -> forall msg,
     undefined (p (fold_add T msg (r_reactants r) ts zeroTPR)) <-> exists x, In x ts /\ undefined (q x)).
  { intros p q Hu H0 msg. rewrite (fold_und p q Hu) by assumption. tauto. }
  destruct und_lin_ok as (u1 & u2 & u3 & u4 & u5).
  split; [|split; [|split; [|split]]].
  - repeat split; [apply (L _ _ _ lin_G_val)|apply (L _ _ _ lin_H_val)|apply (L _ _ _ lin_S_val)|
      apply (L _ _ _ lin_V_val)|apply (L _ _ _ lin_Cp_val)]; reflexivity.
  - repeat split; [apply (L _ _ _ lin_G_ddt)|apply (L _ _ _ lin_H_ddt)|apply (L _ _ _ lin_S_ddt)|
      apply (L _ _ _ lin_V_ddt)|apply (L _ _ _ lin_Cp_ddt)]; reflexivity.
  - repeat split; [apply (L _ _ _ lin_G_ddp)|apply (L _ _ _ lin_H_ddp)|apply (L _ _ _ lin_S_ddp)|
      apply (L _ _ _ lin_V_ddp)|apply (L _ _ _ lin_Cp_ddp)]; reflexivity.
  - split; [|split; [|split; [|split]]]; apply Un; try assumption; discriminate.
  - destruct (fold_K T ("Calculated from the reaction components: " ++ r_symbol r ++ "; ")
                (r_reactants r) ts zeroTPR Hl) as [K1 K2]; [cbn; lra|cbn; lra|].
    rewrite K2, K1. unfold Rdiv. rewrite Rinv_opp. split; ring.
Qed.

(** order of the reactants does not matter when each species has one answer *)
Lemma answers_pure : forall (I : est -> Prop) ask f l e ts e',
  (forall x e0, In x l -> I e0 -> snd (ask x e0) = Ret (f x) /\ I (fst (ask x e0))) -> I e ->
  answers ask l e ts e' -> ts = map f l.
Proof.
  intros I ask f l e ts e' Hp Hi Ha. induction Ha as [|x l e t e1 ts e2 Hx Ha IH]; [reflexivity|].
  destruct (Hp x e (or_introl eq_refl) Hi) as [Hv Hk]. rewrite Hx in Hv, Hk. cbn in Hv, Hk.
  cbn. f_equal; [congruence|].
  apply IH; [|exact Hk]. intros y e0 Hy. apply Hp. now right.
Qed.
Lemma weighted_perm : forall (g : string -> R) l l', Permutation l l' ->
  weighted l (map g (map fst l)) = weighted l' (map g (map fst l')).
Proof.
  intros g l l' Hp. induction Hp as [|[x c] l l' Hp IH|[x c] [y d] l|l1 l2 l3 _ IH1 _ IH2]; cbn; try lra.
Qed.
Lemma reaction_order : forall mm n T (I : est -> Prop) f r r' e1 e2 e1' e2' t1 t2,
  Permutation (r_reactants r) (r_reactants r') ->
  (forall x e0, In x (species (r_reactants r)) -> I e0 ->
     snd (substFn mm n T x e0) = Ret (f x) /\ I (fst (substFn mm n T x e0))) ->
  I (with_applyP e1 true) -> I (with_applyP e2 true) ->
  reacFromReactants mm n T r e1 = (e1', Ret t1) -> reacFromReactants mm n T r' e2 = (e2', Ret t2) ->
  val (rG t1) = val (rG t2) /\ val (rH t1) = val (rH t2) /\ val (rS t1) = val (rS t2) /\
  val (rV t1) = val (rV t2) /\ val (rCp t1) = val (rCp t2) /\
  val (lnK t1) = val (lnK t2) /\ val (logK t1) = val (logK t2).
Proof.
  intros mm n T I f r r' e1 e2 e1' e2' t1 t2 Hp Hf I1 I2 H1 H2.
  apply reaction_sum in H1. destruct H1 as (ts1 & ee1 & A1 & (g1 & h1 & s1 & v1 & c1) & _ & _ & _ & k1 & l1).
  apply reaction_sum in H2. destruct H2 as (ts2 & ee2 & A2 & (g2 & h2 & s2 & v2 & c2) & _ & _ & _ & k2 & l2).
  apply answers_pure with (I := I) (f := f) in A1; [|assumption|assumption].
  assert (Hp' : Permutation (species (r_reactants r)) (species (r_reactants r'))) by (apply Permutation_map; assumption).
  apply answers_pure with (I := I) (f := f) in A2; [| |assumption].
  2:{ intros x e0 Hx. apply Hf. eapply Permutation_in; [apply Permutation_sym; exact Hp'|exact Hx]. }
  subst ts1 ts2. unfold species in *. rewrite !map_map in *.
  assert (W : forall g : TPS -> R, weighted (r_reactants r) (map (fun x => g (f (fst x))) (r_reactants r)) =
          weighted (r_reactants r') (map (fun x => g (f (fst x))) (r_reactants r'))).
  { intros g. pose proof (weighted_perm (fun x => g (f x)) _ _ Hp) as Q. rewrite !map_map in Q. exact Q. }
  assert (EG : val (rG t1) = val (rG t2)) by (rewrite g1, g2; apply (W (fun x => val (G x)))).
  assert (EK : val (lnK t1) = val (lnK t2)) by (rewrite k1, k2, EG; reflexivity).
  repeat split; try assumption.
  - rewrite h1, h2; apply (W (fun x => val (H x))).
  - rewrite s1, s2; apply (W (fun x => val (S x))).
  - rewrite v1, v2; apply (W (fun x => val (V x))).
  - rewrite c1, c2; apply (W (fun x => val (Cp x))).
  - rewrite l1, l2, EK; reflexivity.
Qed.

(** Cv, U and A are those of the last species only *)
Lemma reaction_last : forall mm n T r e e' t l x c,
  r_reactants r = (l ++ [(x, c)])%list ->
  reacFromReactants mm n T r e = (e', Ret t) ->
  exists ts u e1, answers (substFn mm n T) (species (r_reactants r)) (with_applyP e true) (ts ++ [u])%list e1 /\
    val (rCv t) = c * val (Cv u) /\ val (rU t) = c * val (U u) /\ val (rA t) = c * val (A u).
Proof.
  intros mm n T r e e' t l x c Hl Hr. apply fromReactants_inv in Hr.
  destruct Hr as (ts & e1 & Ha & _ & Ht & Hlen).
  rewrite Hl in *. destruct (rev ts) as [|u us] eqn:Er.
  { apply (f_equal (@rev _)) in Er. rewrite rev_involutive in Er. subst ts.
    rewrite app_length in Hlen. cbn in Hlen. lia. }
  apply (f_equal (@rev _)) in Er. rewrite rev_involutive in Er. cbn in Er. subst ts.
  exists (rev us), u, e1. split; [exact Ha|]. rewrite Ht.
  assert (Hlen' : length (rev us) = length l) by (rewrite !app_length in Hlen; cbn in Hlen; lia).
  clear - Hlen'. generalize ("Calculated from the reaction components: " ++ r_symbol r ++ "; ")%string.
  intro msg. generalize zeroTPR. revert Hlen'. generalize (rev us) as vs.
  induction l as [|[y d] l IH]; intros [|v vs] Hlen a; cbn in *; try discriminate.
  - now rewrite !val_mul_d.
  - apply IH. lia.
Qed.

(** ** C12 *)
Lemma getReaction_state : forall x e e1 r, getReaction x e = (e1, Ret r) -> e1 = e /\ assoc x (e_reacs e) = Some r.
Proof.
  intros x e e1 r Hs. unfold getReaction, bind, get, lift, ret, throw in Hs. destruct (assoc x (e_reacs e)); inversion Hs; subst; auto.
Qed.
Fixpoint fold_sub (self : string) (l : list (string * R)) (ts : list TPS) (a : TPS) : TPS :=
  match l with
  | [] => a
  | (x, c) :: l' => if String.eqb x self then fold_sub self l' ts a
                    else match ts with t :: ts' => fold_sub self l' ts' (sub_reactant a t c) | [] => a end
  end.
Lemma sub_reactants_inv : forall rs T self l a e e' t,
  sub_reactants rs T self l a e = (e', Ret t) ->
  exists ts, answers (rs T) (others self l) e ts e' /\ t = fold_sub self l ts a.
Proof.
  intros rs T self l. induction l as [|[x c] l IH]; intros a e e' t Hr; cbn in Hr.
  - inversion Hr; subst. exists []. split; [constructor|reflexivity].
  - unfold others; cbn. destruct (String.eqb x self) eqn:E; cbn.
    + apply IH in Hr. exact Hr.
    + apply bind_ret_inv in Hr. destruct Hr as (e2 & y & Hy & Hr).
      apply IH in Hr. destruct Hr as (ts & Ha & Ht).
      exists (y :: ts). split; [econstructor; eauto | assumption].
Qed.
Lemma answers_length : forall ask l e ts e', answers ask l e ts e' -> length ts = length l.
Proof. intros ask l e ts e' Ha. induction Ha; cbn; congruence. Qed.
Lemma fold_sub_lin : forall (p : TPS -> TS) (f : TS -> R),
  (forall a t c, f (p (sub_reactant a t c)) = f (p a) - c * f (p t)) ->
  forall self l ts a, length ts = length (others self l) ->
  f (p (fold_sub self l ts a)) = f (p a) - weighted_others self l (map (fun t => f (p t)) ts).
Proof.
  intros p f Hl self l. induction l as [|[x c] l IH]; intros ts a Hlen; cbn in *; [lra|].
  unfold others in Hlen; cbn in Hlen.
  destruct (String.eqb x self) eqn:E; cbn in *.
  - apply IH. exact Hlen.
  - destruct ts as [|t ts]; [discriminate|]. cbn in *. rewrite IH by (unfold others; lia). rewrite Hl. lra.
Qed.

Lemma reacDC_inverse : forall mm n T s e e' t,
  String.eqb (s_symbol s) "H+" = false -> isReacDC s = true -> e_fallback e' = false ->
  s_reaction s <> ""%string -> s_mP s <> CPM_CON ->
  substObj mm (Datatypes.S n) T s e = (e', Ret t) ->
  exists e0 r tpr e1 ts e2,
    assoc (s_reaction s) (e_reacs e0) = Some r /\ e_reacs e0 = e_reacs e /\
    reacFn mm n T (s_reaction s) e0 = (e1, Ret tpr) /\
    answers (substFn mm n T) (others (s_symbol s) (r_reactants r)) e1 ts e2 /\
    forall c, assoc (s_symbol s) (r_reactants r) = Some c -> c <> 0 ->
    let back p := c * val (p t) + weighted_others (s_symbol s) (r_reactants r) (map (fun x => val (p x)) ts) in
    back G = val (rG tpr) /\ back H = val (rH tpr) /\ back S = val (rS tpr) /\ back Cp = val (rCp tpr) /\
    back V = val (rV tpr) /\ back A = val (rA tpr) /\ back U = val (rU tpr) /\ back Cv = val (rCv tpr).
Proof.
  intros mm n T s e e' t Hh Hd Hf Hne HmP Hr. rewrite substObj_S in Hr. unfold substBody in Hr.
  apply bind_ret_inv in Hr. destruct Hr as (e0 & [] & Hpre & Hr).
  cbn beta in Hr. rewrite Hh, Hd in Hr.
  apply bind_ret_inv in Hr. destruct Hr as (e1 & t1 & Hrd & Hr).
  cbn in Hr. inversion Hr; subst; clear Hr.
  unfold fallback. rewrite Hf. clear Hf Hh Hd.
  unfold reacDC in Hrd.
  apply bind_ret_inv in Hrd. destruct Hrd as (e2 & [] & Hu & Hrd). cbn in Hu. inversion Hu; subst; clear Hu.
  destruct (String.eqb (s_reaction s) "") eqn:Es; [apply String.eqb_eq in Es; contradiction|].
  apply bind_ret_inv in Hrd. destruct Hrd as (e3 & r & Hg & Hrd).
  apply getReaction_state in Hg. destruct Hg as [-> Hg].
  apply bind_ret_inv in Hrd. destruct Hrd as (e4 & tpr & Hrf & Hrd).
  apply bind_ret_inv in Hrd. destruct Hrd as (e5 & t2 & Hsub & Hrd).
  apply bind_ret_inv in Hrd. destruct Hrd as (e6 & [] & Hu & Hrd). cbn in Hu. inversion Hu; subst; clear Hu.
  replace (Z.eqb (s_mP s) CPM_CON) with false in Hrd by (symmetry; apply Z.eqb_neq; exact HmP).
  cbn in Hrd. inversion Hrd; subst; clear Hrd.
  apply sub_reactants_inv in Hsub. destruct Hsub as (ts & Ha & Ht2).
  exists (with_applyP e0 true), r, tpr, e4, ts, e5.
  split; [exact Hg|]. split.
  { unfold prefsSubstance, bind, upd in Hpre. inversion Hpre.
    destruct (is_solute (s_class s)); [destruct (assoc _ _)|]; reflexivity. }
  split; [exact Hrf|]. split; [exact Ha|].
  intros c Hc Hc0. cbv zeta.
  assert (B : forall p, (forall a u d, val (p (sub_reactant a u d)) = val (p a) - d * val (p u)) ->
     (forall a d, val (p (div_all a d)) = 1 / d * val (p a)) ->
     c * val (p (div_all t2 (coef (s_symbol s) (r_reactants r)))) + weighted_others (s_symbol s) (r_reactants r) (map (fun x => val (p x)) ts)
       = val (p (tps_of_tpr tpr))).
  { intros p Hp1 Hp2. rewrite Hp2. unfold coef. rewrite Hc. subst t2.
    rewrite (fold_sub_lin p val Hp1) by (eapply answers_length; exact Ha). field. exact Hc0. }
  repeat split; apply B; intros; cbn; rewrite ?val_mul_d, ?val_div_d; lra.
Qed.
