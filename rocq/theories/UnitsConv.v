(** Conversion: consistency, refusal, meaning of expressions, temperatures. *)
From Coq Require Import String Ascii List Bool Arith ZArith QArith Qreals Reals Lia Lra.
From Verif Require Import DatabaseModel DatabaseSpec DatabaseProofs EquationModel UnitsModel UnitsSpec UnitsProofs.
Import ListNotations.
Open Scope list_scope.
Open Scope R_scope.

Local Arguments D : simpl never.
Local Arguments dimS : simpl never.
Local Arguments factorS : simpl never.
Local Arguments fac : simpl never.
Local Arguments dimof : simpl never.
Definition both_temp (u v : text) : bool := is_temp (str u) && is_temp (str v).
Lemma powh_one : forall x, 0 < x -> powh x 2 = x.
Proof. intros x H. unfold powh. replace (2 / 2) with 1 by lra. now apply Rpower_1. Qed.
Lemma powh_minus : forall x, 0 < x -> powh x (-2) = / x.
Proof. intros x H. unfold powh. replace (-2 / 2) with (- (1)) by lra. rewrite Rpower_Ropp. now rewrite Rpower_1. Qed.

(** *** factor of a parsed unit *)
Fixpoint prodfac (d : list (string * Z)) : R := match d with [] => 1 | (s, sg) :: d' => powh (fac s) (2 * sg) * prodfac d' end.
Lemma prodfac_pos : forall d, 0 < prodfac d.
Proof. induction d as [|[s sg] d IH]; cbn; [lra|]. apply Rmult_lt_0_compat; [apply powh_pos|exact IH]. Qed.
Lemma factorD_spec : forall d, (forall p, In p d -> valid (fst p)) -> factorD d = UOk (prodfac d).
Proof.
  induction d as [|[s sg] d IH]; intros H; [reflexivity|]. cbn [factorD prodfac].
  destruct (fac_valid s (H (s, sg) (or_introl eq_refl))) as [-> _]. cbn [ubind]. rewrite IH by (intros p Hp; apply H; now right). cbn [ubind].
  now rewrite Rmult_1_l.
Qed.
(** everything a call of convert or convertible computes *)
Inductive outcome (u : text) : Type :=
| ParsesTo (d : list (string * Z)) (m : smap Z) (E : parseUnit u = UOk d) (V : forall p, In p d -> valid (fst p))
    (Em : dimension d = UOk m) (Sm : sorted m) (Am : forall b, at0 b m = sumdim d b)
| BadName (d : list (string * Z)) (E : parseUnit u = UOk d) (Em : dimension d = UThrow)
| BadThrow (E : parseUnit u = UThrow)
| BadUB (E : parseUnit u = UUB).
Lemma outcome_of : forall u, inhabited (outcome u).
Proof.
  intros u. destruct (parseUnit u) as [d| |] eqn:E; [|constructor; now constructor 3|constructor; now constructor 4].
  destruct (all_valid_dec d) as [H|(s & sg & Hi & Hn)].
  - destruct (dimension_spec d H) as (m & Em & Sm & Am). constructor. eapply ParsesTo; eassumption.
  - constructor. eapply BadName; [exact E|]. unfold dimension. rewrite (dimD_throw d s sg Hi Hn [] so_nil). reflexivity.
Qed.
Lemma convertible_true : forall u v, both_temp u v = false -> convertible u v = UOk true ->
  exists d d' m, parseUnit u = UOk d /\ parseUnit v = UOk d' /\ dimension d = UOk m /\ dimension d' = UOk m /\
    (forall p, In p d -> valid (fst p)) /\ (forall p, In p d' -> valid (fst p)).
Proof.
  intros u v Hb Hc. unfold convertible in Hc. fold (both_temp u v) in Hc. rewrite Hb in Hc.
  destruct (outcome_of u) as [[d m E V Em _ _|d E Em|E|E]]; rewrite E in Hc; cbn [ubind] in Hc; try discriminate;
  destruct (outcome_of v) as [[d' m' E' V' Em' _ _|d' E' Em'|E'|E']]; rewrite E' in Hc; cbn [ubind] in Hc; try discriminate;
  rewrite Em in Hc; cbn [ubind] in Hc; try discriminate; rewrite Em' in Hc; cbn [ubind] in Hc; try discriminate.
  inversion Hc as [Q]. apply sm_eqb_eq in Q. subst m'. exists d, d', m. repeat split; assumption.
Qed.
Lemma convertible_intro : forall u v d d' m, both_temp u v = false -> parseUnit u = UOk d -> parseUnit v = UOk d' ->
  dimension d = UOk m -> dimension d' = UOk m -> convertible u v = UOk true.
Proof.
  intros u v d d' m Hb E E' Em Em'. unfold convertible. fold (both_temp u v). rewrite Hb, E, E'. cbn [ubind]. rewrite Em, Em'. cbn [ubind].
  f_equal. now apply sm_eqb_eq.
Qed.
Lemma convert_value : forall x u v d d' m, both_temp u v = false -> parseUnit u = UOk d -> parseUnit v = UOk d' ->
  dimension d = UOk m -> dimension d' = UOk m -> (forall p, In p d -> valid (fst p)) -> (forall p, In p d' -> valid (fst p)) ->
  convert x u v = UOk (x * prodfac d / prodfac d').
Proof.
  intros x u v d d' m Hb E E' Em Em' V V'. unfold convert. fold (both_temp u v). rewrite Hb, E, E'. cbn [ubind]. rewrite Em, Em'. cbn [ubind].
  assert (Q : sm_eqb m m = true) by now apply sm_eqb_eq. rewrite Q, (factorD_spec d V), (factorD_spec d' V'). reflexivity.
Qed.

(** *** temperatures *)
Definition kelvins (v : R) (u : string) : option R :=
  if (String.eqb u "K" || String.eqb u "kelvin")%bool then Some v
  else if (String.eqb u "degC" || String.eqb u "celsius")%bool then Some (v + 273.15)
  else if (String.eqb u "degF" || String.eqb u "fahrenheit")%bool then Some ((v - 32) / 1.8 + 273.15)
  else if (String.eqb u "degR" || String.eqb u "rankine")%bool then Some (v / 1.8 + (273.15 - 491.67 / 1.8))
  else None.
Lemma temps_listed : forall u, is_temp u = true -> In u ["K"; "degC"; "degF"; "degR"; "kelvin"; "celsius"; "fahrenheit"; "rankine"]%string.
Proof.
  intros u. unfold is_temp. cbn [look temperatureUnits].
  repeat (match goal with |- context [String.eqb u ?k] => destruct (String.eqb_spec u k) as [->|_]; [cbn; auto 20|] end). discriminate.
Qed.
Ltac temps H := apply temps_listed in H; destruct H as [<-|[<-|[<-|[<-|[<-|[<-|[<-|[<-|[]]]]]]]]].
Lemma toKelvin_kelvins : forall u v, is_temp u = true -> toKelvin 9 v u = kelvins v u.
Proof. intros u v H. temps H; cbn; unfold Q2R; cbn; f_equal; try reflexivity; lra. Qed.
Lemma fromKelvin_kelvins : forall u k, is_temp u = true -> exists r, fromKelvin 9 k u = Some r /\ kelvins r u = Some k.
Proof. intros u k H. temps H; cbn; unfold Q2R; cbn; eexists; (split; [reflexivity|]); f_equal; lra. Qed.
Lemma kelvins_some : forall u v, is_temp u = true -> exists k, kelvins v u = Some k.
Proof. intros u v H. temps H; cbn; eauto. Qed.
Lemma kelvins_inj : forall u v w, is_temp u = true -> kelvins v u = kelvins w u -> v = w.
Proof. intros u v w H. temps H; cbn; intros Q; inversion Q; lra. Qed.
(** the converted value is the same temperature *)
Lemma temp_same : forall x u v, both_temp u v = true -> exists y, convert x u v = UOk y /\ kelvins y (str v) = kelvins x (str u).
Proof.
  intros x u v H. unfold convert. fold (both_temp u v). rewrite H. unfold convertTemperature. fold (both_temp u v). rewrite H.
  apply andb_true_iff in H. destruct H as [Hu Hv]. rewrite (toKelvin_kelvins _ _ Hu). destruct (kelvins_some _ x Hu) as [k Hk]. rewrite Hk.
  destruct (fromKelvin_kelvins _ k Hv) as (r & -> & Hr). eauto.
Qed.
Lemma temp_round : forall x u v y, both_temp u v = true -> convert x u v = UOk y -> convert y v u = UOk x.
Proof.
  intros x u v y H E. destruct (temp_same x u v H) as (y' & E' & Hy). assert (y' = y) by congruence. subst y'.
  assert (H' : both_temp v u = true) by (unfold both_temp in *; now rewrite andb_comm). destruct (temp_same y v u H') as (z & Ez & Hz).
  rewrite Ez. f_equal. apply (kelvins_inj (str u)); [now apply andb_true_iff in H|]. congruence.
Qed.

(** *** consistency of other conversions *)
Lemma both_sym : forall u v, both_temp u v = both_temp v u. Proof. intros. apply andb_comm. Qed.
Lemma convert_ok_convertible : forall x u v y, both_temp u v = false -> convert x u v = UOk y -> convertible u v = UOk true.
Proof.
  intros x u v y Hb Hc. unfold convert in Hc. unfold convertible. fold (both_temp u v) in *. rewrite Hb in *.
  destruct (parseUnit u) as [d| |]; try discriminate. cbn [ubind] in *. destruct (parseUnit v) as [d'| |]; try discriminate. cbn [ubind] in *.
  destruct (dimension d) as [m| |]; try discriminate. cbn [ubind] in *. destruct (dimension d') as [m'| |]; try discriminate. cbn [ubind] in *.
  destruct (sm_eqb m m'); [reflexivity|discriminate].
Qed.
Lemma conv_refl : forall x u, both_temp u u = false -> (exists b, convertible u u = UOk b) -> convert x u u = UOk x.
Proof.
  intros x u Hb [b Hc]. unfold convertible in Hc. fold (both_temp u u) in Hc. rewrite Hb in Hc.
  destruct (outcome_of u) as [[d m E V Em Sm Am|d E Em|E|E]]; rewrite E in Hc; cbn [ubind] in Hc; try discriminate.
  - rewrite (convert_value x u u d d m) by assumption. f_equal. pose proof (prodfac_pos d). field. lra.
  - rewrite Em in Hc. discriminate.
Qed.
Lemma conv_round : forall x u v y, both_temp u v = false -> convert x u v = UOk y -> convert y v u = UOk x.
Proof.
  intros x u v y Hb Hc. destruct (convertible_true u v Hb (convert_ok_convertible _ _ _ _ Hb Hc)) as (d & d' & m & E & E' & Em & Em' & V & V').
  rewrite (convert_value x u v d d' m) in Hc by assumption. inversion Hc; subst y.
  rewrite (convert_value _ v u d' d m); try assumption; [|now rewrite both_sym]. f_equal. pose proof (prodfac_pos d). pose proof (prodfac_pos d'). field. lra.
Qed.
Lemma conv_linear : forall a b x y u v x' y', both_temp u v = false -> convert x u v = UOk x' -> convert y u v = UOk y' ->
  convert (a * x + b * y) u v = UOk (a * x' + b * y').
Proof.
  intros a b x y u v x' y' Hb Hx Hy. destruct (convertible_true u v Hb (convert_ok_convertible _ _ _ _ Hb Hx)) as (d & d' & m & E & E' & Em & Em' & V & V').
  rewrite (convert_value x u v d d' m) in Hx by assumption. rewrite (convert_value y u v d d' m) in Hy by assumption.
  inversion Hx; inversion Hy; subst. rewrite (convert_value _ u v d d' m) by assumption. f_equal. pose proof (prodfac_pos d'). field. lra.
Qed.
(** temperature units parse to themselves *)
Lemma str_inj : forall u v, str u = str v -> u = v.
Proof. intros u v H. unfold str in H. apply (f_equal list_ascii_of_string) in H. now rewrite !list_ascii_of_string_of_list_ascii in H. Qed.
Lemma temp_parse : forall u, is_temp (str u) = true -> parseUnit u = UOk [(str u, 1%Z)].
Proof.
  intros u H. assert (Q : u = list_ascii_of_string (str u)) by (unfold str; now rewrite list_ascii_of_string_of_list_ascii).
  revert Q H. generalize (str u). intros s -> H. temps H; reflexivity.
Qed.
Lemma temp_dim : forall u m, is_temp u = true -> dimension [(u, 1%Z)] = UOk m -> m = [(u, 1%Z)].
Proof. intros u m H E. temps H; vm_compute in E; inversion E; reflexivity. Qed.
Lemma conv_trans : forall x u v w y z, both_temp u v = false -> both_temp v w = false ->
  convert x u v = UOk y -> convert y v w = UOk z -> convert x u w = UOk z.
Proof.
  intros x u v w y z Huv Hvw Hy Hz.
  destruct (convertible_true u v Huv (convert_ok_convertible _ _ _ _ Huv Hy)) as (du & dv & m & Eu & Ev & Mu & Mv & Vu & Vv).
  destruct (convertible_true v w Hvw (convert_ok_convertible _ _ _ _ Hvw Hz)) as (dv' & dw & m' & Ev' & Ew & Mv' & Mw & Vv' & Vw).
  assert (dv' = dv) by congruence. subst dv'. assert (m' = m) by congruence. subst m'.
  rewrite (convert_value x u v du dv m) in Hy by assumption. inversion Hy; subst y; clear Hy.
  rewrite (convert_value _ v w dv dw m) in Hz by assumption. inversion Hz; subst z; clear Hz.
  pose proof (prodfac_pos du) as P1. pose proof (prodfac_pos dv) as P2. pose proof (prodfac_pos dw) as P3.
  destruct (both_temp u w) eqn:Huw.
  - pose proof Huw as Q. apply andb_true_iff in Q. destruct Q as [Tu Tw].
    pose proof (temp_parse u Tu) as Pu. pose proof (temp_parse w Tw) as Pw.
    assert (Du : du = [(str u, 1%Z)]) by congruence. assert (Dw : dw = [(str w, 1%Z)]) by congruence.
    assert (Qu : m = [(str u, 1%Z)]) by (apply temp_dim; [exact Tu|now rewrite <- Du]).
    assert (Qw : m = [(str w, 1%Z)]) by (apply temp_dim; [exact Tw|now rewrite <- Dw]).
    assert (Esw : str u = str w) by congruence.
    destruct (temp_same x u w Huw) as (r & Er & Kr). rewrite Er. f_equal.
    assert (Ex : r = x) by (apply (kelvins_inj (str w)); [exact Tw|]; rewrite Kr, Esw; reflexivity). rewrite Ex.
    assert (Edw : dw = du) by congruence. rewrite Edw. field. lra.
  - rewrite (convert_value x u w du dw m) by assumption. f_equal. field. lra.
Qed.

(** *** refusal *)
Lemma refuse_iff : forall x u v, (convertible u v = UOk true <-> exists y, convert x u v = UOk y) /\
  (convertible u v = UOk false -> convert x u v = UThrow) /\
  (convertible u v = UThrow -> convert x u v = UThrow) /\ (convertible u v = UUB -> convert x u v = UUB).
Proof.
  intros x u v. destruct (both_temp u v) eqn:Hb.
  - destruct (temp_same x u v Hb) as (y & Ey & _). unfold convertible. fold (both_temp u v). rewrite Hb.
    split; [split; eauto|]. repeat split; discriminate.
  - split; [split|].
    + intros Hc. destruct (convertible_true u v Hb Hc) as (d & d' & m & E & E' & Em & Em' & V & V'). eexists. now apply (convert_value x u v d d' m).
    + intros [y Hy]. exact (convert_ok_convertible _ _ _ _ Hb Hy).
    + unfold convertible, convert. fold (both_temp u v). rewrite Hb.
      destruct (parseUnit u) as [d| |]; cbn [ubind]; try (repeat split; intros; congruence).
      destruct (parseUnit v) as [d'| |]; cbn [ubind]; try (repeat split; intros; congruence).
      destruct (dimension d) as [m| |]; cbn [ubind]; try (repeat split; intros; congruence).
      destruct (dimension d') as [m'| |]; cbn [ubind]; try (repeat split; intros; congruence).
      destruct (sm_eqb m m'); repeat split; intros; congruence.
Qed.
Lemma convertible_sym : forall u v, convertible u v = UOk true -> convertible v u = UOk true.
Proof.
  intros u v H. destruct (both_temp u v) eqn:Hb.
  - unfold convertible. fold (both_temp v u). now rewrite both_sym, Hb.
  - destruct (convertible_true u v Hb H) as (d & d' & m & E & E' & Em & Em' & V & V'). rewrite both_sym in Hb. now apply (convertible_intro v u d' d m).
Qed.
Lemma convertible_trans : forall u v w, both_temp u v = both_temp v w -> convertible u v = UOk true -> convertible v w = UOk true -> convertible u w = UOk true.
Proof.
  intros u v w Hb H1 H2. destruct (both_temp u w) eqn:Huw; [unfold convertible; fold (both_temp u w); now rewrite Huw|].
  destruct (both_temp u v) eqn:Huv.
  - symmetry in Hb. unfold both_temp in *. apply andb_true_iff in Huv. apply andb_true_iff in Hb. destruct Huv as [A _]. destruct Hb as [_ B].
    rewrite A, B in Huw. discriminate.
  - destruct (convertible_true u v Huv H1) as (du & dv & m & Eu & Ev & Mu & Mv & Vu & Vv).
    destruct (convertible_true v w (eq_sym Hb) H2) as (dv' & dw & m' & Ev' & Ew & Mv' & Mw & Vv' & Vw).
    assert (dv' = dv) by congruence. subst dv'. assert (m' = m) by congruence. subst m'. now apply (convertible_intro u w du dw m).
Qed.

(** *** expressions *)
Lemma signed_atoms : forall e sg p, In p (signed e sg) -> In (fst p) (atoms e).
Proof.
  induction e as [s|l IHl r IHr|l IHl r IHr|e IH]; intros sg p Hp; cbn in *.
  - destruct Hp as [<-|[]]. now left.
  - apply in_app_iff in Hp. apply in_app_iff. destruct Hp; eauto.
  - apply in_app_iff in Hp. apply in_app_iff. destruct Hp; eauto.
  - eauto.
Qed.
Lemma sumdim_app : forall d d' b, sumdim (d ++ d') b = (sumdim d b + sumdim d' b)%Z.
Proof. induction d as [|p d IH]; intros d' b; cbn; [reflexivity|]. fold (sumdim (d ++ d') b). rewrite IH. fold (sumdim d b). lia. Qed.
Lemma sumdim_signed : forall e sg b, sg = 1%Z \/ sg = (-1)%Z -> sumdim (signed e sg) b = (sg * uexpo dimof e b)%Z.
Proof.
  induction e as [s|l IHl r IHr|l IHl r IHr|e IH]; intros sg b Hs; cbn [signed uexpo].
  - unfold sumdim. cbn [fold_right fst snd]. unfold dimof. destruct Hs as [-> | ->]; [lia|]. change (-1)%Z with (- (1))%Z. rewrite D_opp. lia.
  - rewrite sumdim_app, IHl, IHr by assumption. lia.
  - rewrite sumdim_app, IHl, IHr by (assumption || lia). lia.
  - now apply IH.
Qed.
Lemma prodfac_app : forall d d', prodfac (d ++ d') = prodfac d * prodfac d'.
Proof. induction d as [|[s sg] d IH]; intros d'; cbn; [ring|]. rewrite IH. ring. Qed.
Lemma uvalue_pos : forall e, (forall s, In s (atoms e) -> 0 < fac s) -> 0 < uvalue fac e.
Proof.
  induction e as [s|l IHl r IHr|l IHl r IHr|e IH]; intros H; cbn in *.
  - apply H. now left.
  - apply Rmult_lt_0_compat; [apply IHl|apply IHr]; intros s Hs; apply H; apply in_app_iff; auto.
  - apply Rdiv_lt_0_compat; [apply IHl|apply IHr]; intros s Hs; apply H; apply in_app_iff; auto.
  - auto.
Qed.
Lemma prodfac_signed : forall e, (forall s, In s (atoms e) -> 0 < fac s) ->
  prodfac (signed e 1) = uvalue fac e /\ prodfac (signed e (-1)) = / uvalue fac e.
Proof.
  induction e as [s|l IHl r IHr|l IHl r IHr|e IH]; intros H.
  - cbn in H |- *. specialize (H _ (or_introl eq_refl)). rewrite powh_one, powh_minus by exact H. split; ring.
  - cbn [atoms] in H. assert (Hl : forall s, In s (atoms l) -> 0 < fac s) by (intros s Hs; apply H, in_app_iff; auto).
    assert (Hr : forall s, In s (atoms r) -> 0 < fac s) by (intros s Hs; apply H, in_app_iff; auto).
    destruct (IHl Hl) as [L1 L2]. destruct (IHr Hr) as [R1 R2]. cbn [signed uvalue]. rewrite !prodfac_app, L1, L2, R1, R2. split; [reflexivity|].
    pose proof (uvalue_pos l Hl). pose proof (uvalue_pos r Hr). field. lra.
  - cbn [atoms] in H. assert (Hl : forall s, In s (atoms l) -> 0 < fac s) by (intros s Hs; apply H, in_app_iff; auto).
    assert (Hr : forall s, In s (atoms r) -> 0 < fac s) by (intros s Hs; apply H, in_app_iff; auto).
    destruct (IHl Hl) as [L1 L2]. destruct (IHr Hr) as [R1 R2]. cbn [signed uvalue]. rewrite !prodfac_app. change (- (1))%Z with (-1)%Z. change (- (-1))%Z with 1%Z.
    rewrite L1, L2, R1, R2. split; [reflexivity|]. pose proof (uvalue_pos l Hl). pose proof (uvalue_pos r Hr). field. lra.
  - cbn [signed uvalue]. apply IH. exact H.
Qed.
(** a name understood by the library converts alone to its factor *)
Lemma conv_ux : forall x e e' y, ux_ok e -> ux_ok e' -> both_temp (ux_text e) (ux_text e') = false ->
  convert x (ux_text e) (ux_text e') = UOk y -> y = x * uvalue fac e / uvalue fac e'.
Proof.
  intros x e e' y He He' Hb Hc.
  destruct (convertible_true _ _ Hb (convert_ok_convertible _ _ _ _ Hb Hc)) as (d & d' & m & E & E' & Em & Em' & V & V').
  rewrite (convert_value x _ _ d d' m) in Hc by assumption. rewrite parse_ux in E, E' by assumption. inversion E; inversion E'; subst d d'.
  assert (A : forall e0, (forall p, In p (signed e0 1) -> valid (fst p)) -> forall s, In s (atoms e0) -> 0 < fac s).
  { intros e0 V0. assert (B : forall s, In s (atoms e0) -> valid s); [|intros s Hs; now apply fac_valid, B].
    assert (C : forall e1 sg s, In s (atoms e1) -> exists z, In (s, z) (signed e1 sg)).
    { induction e1 as [t|l IHl r IHr|l IHl r IHr|e1 IH]; intros sg s Hs; cbn in *.
      - destruct Hs as [<-|[]]. eauto.
      - apply in_app_iff in Hs. destruct Hs as [Hs|Hs]; [destruct (IHl sg s Hs) as [z Hz]|destruct (IHr sg s Hs) as [z Hz]]; exists z; apply in_app_iff; auto.
      - apply in_app_iff in Hs. destruct Hs as [Hs|Hs]; [destruct (IHl sg s Hs) as [z Hz]|destruct (IHr (- sg)%Z s Hs) as [z Hz]]; exists z; apply in_app_iff; auto.
      - eauto. }
    intros s Hs. destruct (C e0 1%Z s Hs) as [z Hz]. exact (V0 (s, z) Hz). }
  destruct (prodfac_signed e (A e V)) as [P _]. destruct (prodfac_signed e' (A e' V')) as [P' _]. rewrite P, P' in Hc. congruence.
Qed.

(** *** physical dimensions *)
Definition dim_matches (s : string) : bool :=
  match dimension [(s, 1%Z)], quantity_of s quantities with
  | UOk m, Some d => sm_eqb (map (fun kv => (fst kv, 2 * snd kv)%Z) m) d
  | _, _ => false end.
Definition names : list string := flat_map snd quantities.
Lemma matches_all : forallb (fun s => mem s odd_names || dim_matches s) names = true.
Proof. vm_compute. reflexivity. Qed.
Lemma mem_in : forall s l, mem s l = true <-> In s l.
Proof.
  intros s l. unfold mem. rewrite existsb_exists. split.
  - intros (x & Hx & E). apply String.eqb_eq in E. now subst.
  - intros H. exists s. split; [exact H|apply String.eqb_refl].
Qed.
Lemma known_names : forall s, known s -> In s names.
Proof. intros s (d & ns & H1 & H2). apply in_flat_map. exists (d, ns). auto. Qed.
Lemma at0_expo : forall (m : smap Z) b, sorted m -> at0 b m = expo_in b m.
Proof.
  intros m b H. unfold at0. induction H as [|k v m Hb Hs IH]; [reflexivity|]. cbn [mfind expo_in].
  destruct (String.compare b k) eqn:E.
  - apply cmp_eq in E. subst. now rewrite String.eqb_refl.
  - destruct (String.eqb_spec k b) as [->|_]; [rewrite cmp_refl in E; discriminate|]. rewrite <- IH.
    rewrite find_below; [reflexivity|]. eapply below_trans; [exact E|exact Hb].
  - destruct (String.eqb_spec k b) as [->|_]; [rewrite cmp_refl in E; discriminate|]. exact IH.
Qed.
Lemma expo_double : forall (m : smap Z) b, expo_in b (map (fun kv => (fst kv, 2 * snd kv)%Z) m) = (2 * expo_in b m)%Z.
Proof. induction m as [|[k v] m IH]; intros b; [reflexivity|]. cbn [map expo_in fst snd]. destruct (String.eqb k b); [reflexivity|apply IH]. Qed.
Lemma known_valid : forall s, known s -> valid s.
Proof.
  intros s H. apply known_names in H. assert (Q : forallb (fun s => is_temp s || match look s derivedUnits with Some _ => true | None => false end) names = true) by (vm_compute; reflexivity).
  rewrite forallb_forall in Q. specialize (Q s H). apply orb_true_iff in Q. destruct Q as [Q|Q]; [now left|]. right. destruct (look s derivedUnits); [eauto|discriminate].
Qed.
Lemma physical_dim : forall s b, known s -> ~ In s odd_names -> physical2 s b = (2 * dimof s b)%Z.
Proof.
  intros s b Hk Ho. pose proof matches_all as M. rewrite forallb_forall in M. specialize (M s (known_names s Hk)). apply orb_true_iff in M.
  destruct M as [M|M]; [apply mem_in in M; contradiction|]. unfold dim_matches in M. unfold physical2.
  assert (V : forall p, In p [(s, 1%Z)] -> valid (fst p)) by (intros p [<-|[]]; now apply known_valid).
  destruct (dimension_spec _ V) as (m & Em & Sm & Am). rewrite Em in M. destruct (quantity_of s quantities) as [d|]; [|discriminate].
  apply sm_eqb_eq in M. rewrite <- M, expo_double, <- (at0_expo m b Sm), Am. unfold sumdim, dimof. cbn [fold_right fst snd]. lia.
Qed.
Lemma uexpo_physical : forall e b, (forall s, In s (atoms e) -> known s /\ ~ In s odd_names) -> uexpo physical2 e b = (2 * uexpo dimof e b)%Z.
Proof.
  induction e as [s|l IHl r IHr|l IHl r IHr|e IH]; intros b H; cbn [uexpo atoms] in *.
  - destruct (H (name s) (or_introl eq_refl)). now apply physical_dim.
  - rewrite IHl, IHr by (intros s Hs; apply H, in_app_iff; auto). lia.
  - rewrite IHl, IHr by (intros s Hs; apply H, in_app_iff; auto). lia.
  - auto.
Qed.
Lemma ux_dims : forall e, ux_ok e -> (forall s, In s (atoms e) -> known s) ->
  exists m, parseUnit (ux_text e) = UOk (signed e 1) /\ dimension (signed e 1) = UOk m /\ sorted m /\ (forall b, at0 b m = uexpo dimof e b) /\
    (forall b, mfind b m = if Z.eqb (at0 b m) 0 then None else Some (at0 b m)).
Proof.
  intros e He Hk. assert (V : forall p, In p (signed e 1) -> valid (fst p)) by (intros p Hp; apply known_valid, Hk; eapply signed_atoms; eassumption).
  unfold dimension. destruct (dimD_spec _ V [] so_nil) as (r & Er & Sr & Ar). exists (filter nz r). split; [now apply parse_ux|]. rewrite Er. cbn [ubind]. split; [reflexivity|].
  split; [now apply sorted_filter|]. assert (A : forall b, at0 b (filter nz r) = at0 b r).
  { intros b. unfold at0 at 1. rewrite find_filter by exact Sr. destruct (Z.eqb_spec (at0 b r) 0); lia. }
  split; intros b.
  - rewrite A, Ar. rewrite sumdim_signed by auto. change (at0 b []) with 0%Z. lia.
  - rewrite find_filter by exact Sr. now rewrite A.
Qed.
Lemma physical_iff : forall e e', ux_ok e -> ux_ok e' -> both_temp (ux_text e) (ux_text e') = false ->
  (forall s, In s (atoms e) -> known s /\ ~ In s odd_names) -> (forall s, In s (atoms e') -> known s /\ ~ In s odd_names) ->
  exists b, convertible (ux_text e) (ux_text e') = UOk b /\ (b = true <-> forall k, uexpo physical2 e k = uexpo physical2 e' k).
Proof.
  intros e e' He He' Hb K K'. destruct (ux_dims e He (fun s Hs => proj1 (K s Hs))) as (m & E & Em & Sm & Am & Fm).
  destruct (ux_dims e' He' (fun s Hs => proj1 (K' s Hs))) as (m' & E' & Em' & Sm' & Am' & Fm').
  exists (sm_eqb m m'). unfold convertible. fold (both_temp (ux_text e) (ux_text e')). rewrite Hb, E, E'. cbn [ubind]. rewrite Em, Em'. cbn [ubind]. split; [reflexivity|].
  rewrite sm_eqb_eq. split.
  - intros <- k. rewrite !uexpo_physical by assumption. now rewrite <- Am, <- Am'.
  - intros H. apply sorted_ext; [exact Sm|exact Sm'|]. intros k. rewrite Fm, Fm', Am, Am'. specialize (H k). rewrite !uexpo_physical in H by assumption.
    replace (uexpo dimof e' k) with (uexpo dimof e k) by lia. reflexivity.
Qed.

(** *** exact values of named units *)
Fixpoint qfac (n : nat) (s : string) : option Q :=
  match n with
  | O => None
  | S k =>
    if is_temp s then Some 1%Q
    else match look s derivedUnits with
    | Some (u :: us) =>
        if String.eqb (u_symbol u) s then
          if Z.eqb (u_pow2 u) 2 && (0 <? Qnum (u_factor u))%Z then Some (u_factor u) else None
        else fold_left (fun acc w => match acc, qfac k (u_symbol w) with
               | Some r, Some f => if Z.eqb (Z.rem (u_pow2 w) 2) 0 && (0 <? Qnum f)%Z then Some (Qred (r * (u_factor w * Qpower f (Z.quot (u_pow2 w) 2)))) else None
               | _, _ => None end) (u :: us) (Some 1%Q)
    | _ => None
    end
  end.
Lemma powh_Q : forall f p, (0 <? Qnum f)%Z = true -> Z.rem p 2 = 0%Z -> powh (Q2R f) p = Q2R (Qpower f (Z.quot p 2)).
Proof.
  intros f p Hf Hp. pose proof (Q2R_pos f Hf) as P. rewrite RMicromega.Q2RpowerRZ.
  - rewrite powerRZ_Rpower by exact P. unfold powh. f_equal. assert (E : p = (2 * Z.quot p 2)%Z) by (rewrite (Z.quot_rem' p 2) at 1; lia).
    rewrite E at 1. rewrite mult_IZR. lra.
  - left. intros Q. apply Z.ltb_lt in Hf. unfold Qeq in Q. cbn in Q. lia.
Qed.
Lemma Q2R_1 : Q2R 1 = 1. Proof. unfold Q2R. cbn. lra. Qed.
Lemma qfac_ok : forall n s q, qfac n s = Some q -> factorS n s = UOk (Q2R q).
Proof.
  induction n as [|n IH]; intros s q H; [discriminate|]. cbn [qfac] in H. unfold factorS; fold factorS.
  destruct (is_temp s). { inversion H; subst q. rewrite Q2R_1; reflexivity. }
  destruct (look s derivedUnits) as [[|u us]|]; try discriminate. destruct (String.eqb (u_symbol u) s).
  - destruct (Z.eqb_spec (u_pow2 u) 2) as [E|]; [|discriminate]. destruct (0 <? Qnum (u_factor u))%Z eqn:P; [|discriminate]. cbn in H. inversion H; subst q.
    rewrite E. f_equal. apply powh_one. now apply Q2R_pos.
  - assert (G : forall l r q, fold_left (fun acc w => match acc, qfac n (u_symbol w) with
               | Some r, Some f => if Z.eqb (Z.rem (u_pow2 w) 2) 0 && (0 <? Qnum f)%Z then Some (Qred (r * (u_factor w * Qpower f (Z.quot (u_pow2 w) 2)))) else None
               | _, _ => None end) l (Some r) = Some q ->
        fold_left (fun acc w => ubind acc (fun res => ubind (factorS n (u_symbol w)) (fun f => UOk (res * (Q2R (u_factor w) * powh f (u_pow2 w)))))) l (UOk (Q2R r)) = UOk (Q2R q)).
    { induction l as [|w l IHl]; intros r q' E; cbn [fold_left] in *; [inversion E; reflexivity|].
      assert (N : forall l, fold_left (fun acc w => match acc, qfac n (u_symbol w) with
               | Some r, Some f => if Z.eqb (Z.rem (u_pow2 w) 2) 0 && (0 <? Qnum f)%Z then Some (Qred (r * (u_factor w * Qpower f (Z.quot (u_pow2 w) 2)))) else None
               | _, _ => None end) l None = None) by (induction l0 as [|w0 l0 IHl0]; [reflexivity|exact IHl0]).
      destruct (qfac n (u_symbol w)) as [f|] eqn:F; [|rewrite N in E; discriminate].
      destruct (Z.eqb_spec (Z.rem (u_pow2 w) 2) 0) as [Ev|]; [|cbn in E; rewrite N in E; discriminate].
      destruct (0 <? Qnum f)%Z eqn:P; [|cbn in E; rewrite N in E; discriminate]. cbn [andb] in E.
      apply IHl in E. rewrite (IH _ _ F). cbn [ubind]. rewrite <- E. do 2 f_equal.
      rewrite (powh_Q f _ P Ev), (Qeq_eqR _ _ (Qred_correct _)), !Q2R_mult. reflexivity. }
    rewrite <- Q2R_1. now apply G.
Qed.
Lemma values_checked : forallb (fun p => match qfac fuel (fst p) with Some q => Qeq_bool q (snd p) | None => false end) exact_values = true.
Proof. vm_compute. reflexivity. Qed.
Lemma exact_fac : forall s q, In (s, q) exact_values -> fac s = Q2R q.
Proof.
  intros s q H. pose proof values_checked as C. rewrite forallb_forall in C. specialize (C _ H). cbn [fst snd] in C.
  destruct (qfac fuel s) as [r|] eqn:E; [|discriminate]. apply qfac_ok in E. unfold fac. rewrite E. apply Qeq_eqR. now apply Qeq_bool_eq.
Qed.
Definition atom (s : string) : ux := UA (list_ascii_of_string s).
Lemma atom_name : forall s, name (list_ascii_of_string s) = s. Proof. intros. apply string_of_list_ascii_of_string. Qed.
Lemma plain_names : forallb (fun p => negb (String.eqb (fst p) "") && forallb plain (list_ascii_of_string (fst p)) && negb (is_temp (fst p))) exact_values = true.
Proof. vm_compute. reflexivity. Qed.
Lemma exact_convert : forall s q s' q' x y, In (s, q) exact_values -> In (s', q') exact_values ->
  convert x (list_ascii_of_string s) (list_ascii_of_string s') = UOk y -> y = x * Q2R q / Q2R q'.
Proof.
  intros s q s' q' x y H H' E. pose proof plain_names as P. rewrite forallb_forall in P.
  assert (A : forall s q, In (s, q) exact_values -> ux_ok (atom s) /\ is_temp s = false).
  { intros t r Ht. specialize (P _ Ht). cbn [fst] in P. rewrite !andb_true_iff, !negb_true_iff in P. destruct P as [[P1 P2] P3]. split; [|exact P3].
    cbn. split; [destruct t; [discriminate|discriminate]|]. intros c Hc. rewrite forallb_forall in P2. now apply P2. }
  destruct (A s q H) as [A1 A2]. destruct (A s' q' H') as [B1 B2].
  rewrite <- (exact_fac s q H), <- (exact_fac s' q' H').
  pose proof (conv_ux x (atom s) (atom s') y A1 B1) as C. cbn [atom ux_text uvalue] in C. rewrite !atom_name in C. apply C; [|exact E].
  unfold both_temp, str. fold (name (list_ascii_of_string s)). rewrite atom_name, A2. reflexivity.
Qed.
