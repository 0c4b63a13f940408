(** Proofs about Charge.v *)
From Coq Require Import String List ZArith QArith Lia Bool.
From Verif Require Import DatabaseModel Charge.
Import ListNotations.
Local Open Scope list_scope.

Definition after {A} (parse : string -> option Q) m := fst (fst (set_charges A parse m)).
Definition warns {A} (parse : string -> option Q) m := snd (fst (set_charges A parse m)).
Definition returned {A} (parse : string -> option Q) m := snd (set_charges A parse m).

Lemma to_int_Z : forall z q, (inject_Z z == q)%Q -> to_int q = z.
Proof.
  intros z [n d] H. unfold Qeq, to_int in *. cbn in *.
  rewrite Z.mul_1_r in H. rewrite <- H. apply Z.quot_mul. lia.
Qed.

Lemma to_int_pos : forall q, (0 <= q)%Q -> (inject_Z (to_int q) <= q)%Q /\ (q < inject_Z (to_int q + 1))%Q.
Proof.
  intros [n d] H. unfold Qle, Qlt, to_int in *. cbn in *. rewrite Z.mul_1_r in H.
  rewrite Z.quot_div_nonneg by lia. pose proof (Z.div_mod n (Z.pos d)). pose proof (Z.mod_pos_bound n (Z.pos d)). nia.
Qed.
Lemma to_int_neg : forall q, (q <= 0)%Q -> (q <= inject_Z (to_int q))%Q /\ (inject_Z (to_int q - 1) < q)%Q.
Proof.
  intros [n d] H. unfold Qle, Qlt, to_int in *. cbn in *. rewrite Z.mul_1_r in H.
  replace n with (- (- n))%Z by lia. rewrite Z.quot_opp_l by lia. rewrite Z.quot_div_nonneg by lia.
  pose proof (Z.div_mod (- n) (Z.pos d)). pose proof (Z.mod_pos_bound (- n) (Z.pos d)). nia.
Qed.
Lemma to_int_spec : forall q, (forall z, (inject_Z z == q)%Q -> to_int q = z) /\
  ((0 <= q)%Q -> (inject_Z (to_int q) <= q)%Q /\ (q < inject_Z (to_int q + 1))%Q) /\
  ((q <= 0)%Q -> (q <= inject_Z (to_int q))%Q /\ (inject_Z (to_int q - 1) < q)%Q).
Proof. intros q. split; [intros z; apply to_int_Z|]. split; [apply to_int_pos|apply to_int_neg]. Qed.

Section P.
Variable A : Type.
Variable parse : string -> option Q.
Implicit Types m : smap (chsub A).

Lemma one_spec : forall (s : chsub A) q, parse (cs_formula s) = Some q ->
  exists w, charge_one A parse s = Some (setCharge s (to_int q), w) /\
  w = if Qeq_bool (inject_Z (cs_charge s)) q then [] else [(cs_symbol s, to_int q, q)].
Proof.
  intros s q H. unfold charge_one. rewrite H. destruct (Qeq_bool (inject_Z (cs_charge s)) q) eqn:E.
  - apply Qeq_bool_iff in E. apply to_int_Z in E. eexists. split; [|reflexivity].
    rewrite E. destruct s; reflexivity.
  - eexists. split; reflexivity.
Qed.

Lemma cons_ok : forall k (s : chsub A) q m, parse (cs_formula s) = Some q ->
  after parse ((k, s) :: m) = (k, setCharge s (to_int q)) :: after parse m /\
  warns parse ((k, s) :: m) = (if Qeq_bool (inject_Z (cs_charge s)) q then [] else [(cs_symbol s, to_int q, q)]) ++ warns parse m /\
  returned parse ((k, s) :: m) = returned parse m.
Proof.
  intros k s q m H. destruct (one_spec s q H) as (w & E & W). unfold after, warns, returned. cbn. rewrite E.
  destruct (set_charges A parse m) as [[r ws] b]. cbn. rewrite W. auto.
Qed.
Lemma cons_bad : forall k (s : chsub A) m, parse (cs_formula s) = None ->
  after parse ((k, s) :: m) = (k, s) :: m /\ warns parse ((k, s) :: m) = [] /\ returned parse ((k, s) :: m) = false.
Proof. intros k s m H. unfold after, warns, returned. cbn. unfold charge_one. rewrite H. auto. Qed.

Definition pointwise m r := Forall2 (fun p p' => fst p' = fst p /\ cs_symbol (snd p') = cs_symbol (snd p) /\
  cs_formula (snd p') = cs_formula (snd p) /\ cs_rest (snd p') = cs_rest (snd p) /\
  exists q, parse (cs_formula (snd p)) = Some q /\ cs_charge (snd p') = to_int q) m r.

Lemma all_set : forall m, (forall k s, In (k, s) m -> parse (cs_formula s) <> None) ->
  returned parse m = true /\ pointwise m (after parse m).
Proof.
  induction m as [|[k s] m IH]; intros H; [split; [reflexivity|constructor]|].
  destruct (parse (cs_formula s)) as [q|] eqn:E; [|exfalso; eapply H; [left; reflexivity|exact E]].
  destruct (cons_ok k s q m E) as (Ha & _ & Hr). destruct IH as [I1 I2]; [intros; eapply H; right; eassumption|].
  split; [congruence|]. rewrite Ha. constructor; [|exact I2]. cbn. repeat split; eauto.
Qed.

Lemma returned_iff : forall m, returned parse m = true <-> (forall k s, In (k, s) m -> parse (cs_formula s) <> None).
Proof.
  intros m. split; [|intros H; apply all_set, H].
  induction m as [|[k s] m IH]; intros H k' s' Hin; [destruct Hin|].
  destruct (parse (cs_formula s)) as [q|] eqn:E.
  - destruct (cons_ok k s q m E) as (_ & _ & Hr). destruct Hin as [X|X]; [inversion X; subst; congruence|].
    eapply IH; [congruence|exact X].
  - destruct (cons_bad k s m E) as (_ & _ & Hr). congruence.
Qed.

Lemma all_spec : forall m, (returned parse m = true <-> (forall k s, In (k, s) m -> parse (cs_formula s) <> None)) /\
  (returned parse m = true -> pointwise m (after parse m)).
Proof. intros m. split; [exact (returned_iff m)|]. intros H. apply all_set. now apply returned_iff. Qed.

(** an exception at one record: those before it are set, it and those after it are not *)
Lemma stops : forall m1 k (s : chsub A) m2,
  (forall k' s', In (k', s') m1 -> parse (cs_formula s') <> None) -> parse (cs_formula s) = None ->
  returned parse (m1 ++ (k, s) :: m2) = false /\
  exists r, after parse (m1 ++ (k, s) :: m2) = r ++ (k, s) :: m2 /\ pointwise m1 r.
Proof.
  induction m1 as [|[k1 s1] m1 IH]; intros k s m2 H Hn; cbn [app].
  - destruct (cons_bad k s m2 Hn) as (Ha & _ & Hr). split; [exact Hr|]. exists []. split; [exact Ha|constructor].
  - destruct (parse (cs_formula s1)) as [q|] eqn:E; [|exfalso; eapply H; [left; reflexivity|exact E]].
    destruct (cons_ok k1 s1 q (m1 ++ (k, s) :: m2) E) as (Ha & _ & Hr).
    destruct (IH k s m2) as (I1 & r & I2 & I3); [intros; eapply H; right; eassumption|exact Hn|].
    split; [congruence|]. exists ((k1, setCharge s1 (to_int q)) :: r). split; [rewrite Ha, I2; reflexivity|].
    constructor; [|exact I3]. cbn. repeat split; eauto.
Qed.

Lemma again : forall m, returned parse m = true -> after parse (after parse m) = after parse m.
Proof.
  induction m as [|[k s] m IH]; intros H; [reflexivity|].
  destruct (parse (cs_formula s)) as [q|] eqn:E.
  - destruct (cons_ok k s q m E) as (Ha & _ & Hr). rewrite Ha.
    destruct (cons_ok k (setCharge s (to_int q)) q (after parse m) E) as (Hb & _ & _). rewrite Hb, IH by congruence. reflexivity.
  - destruct (cons_bad k s m E) as (_ & _ & Hr). congruence.
Qed.

(** a second call warns exactly of the formulas with a charge that is not whole *)
Lemma again_warns : forall m, returned parse m = true ->
  forall sy c q, In (sy, c, q) (warns parse (after parse m)) <->
  (~ (inject_Z (to_int q) == q)%Q /\ c = to_int q /\
   exists k s, In (k, s) m /\ cs_symbol s = sy /\ parse (cs_formula s) = Some q).
Proof.
  induction m as [|[k s] m IH]; intros H sy c q; [cbn; split; [tauto|intros (_ & _ & ? & ? & [] & _)]|].
  destruct (parse (cs_formula s)) as [q0|] eqn:E.
  - destruct (cons_ok k s q0 m E) as (Ha & _ & Hr). rewrite Ha.
    destruct (cons_ok k (setCharge s (to_int q0)) q0 (after parse m) E) as (_ & Hb & _). rewrite Hb, in_app_iff.
    rewrite IH by congruence. cbn [cs_charge cs_symbol setCharge].
    destruct (Qeq_bool (inject_Z (to_int q0)) q0) eqn:Q.
    + apply Qeq_bool_iff in Q. split.
      * intros [[]|(N & C & k' & s' & I & S1 & S2)]. repeat split; auto. exists k', s'. repeat split; auto. right; auto.
      * intros (N & C & k' & s' & [I|I] & S1 & S2); [inversion I; subst; rewrite E in S2; inversion S2; subst; contradiction|].
        right. repeat split; auto. exists k', s'. auto.
    + apply Qeq_bool_neq in Q. split.
      * intros [[X|[]]|(N & C & k' & s' & I & S1 & S2)].
        -- inversion X; subst. repeat split; auto. exists k, s. repeat split; auto. left; auto.
        -- repeat split; auto. exists k', s'. repeat split; auto. right; auto.
      * intros (N & C & k' & s' & [I|I] & S1 & S2).
        -- inversion I; subst. rewrite E in S2. inversion S2; subst. left. left. reflexivity.
        -- right. repeat split; auto. exists k', s'. auto.
  - destruct (cons_bad k s m E) as (_ & _ & Hr). congruence.
Qed.

(** the warnings of a call: one for each record whose charge differs, and they name the new charge twice *)
Lemma warn_spec : forall m, returned parse m = true -> forall sy c q, In (sy, c, q) (warns parse m) <->
  (c = to_int q /\ exists k s, In (k, s) m /\ cs_symbol s = sy /\ parse (cs_formula s) = Some q /\ ~ (inject_Z (cs_charge s) == q)%Q).
Proof.
  induction m as [|[k s] m IH]; intros H sy c q; [cbn; split; [tauto|intros (_ & ? & ? & [] & _)]|].
  destruct (parse (cs_formula s)) as [q0|] eqn:E.
  - destruct (cons_ok k s q0 m E) as (_ & Hb & Hr). rewrite Hb, in_app_iff. rewrite IH by congruence.
    destruct (Qeq_bool (inject_Z (cs_charge s)) q0) eqn:Q.
    + apply Qeq_bool_iff in Q. split.
      * intros [[]|(C & k' & s' & I & R)]. split; auto. exists k', s'. split; [right|]; auto.
      * intros (C & k' & s' & [I|I] & S1 & S2 & N); [inversion I; subst; rewrite E in S2; inversion S2; subst; contradiction|].
        right. split; auto. exists k', s'. auto.
    + apply Qeq_bool_neq in Q. split.
      * intros [[X|[]]|(C & k' & s' & I & R)].
        -- inversion X; subst. split; auto. exists k, s. repeat split; auto. left; auto.
        -- split; auto. exists k', s'. split; [right|]; auto.
      * intros (C & k' & s' & [I|I] & S1 & S2 & N).
        -- inversion I; subst. rewrite E in S2. inversion S2; subst. left. left. reflexivity.
        -- right. split; auto. exists k', s'. auto.
  - destruct (cons_bad k s m E) as (_ & _ & Hr). congruence.
Qed.

(** with a whole charge the charge named as that of the record is never the one the record had *)
Lemma warn_wrong : forall m, returned parse m = true -> forall sy c z, In (sy, c, inject_Z z) (warns parse m) ->
  c = z /\ exists k s, In (k, s) m /\ cs_symbol s = sy /\ cs_charge s <> c.
Proof.
  intros m H sy c z I. apply (warn_spec m H) in I. destruct I as (C & k & s & I1 & I2 & I3 & I4).
  assert (to_int (inject_Z z) = z) by (apply to_int_Z, Qeq_refl). split; [congruence|].
  exists k, s. repeat split; auto. intro X. apply I4. rewrite X, C, H0. apply Qeq_refl.
Qed.
End P.

Open Scope string_scope.
Definition ex_parse (f : string) : option Q :=
  if String.eqb f "Ca+2" then Some (2 # 1)%Q else if String.eqb f "Cl-" then Some (-1 # 1)%Q
  else if String.eqb f "X+1.5" then Some (3 # 2)%Q else None.
Definition ex_m : smap (chsub Z) := [("Ca+2", mkCS "Ca+2" "Ca+2" 0 7); ("Cl-", mkCS "Cl-" "Cl-" (-1) 8)]%Z.
Definition ex_bad : smap (chsub Z) := [("Ca+2", mkCS "Ca+2" "Ca+2" 0 7); ("Q", mkCS "Q" "??" 3 9); ("Cl-", mkCS "Cl-" "Cl-" 5 8)]%Z.
Definition ex_half : smap (chsub Z) := [("X", mkCS "X" "X+1.5" 0 7)]%Z.
