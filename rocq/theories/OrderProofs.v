(** Lemmas about the comparison operators. *)
From Coq Require Import String Bool ZArith Lia.
From Verif Require Import DatabaseModel DatabaseProofs OrderModel.

(** what std::map and std::set require *)
Definition strict_weak {A} (lt : A -> A -> bool) : Prop :=
  (forall a, lt a a = false) /\
  (forall a b, lt a b = true -> lt b a = false) /\
  (forall a b c, lt a b = true -> lt b c = true -> lt a c = true) /\
  (forall a b c, lt a b = false -> lt b a = false -> lt b c = false -> lt c b = false -> lt a c = false /\ lt c a = false).

Lemma sltb_spec : forall a b, sltb a b = true <-> slt a b.
Proof. intros a b. unfold sltb, slt. destruct (String.compare a b); split; congruence. Qed.
Lemma sltb_tri : forall a b, (sltb a b = true /\ a <> b /\ sltb b a = false) \/ (a = b /\ sltb a b = false /\ sltb b a = false) \/
  (sltb b a = true /\ a <> b /\ sltb a b = false).
Proof.
  intros a b. unfold sltb. rewrite (cmp_anti a b). destruct (String.compare a b) eqn:E; cbn.
  - right; left. apply cmp_eq in E. auto.
  - left. repeat split. intros ->. rewrite cmp_refl in E. discriminate.
  - right; right. repeat split. intros ->. rewrite cmp_refl in E. discriminate.
Qed.
Lemma sltb_trans : forall a b c, sltb a b = true -> sltb b c = true -> sltb a c = true.
Proof. intros a b c. rewrite !sltb_spec. apply slt_trans. Qed.

(** lexicographic order in two fields *)
Definition trich {A} (lt : A -> A -> bool) : Prop :=
  (forall a b, (lt a b = true /\ a <> b /\ lt b a = false) \/ (a = b /\ lt a b = false /\ lt b a = false) \/
               (lt b a = true /\ a <> b /\ lt a b = false)) /\
  (forall a b c, lt a b = true -> lt b c = true -> lt a c = true).
Lemma trich_strict : forall A (lt : A -> A -> bool), trich lt -> strict_weak lt.
Proof.
  intros A lt [H1 H2]. split; [|split; [|split]].
  - intros a. destruct (H1 a a) as [(_ & Hn & _)|[(_ & E & _)|(_ & Hn & _)]]; try congruence.
  - intros a b Hab. destruct (H1 a b) as [(_ & _ & E)|[(_ & E & _)|(_ & _ & E)]]; congruence.
  - exact H2.
  - intros a b c h1 h2 h3 h4.
    destruct (H1 a b) as [(E & _)|[(-> & _)|(E & _)]]; try congruence.
    destruct (H1 b c) as [(E & _)|[(-> & _)|(E & _)]]; try congruence. auto.
Qed.
Lemma sltb_trich : trich sltb.
Proof. split; [apply sltb_tri|apply sltb_trans]. Qed.
Lemma Zltb_trich : trich Z.ltb.
Proof.
  split.
  - intros a b. destruct (Z.ltb_spec a b); destruct (Z.ltb_spec b a); destruct (Z.eq_dec a b); try lia; auto.
  - intros a b c. rewrite !Z.ltb_lt. lia.
Qed.
Definition lex {A B} (la : A -> A -> bool) (ea : A -> A -> bool) (lb : B -> B -> bool) (p q : A * B) : bool :=
  if la (fst p) (fst q) then true else if ea (fst p) (fst q) then lb (snd p) (snd q) else false.
Lemma lex_trich : forall A B (la : A -> A -> bool) ea (lb : B -> B -> bool),
  (forall x y, ea x y = true <-> x = y) -> trich la -> trich lb -> trich (lex la ea lb).
Proof.
  intros A B la ea lb He [A1 A2] [B1 B2]. split.
  - intros [a b] [c d]. unfold lex; cbn.
    assert (Es : ea c a = ea a c).
    { assert (He1 := He a c). assert (He2 := He c a). destruct (ea a c), (ea c a); try reflexivity; exfalso.
      - destruct He1 as [He1 _], He2 as [_ He2]. specialize (He2 (eq_sym (He1 eq_refl))). discriminate.
      - destruct He2 as [He2 _], He1 as [_ He1]. specialize (He1 (eq_sym (He2 eq_refl))). discriminate. }
    rewrite Es.
    destruct (A1 a c) as [(E & Hn & E')|[(-> & E & E')|(E & Hn & E')]]; rewrite ?E, ?E'.
    + left. destruct (ea a c) eqn:Q; [apply He in Q; contradiction|]. repeat split; congruence.
    + assert (Q : ea c c = true) by now apply He. rewrite Q.
      destruct (B1 b d) as [(F & Gn & F')|[(-> & F & F')|(F & Gn & F')]]; rewrite ?F, ?F'; [left|right; left|right; right]; repeat split; congruence.
    + right; right. destruct (ea a c) eqn:Q; [apply He in Q; contradiction|]. repeat split; congruence.
  - intros [a b] [c d] [e f]. unfold lex; cbn.
    destruct (la a c) eqn:L1.
    + intros _. destruct (la c e) eqn:L2.
      * now rewrite (A2 _ _ _ L1 L2).
      * destruct (ea c e) eqn:Q; [|discriminate]. apply He in Q. subst. now rewrite L1.
    + destruct (ea a c) eqn:Q; [|discriminate]. apply He in Q. subst c. intros L.
      destruct (la a e) eqn:L2; [reflexivity|]. destruct (ea a e) eqn:Q2; [|discriminate]. intros L'. eapply B2; eassumption.
Qed.
Lemma strict_inv : forall A B (g : A -> B) (lt : B -> B -> bool) (lt' : A -> A -> bool),
  (forall a b, lt' a b = lt (g a) (g b)) -> strict_weak lt -> strict_weak lt'.
Proof.
  intros A B g lt lt' He (H1 & H2 & H3 & H4). split; [|split; [|split]].
  - intros a. rewrite He. apply H1.
  - intros a b. rewrite !He. apply H2.
  - intros a b c. rewrite !He. apply H3.
  - intros a b c. rewrite !He. apply H4.
Qed.
Lemma seqb : forall x y, String.eqb x y = true <-> x = y. Proof. apply String.eqb_eq. Qed.
Lemma sub_trich : trich (lex sltb String.eqb sltb).
Proof. apply lex_trich; [apply String.eqb_eq|apply sltb_trich|apply sltb_trich]. Qed.
Definition subkey (s : SubK) := (sk_symbol s, sk_name s).
Lemma sub_lt_lex : forall a b, sub_lt a b = lex sltb String.eqb sltb (subkey a) (subkey b).
Proof. reflexivity. Qed.
Lemma substance_order : strict_weak sub_lt /\ (forall a b, sub_gt a b = sub_lt b a) /\
  (forall a b, sub_eq a b = true <-> sub_lt a b = false /\ sub_lt b a = false).
Proof.
  split; [|split].
  - eapply strict_inv with (g := subkey); [apply sub_lt_lex|]. apply trich_strict, sub_trich.
  - intros a b. unfold sub_gt, sub_lt. now rewrite (String.eqb_sym (sk_symbol a)).
  - intros a b. rewrite !sub_lt_lex. destruct sub_trich as [T _]. unfold sub_eq. rewrite andb_true_iff, !seqb.
    destruct (T (subkey a) (subkey b)) as [(E & Hn & E')|[(Q & E & E')|(E & Hn & E')]]; unfold subkey in *; rewrite E, E'.
    + split; [intros [H1 H2]; exfalso; apply Hn; congruence|intros [H1 H2]; discriminate].
    + split; [auto|intros _; split; congruence].
    + split; [intros [H1 H2]; exfalso; apply Hn; congruence|intros [H1 H2]; discriminate].
Qed.
(** elements with one valence each are ordered *)
Definition elkey (e : Elem) := (el_symbol e, (el_name e, (el_class e, el_iso e))).
Definition lex4 := lex sltb String.eqb (lex (A := string) sltb String.eqb (lex (A := Z) (B := Z) Z.ltb Z.eqb Z.ltb)).
Lemma lex4_trich : trich lex4.
Proof.
  unfold lex4. repeat (apply lex_trich; [first [apply String.eqb_eq|apply Z.eqb_eq]|first [apply sltb_trich|apply Zltb_trich]|]).
  apply Zltb_trich.
Qed.
Lemma elem_lt_lex : forall a b, el_valence a = el_valence b -> elem_lt a b = lex4 (elkey a) (elkey b).
Proof.
  intros a b Hv. unfold elem_lt, lex4, lex, elkey; cbn. rewrite Hv, Z.ltb_irrefl.
  repeat match goal with |- context [if ?c then _ else _] => destruct c end; reflexivity.
Qed.
Lemma element_order_one_valence : forall v,
  strict_weak (fun a b : {e | el_valence e = v} => elem_lt (proj1_sig a) (proj1_sig b)) /\
  (forall a b, el_valence a = v -> el_valence b = v -> (elem_eq a b = true <-> elem_lt a b = false /\ elem_lt b a = false)) /\
  (forall a b, elem_gt a b = elem_lt b a).
Proof.
  intros v. split; [|split].
  - eapply strict_inv with (g := fun a => elkey (proj1_sig a)) (lt := lex4).
    + intros [a Ha] [b Hb]; cbn. apply elem_lt_lex. congruence.
    + apply trich_strict, lex4_trich.
  - intros a b Ha Hb. rewrite !elem_lt_lex by congruence. destruct lex4_trich as [T _].
    unfold elem_eq. rewrite !andb_true_iff, !seqb, !Z.eqb_eq.
    destruct (T (elkey a) (elkey b)) as [(E & Hn & E')|[(Q & E & E')|(E & Hn & E')]]; unfold elkey in *; rewrite E, E'.
    + split; [intros [[[H1 H2] H3] H4]; exfalso; apply Hn; congruence|intros [H1 H2]; discriminate].
    + split; [auto|]. intros _. inversion Q. auto.
    + split; [intros [[[H1 H2] H3] H4]; exfalso; apply Hn; congruence|intros [H1 H2]; discriminate].
  - intros a b. unfold elem_gt, elem_lt. rewrite (String.eqb_sym (el_symbol a)), (String.eqb_sym (el_name a)), (Z.eqb_sym (el_class a)).
    reflexivity.
Qed.
(** exactly when both of two elements are below the other *)
Lemma element_both_below : forall a b,
  (elem_lt a b = true /\ elem_lt b a = true) <->
  (el_symbol a = el_symbol b /\ el_name a = el_name b /\ el_class a = el_class b /\
   (((el_iso a < el_iso b)%Z /\ (el_valence b < el_valence a)%Z) \/ ((el_iso b < el_iso a)%Z /\ (el_valence a < el_valence b)%Z))).
Proof.
  intros a b. unfold elem_lt.
  rewrite (String.eqb_sym (el_symbol b)), (String.eqb_sym (el_name b)), (Z.eqb_sym (el_class b)).
  destruct (sltb_tri (el_symbol a) (el_symbol b)) as [(E & Hn & E')|[(Q & E & E')|(E & Hn & E')]]; rewrite E, E'.
  1,3: apply String.eqb_neq in Hn; rewrite Hn; apply String.eqb_neq in Hn; split; intros; intuition congruence.
  rewrite Q, String.eqb_refl.
  destruct (sltb_tri (el_name a) (el_name b)) as [(F & Hn & F')|[(Q2 & F & F')|(F & Hn & F')]]; rewrite F, F'.
  1,3: apply String.eqb_neq in Hn; rewrite Hn; apply String.eqb_neq in Hn; split; intros; intuition congruence.
  rewrite Q2, String.eqb_refl.
  destruct (Z.ltb_spec (el_class a) (el_class b)); destruct (Z.ltb_spec (el_class b) (el_class a)); destruct (Z.eqb_spec (el_class a) (el_class b)); try lia;
    try (split; [intros; intuition congruence|intros (_ & _ & ? & _); lia]).
  destruct (Z.ltb_spec (el_iso a) (el_iso b)); destruct (Z.ltb_spec (el_iso b) (el_iso a)); try lia;
    rewrite ?Z.ltb_lt; split; intros; intuition (try congruence; try lia).
Qed.
Lemma element_eq_yet_below : forall a, elem_eq a (mkElem (el_symbol a) (el_name a) (el_class a) (el_iso a) (el_valence a + 1)) = true /\
  elem_lt a (mkElem (el_symbol a) (el_name a) (el_class a) (el_iso a) (el_valence a + 1)) = true.
Proof.
  intros a. unfold elem_eq, elem_lt; cbn. rewrite !String.eqb_refl, !Z.eqb_refl. split; [reflexivity|].
  destruct (sltb (el_symbol a) (el_symbol a)); [reflexivity|]. destruct (sltb (el_name a) (el_name a)); [reflexivity|].
  destruct (Z.ltb (el_class a) (el_class a)); [reflexivity|]. destruct (Z.ltb (el_iso a) (el_iso a)); [reflexivity|].
  apply Z.ltb_lt. lia.
Qed.
Definition exH1 : Elem := mkElem "H" "H" 0 1 1.
Definition exH2 : Elem := mkElem "H" "H" 0 2 0.
Lemma element_not_order : ~ strict_weak elem_lt.
Proof.
  intros (_ & H2 & _). specialize (H2 exH1 exH2 eq_refl). discriminate.
Qed.
