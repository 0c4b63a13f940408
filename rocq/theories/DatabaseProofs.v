(** Lemmas about the database model. *)
From Coq Require Import String List Bool Arith NArith Lia Sorted Permutation OrderedTypeEx.
From Verif Require Import DatabaseModel DatabaseSpec.
Import ListNotations.
Open Scope string_scope.

(** *** string order *)
Definition slt (a b : string) : Prop := String.compare a b = Lt.
Lemma cmp_eq : forall a b, String.compare a b = Eq -> a = b.
Proof. intros a b. apply String.compare_eq_iff. Qed.
Lemma cmp_refl : forall a, String.compare a a = Eq.
Proof.
  induction a as [|x a IH]; [reflexivity|]. cbn. unfold Ascii.compare. now rewrite N.compare_refl.
Qed.
Lemma cmp_anti : forall a b, String.compare b a = CompOpp (String.compare a b).
Proof. intros a b. apply String.compare_antisym. Qed.
Lemma slt_trans : forall a b c, slt a b -> slt b c -> slt a c.
Proof.
  unfold slt. induction a as [|x a IH]; intros [|y b] [|z c]; cbn; try congruence.
  intros H1 H2. destruct (Ascii.compare x y) eqn:E1; try discriminate.
  - apply Ascii.compare_eq_iff in E1. subst y. destruct (Ascii.compare x z) eqn:E2; try discriminate; [|reflexivity].
    eapply IH; eassumption.
  - destruct (Ascii.compare y z) eqn:E2; try discriminate.
    + apply Ascii.compare_eq_iff in E2. subst z. now rewrite E1.
    + unfold Ascii.compare in *. rewrite N.compare_lt_iff in *.
      replace (N.compare _ _) with Lt; [reflexivity|]. symmetry. apply N.compare_lt_iff. lia.
Qed.
Lemma slt_irrefl : forall a, ~ slt a a.
Proof. intros a. unfold slt. now rewrite cmp_refl. Qed.

Definition below {V} (k : string) (m : smap V) : Prop := Forall (fun p => slt k (fst p)) m.
Inductive sorted {V} : smap V -> Prop :=
| so_nil : sorted []
| so_cons : forall k v m, below k m -> sorted m -> sorted ((k, v) :: m).

Lemma below_trans : forall V k k' (m : smap V), slt k k' -> below k' m -> below k m.
Proof. intros V k k' m Hk. apply Forall_impl. intros p. now apply slt_trans. Qed.
Lemma below_set : forall V k k' (v : V) m, slt k k' -> below k m -> below k (mset k' v m).
Proof.
  intros V k k' v m Hk Hb. induction Hb as [|[a b] m Ha Hb IH]; cbn; [constructor; [exact Hk|constructor]|].
  destruct (String.compare k' a) eqn:E; constructor; cbn; auto; constructor; auto.
Qed.
Lemma sorted_set : forall V k (v : V) m, sorted m -> sorted (mset k v m).
Proof.
  intros V k v m Hs. induction Hs as [|a b m Hb Hs IH]; cbn; [repeat constructor|].
  destruct (String.compare k a) eqn:E.
  - apply cmp_eq in E. subst. now constructor.
  - constructor; [|now constructor]. constructor; [exact E|]. eapply below_trans; eassumption.
  - constructor; [|exact IH]. apply below_set; [|exact Hb]. unfold slt. rewrite cmp_anti, E. reflexivity.
Qed.
Lemma find_below : forall V k (m : smap V), below k m -> mfind k m = None.
Proof. intros V k [|[a b] m] Hb; [reflexivity|]. inversion Hb; subst. cbn in *. unfold slt in *. now rewrite H1. Qed.
Lemma find_set : forall V k (v : V) m x, sorted m -> mfind x (mset k v m) = aset k v (fun y => mfind y m) x.
Proof.
  intros V k v m x Hs. unfold aset. induction Hs as [|a b m Hb Hs IH]; cbn.
  - destruct (String.compare x k) eqn:E; destruct (String.eqb_spec x k); subst; try reflexivity.
    + apply cmp_eq in E. contradiction.
    + rewrite cmp_refl in E. discriminate.
    + rewrite cmp_refl in E. discriminate.
  - destruct (String.compare k a) eqn:E; cbn.
    + apply cmp_eq in E. subst a. destruct (String.compare x k) eqn:E2; destruct (String.eqb_spec x k); subst; try reflexivity;
        try (rewrite cmp_refl in E2; discriminate). apply cmp_eq in E2. contradiction.
    + destruct (String.compare x k) eqn:E2; destruct (String.eqb_spec x k); subst; try reflexivity;
        try (rewrite cmp_refl in E2; discriminate).
      * apply cmp_eq in E2. contradiction.
      * assert (L : slt x a) by (eapply slt_trans; eassumption). unfold slt in L. now rewrite L.
    + destruct (String.compare x a) eqn:E2; destruct (String.eqb_spec x k); subst; try reflexivity.
      * apply cmp_eq in E2. subst. rewrite cmp_refl in E. discriminate.
      * rewrite E in E2. discriminate.
      * exact IH.
      * exact IH.
Qed.
Lemma sorted_insert : forall V k (v : V) m, sorted m -> sorted (minsert k v m).
Proof. intros V k v m Hs. unfold minsert. destruct (mfind k m); [exact Hs|now apply sorted_set]. Qed.
Lemma find_insert : forall V k (v : V) m x, sorted m -> mfind x (minsert k v m) = aadd k v (fun y => mfind y m) x.
Proof. intros V k v m x Hs. unfold minsert, aadd. destruct (mfind k m) eqn:E; [reflexivity|now apply find_set]. Qed.
Lemma sorted_build : forall V (l : list (string * V)), sorted (mbuild l).
Proof. intros V l. induction l as [|[k v] l IH]; cbn; [constructor|now apply sorted_set]. Qed.
Lemma find_build : forall V (l : list (string * V)) x, mfind x (mbuild l) = afirst l x.
Proof.
  intros V l. induction l as [|[k v] l IH]; intros x; cbn; [reflexivity|].
  rewrite find_set by apply sorted_build. unfold aset. destruct (String.eqb x k); [reflexivity|apply IH].
Qed.
Lemma find_in : forall V (m : smap V) k v, sorted m -> (mfind k m = Some v <-> In (k, v) m).
Proof.
  intros V m k v Hs. induction Hs as [|a b m Hb Hs IH]; cbn; [split; [discriminate|contradiction]|].
  destruct (String.compare k a) eqn:E.
  - apply cmp_eq in E. subst a. split; [intros Hv; left; congruence|].
    intros [Hv|Hv]; [congruence|]. exfalso. unfold below in Hb. rewrite Forall_forall in Hb.
    apply Hb in Hv. apply (slt_irrefl _ Hv).
  - split; [discriminate|]. intros [Hv|Hv].
    + inversion Hv; subst. rewrite cmp_refl in E. discriminate.
    + exfalso. unfold below in Hb. rewrite Forall_forall in Hb. apply Hb in Hv. cbn in Hv.
      apply (slt_irrefl k). eapply slt_trans; eassumption.
  - rewrite IH. split; [tauto|]. intros [Hv|Hv]; [|exact Hv].
    inversion Hv; subst. rewrite cmp_refl in E. discriminate.
Qed.
(** a sorted map is determined by what it finds *)
Lemma sorted_ext : forall V (m m' : smap V), sorted m -> sorted m' -> (forall k, mfind k m = mfind k m') -> m = m'.
Proof.
  intros V m m' Hs. revert m'. induction Hs as [|a b m Hb Hs IH]; intros m' Hs' Hf.
  - inversion Hs' as [|k v n Hn Hs2]; [reflexivity|]. subst. specialize (Hf k). cbn in Hf. rewrite cmp_refl in Hf. discriminate.
  - inversion Hs' as [|k v n Hn Hs2]; subst.
    + specialize (Hf a). cbn in Hf. rewrite cmp_refl in Hf. discriminate.
    + assert (a = k).
      { destruct (String.compare a k) eqn:E; [now apply cmp_eq| |].
        - specialize (Hf a). cbn in Hf. rewrite cmp_refl, E in Hf. discriminate.
        - specialize (Hf k). cbn in Hf. rewrite cmp_refl in Hf. rewrite (cmp_anti a k), E in Hf. discriminate. }
      subst k. assert (b = v) by (specialize (Hf a); cbn in Hf; rewrite !cmp_refl in Hf; congruence). subst v.
      f_equal. apply IH; [exact Hs2|]. intros x. specialize (Hf x). cbn in Hf.
      destruct (String.compare x a) eqn:E; [|
        rewrite !find_below; [reflexivity| |]; eapply below_trans; eassumption|exact Hf].
      apply cmp_eq in E. subst x. now rewrite !find_below by assumption.
Qed.
Lemma sorted_slt : forall V (m : smap V), sorted m -> StronglySorted slt (map fst m).
Proof.
  intros V m Hs. induction Hs as [|a b m Hb Hs IH]; cbn; constructor; [exact IH|].
  apply Forall_map. exact Hb.
Qed.
Lemma sorted_nodup : forall V (m : smap V), sorted m -> NoDup (map fst m).
Proof.
  intros V m Hs. induction Hs as [|a b m Hb Hs IH]; cbn; constructor; [|exact IH].
  intros Hi. apply in_map_iff in Hi. destruct Hi as ([k v] & Hk & Hi). cbn in Hk. subst k.
  unfold below in Hb. rewrite Forall_forall in Hb. apply Hb in Hi. apply (slt_irrefl _ Hi).
Qed.

Section Db.
Variables E S R D J : Type.
Variable symE : E -> string.
Variable symS : S -> string.
Variable symR : R -> string.
Variable blankE : D -> string -> E.
Variable blankS : string -> S.
Variable blankR : string -> R.
Variable toKey : E -> E.
Variable addDB : E -> D -> D.
Variable parseE : J -> outc E.
Variable parseS : J -> outc S.
Variable parseR : J -> outc R.
Variable labelOf : J -> outc (option string).
Variable propsOf : J -> J.
Variable jparse : string -> option J.
Notation db := (db E S R D).
Notation el := (d_el E S R D).
Notation su := (d_su E S R D).
Notation re := (d_re E S R D).
Notation al := (d_all E S R D).
Notation addRec := (addRecord E S R D J symE symS symR parseE parseS parseR labelOf propsOf).
Notation addRecs := (addRecords E S R D J symE symS symR parseE parseS parseR labelOf propsOf).
Notation loadS := (loadStrings E S R D J symE symS symR parseE parseS parseR labelOf propsOf jparse).
Notation append := (appendData E S R D J symE symS symR addDB parseE parseS parseR labelOf propsOf jparse).
Notation appendF := (appendFile E S R D J symE symS symR addDB parseE parseS parseR labelOf propsOf).
Notation dec := (decode E S R J parseE parseS parseR labelOf propsOf).
Notation decT := (decodeText E S R J parseE parseS parseR labelOf propsOf jparse).
Notation step := (dbstep E S R D J symE symS symR blankE blankS blankR toKey addDB parseE parseS parseR labelOf propsOf jparse).
Notation run := (dbrun E S R D J symE symS symR blankE blankS blankR toKey addDB parseE parseS parseR labelOf propsOf jparse).
Notation aS := (aopS E S R J symS blankS parseE parseS parseR labelOf propsOf jparse).
Notation aR := (aopR E S R J symR blankR parseE parseS parseR labelOf propsOf jparse).
Notation aE := (aopE E S R J symE parseE parseS parseR labelOf propsOf jparse toKey).

Definition wf (d : db) : Prop := sorted (el d) /\ sorted (su d) /\ sorted (re d).
(** entering one decoded record *)
Definition put (d : db) (i : item E S R) : db :=
  match i with
  | IE e => with_el E S R D d (mset (symE e) e (el d))
  | IS s => with_su E S R D d (mset (symS s) s (su d))
  | IR r => with_re E S R D d (mset (symR r) r (re d))
  end.
Definition puts (d : db) (l : list (item E S R)) : db := fold_left put l d.

Lemma addRecord_dec : forall j lb d,
  addRec j lb d = match dec lb j with Ok i => (put d i, Ok tt) | JsonEx => (d, JsonEx) | OtherEx => (d, OtherEx) end.
Proof.
  intros j lb d. unfold addRecord, decode, decodeAs, omap.
  destruct (labelOf j) as [[x|]| |]; try reflexivity;
    repeat match goal with |- context [if String.eqb ?a ?b then _ else _] => destruct (String.eqb a b) end;
    try reflexivity; repeat match goal with |- context [match ?p with Ok _ => _ | _ => _ end] => destruct p end; reflexivity.
Qed.
Lemma loadStrings_dec : forall l lb d,
  loadS l lb d = (puts d (goodPrefix (decT lb) l), firstFailure (decT lb) l).
Proof.
  intros l lb. induction l as [|s l IH]; intros d; cbn [loadStrings goodPrefix firstFailure]; [reflexivity|].
  unfold decodeText at 1 3. destruct (jparse s) as [j|]; [|reflexivity]. rewrite addRecord_dec.
  destruct (dec lb j); [|reflexivity|reflexivity]. rewrite IH. reflexivity.
Qed.
Lemma addRecords_dec : forall l lb d,
  addRecs l lb d = (puts d (goodPrefix (dec lb) l), firstFailure (dec lb) l).
Proof.
  intros l lb. induction l as [|s l IH]; intros d; cbn [addRecords goodPrefix firstFailure]; [reflexivity|].
  rewrite addRecord_dec. destruct (dec lb s); [|reflexivity|reflexivity]. rewrite IH. reflexivity.
Qed.
(** the two list loaders: loaded prefix and end *)
Definition swal (o : outc unit) : outc unit := match o with OtherEx => OtherEx | _ => Ok tt end.
Lemma fromJSONs_dec : forall l lb d,
  fromJSONs E S R D J symE symS symR parseE parseS parseR labelOf propsOf jparse l lb d =
  (puts d (goodPrefix (decT lb) l), swal (firstFailure (decT lb) l)).
Proof.
  intros l lb d. unfold fromJSONs. destruct l as [|s l]; [reflexivity|].
  assert (L : match jparse s with None => (d, JsonEx) | Some _ => loadS (s :: l) lb d end = loadS (s :: l) lb d).
  { destruct (jparse s) eqn:Ej; [reflexivity|]. cbn [loadStrings]. now rewrite Ej. }
  rewrite L, loadStrings_dec. unfold swallow, swal. destruct (firstFailure _ _) as [[]| |]; reflexivity.
Qed.
Lemma goodPrefix_app : forall A B (f : A -> outc B) l l',
  goodPrefix f (l ++ l')%list = match firstFailure f l with Ok _ => (goodPrefix f l ++ goodPrefix f l')%list | _ => goodPrefix f l end.
Proof.
  intros A B f l l'. induction l as [|a l IH]; cbn; [reflexivity|].
  destruct (f a); cbn; [|reflexivity|reflexivity]. rewrite IH. destruct (firstFailure f l); reflexivity.
Qed.
Lemma firstFailure_app : forall A B (f : A -> outc B) l l',
  firstFailure f (l ++ l')%list = match firstFailure f l with Ok _ => firstFailure f l' | r => r end.
Proof.
  intros A B f l l'. induction l as [|a l IH]; cbn; [reflexivity|]. destruct (f a); [exact IH|reflexivity|reflexivity].
Qed.
Lemma prefix_map : forall A B C (f : B -> outc C) (g : A -> B) l, goodPrefix f (map g l) = goodPrefix (fun x => f (g x)) l.
Proof. intros. induction l as [|a l IH]; cbn; [reflexivity|]. destruct (f (g a)); [now rewrite IH|reflexivity|reflexivity]. Qed.
Lemma failure_map : forall A B C (f : B -> outc C) (g : A -> B) l, firstFailure f (map g l) = firstFailure (fun x => f (g x)) l.
Proof. intros. induction l as [|a l IH]; cbn; [reflexivity|]. destruct (f (g a)); [now rewrite IH|reflexivity|reflexivity]. Qed.
Lemma puts_app : forall l l' d, puts d (l ++ l')%list = puts (puts d l) l'.
Proof. intros. unfold puts. apply fold_left_app. Qed.
Notation decP := (fun x : string * J => dec (fst x) (snd x)).
Lemma section_dec : forall x lb d,
  section_ E S R D J symE symS symR parseE parseS parseR labelOf propsOf x lb d =
  let l := match x with Some js => map (fun j => (lb, j)) js | None => [] end in
  (puts d (goodPrefix decP l), firstFailure decP l).
Proof.
  intros [js|] lb d; [|reflexivity]. unfold section_. rewrite addRecords_dec. cbn zeta.
  rewrite prefix_map, failure_map. reflexivity.
Qed.
Lemma andThen_dec : forall l d f l',
  (forall d', f d' = (puts d' (goodPrefix decP l'), firstFailure decP l')) ->
  andThen E S R D (puts d (goodPrefix decP l), firstFailure decP l) f =
  (puts d (goodPrefix decP (l ++ l')), firstFailure decP (l ++ l')).
Proof.
  intros l d f l' Hf. unfold andThen. rewrite goodPrefix_app, firstFailure_app.
  destruct (firstFailure decP l); [rewrite Hf, puts_app; reflexivity|reflexivity|reflexivity].
Qed.
Lemma fromDoc_dec : forall k d,
  fromDoc E S R D J symE symS symR parseE parseS parseR labelOf propsOf k d =
  (puts d (goodPrefix decP (docRecords J k)), swal (firstFailure decP (docRecords J k))).
Proof.
  intros k d. unfold fromDoc. rewrite section_dec.
  assert (Q : andThen E S R D
     (let l := match k_elements J k with Some js => map (fun j => ("element", j)) js | None => [] end in
      (puts d (goodPrefix decP l), firstFailure decP l)) (fun d1 =>
     andThen E S R D (section_ E S R D J symE symS symR parseE parseS parseR labelOf propsOf (k_substances J k) "substance" d1) (fun d2 =>
     andThen E S R D (section_ E S R D J symE symS symR parseE parseS parseR labelOf propsOf (k_reactions J k) "reaction" d2) (fun d3 =>
     section_ E S R D J symE symS symR parseE parseS parseR labelOf propsOf (k_array J k) "unknown label" d3)))
     = (puts d (goodPrefix decP (docRecords J k)), firstFailure decP (docRecords J k))).
  { cbn zeta. unfold docRecords. apply andThen_dec. intros d1. rewrite section_dec. cbn zeta.
    apply andThen_dec. intros d2. rewrite section_dec. cbn zeta.
    apply andThen_dec. intros d3. rewrite section_dec. reflexivity. }
  rewrite Q. unfold swallow, swal. destruct (firstFailure _ _) as [[]| |]; reflexivity.
Qed.

(** the maps after putting a list of records *)
Lemma put_wf : forall d i, wf d -> wf (put d i).
Proof. intros d [e|s|r] (H1 & H2 & H3); unfold wf; cbn; auto using sorted_set. Qed.
Lemma puts_wf : forall l d, wf d -> wf (puts d l).
Proof. induction l as [|i l IH]; intros d Hw; [exact Hw|]. apply (IH (put d i)), put_wf, Hw. Qed.
Lemma aload_ext : forall V (sym : V -> string) l m m', (forall k, m k = m' k) -> forall k, aload sym l m k = aload sym l m' k.
Proof.
  intros V sym l. induction l as [|v l IH]; intros m m' Hm k; cbn; [apply Hm|].
  apply IH. intros x. unfold aset. destruct (String.eqb x (sym v)); [reflexivity|apply Hm].
Qed.
Lemma puts_S : forall l d k, wf d -> mfind k (su (puts d l)) = aload symS (subs E S R l) (fun x => mfind x (su d)) k.
Proof.
  induction l as [|i l IH]; intros d k Hw; [reflexivity|].
  change (puts d (i :: l)) with (puts (put d i) l). rewrite IH by now apply put_wf.
  destruct i as [e|s|r]; cbn; [reflexivity| |reflexivity].
  apply aload_ext. intros x. apply find_set. apply Hw.
Qed.
Lemma puts_R : forall l d k, wf d -> mfind k (re (puts d l)) = aload symR (reas E S R l) (fun x => mfind x (re d)) k.
Proof.
  induction l as [|i l IH]; intros d k Hw; [reflexivity|].
  change (puts d (i :: l)) with (puts (put d i) l). rewrite IH by now apply put_wf.
  destruct i as [e|s|r]; cbn; [reflexivity|reflexivity|].
  apply aload_ext. intros x. apply find_set. apply Hw.
Qed.
Lemma puts_E : forall l d k, wf d -> mfind k (el (puts d l)) = aload symE (elts E S R l) (fun x => mfind x (el d)) k.
Proof.
  induction l as [|i l IH]; intros d k Hw; [reflexivity|].
  change (puts d (i :: l)) with (puts (put d i) l). rewrite IH by now apply put_wf.
  destruct i as [e|s|r]; cbn; [|reflexivity|reflexivity].
  apply aload_ext. intros x. apply find_set. apply Hw.
Qed.
Definition same_maps (d d' : db) : Prop := el d = el d' /\ su d = su d' /\ re d = re d'.
Lemma append_maps : forall l lb d, same_maps (fst (append l lb d)) (puts d (goodPrefix (decT lb) l)).
Proof.
  intros l lb d. unfold appendData. rewrite fromJSONs_dec.
  destruct (swal _); [destruct (Nat.eqb _ _)| |]; repeat split.
Qed.
Lemma append_ends : forall l lb d, snd (append l lb d) = swal (firstFailure (decT lb) l).
Proof. intros l lb d. unfold appendData. rewrite fromJSONs_dec. destruct (firstFailure _ _) as [[]| |]; reflexivity. Qed.
Lemma appendF_maps : forall k d, same_maps (fst (appendF k d)) (puts d (goodPrefix decP (docRecords J k))).
Proof.
  intros k d. unfold appendFile. rewrite fromDoc_dec.
  destruct (swal _); [destruct (Nat.eqb _ _)| |]; repeat split.
Qed.
Lemma appendF_ends : forall k d, snd (appendF k d) = swal (firstFailure decP (docRecords J k)).
Proof. intros k d. unfold appendFile. rewrite fromDoc_dec. destruct (firstFailure _ _) as [[]| |]; reflexivity. Qed.

(** *** one step *)
Lemma same_wf : forall d d', same_maps d d' -> wf d' -> wf d.
Proof. intros d d' (H1 & H2 & H3) Hw. unfold wf. now rewrite H1, H2, H3. Qed.
Lemma setDB_wf : forall k d, wf d -> wf (setDBElement E S R D toKey addDB k d).
Proof.
  intros k d (H1 & H2 & H3). unfold setDBElement. destruct (mfind k (el d)); repeat split; cbn; auto using sorted_set.
Qed.
Lemma step_wf : forall o d, wf d -> wf (step o d).
Proof.
  intros o d Hw. pose proof Hw as (H1 & H2 & H3). destruct o as [e|e|s|s|r|r|l|l|l|k f|k f|k f|l lb|k]; cbn [dbstep].
  - apply setDB_wf. repeat split; cbn; auto using sorted_insert.
  - apply setDB_wf. repeat split; cbn; auto using sorted_set.
  - repeat split; cbn; auto using sorted_insert.
  - repeat split; cbn; auto using sorted_set.
  - repeat split; cbn; auto using sorted_insert.
  - repeat split; cbn; auto using sorted_set.
  - repeat split; cbn; auto using sorted_build.
  - repeat split; cbn; auto using sorted_build.
  - repeat split; cbn; auto using sorted_build.
  - unfold element. destruct (mfind k (el d)) eqn:Ek; [rewrite Ek|destruct (mfind k (mset _ _ _))];
      repeat split; cbn; auto using sorted_set.
  - unfold substance. destruct (mfind k (su d)) eqn:Ek; [rewrite Ek|destruct (mfind k (mset _ _ _))];
      repeat split; cbn; auto using sorted_set.
  - unfold reaction. destruct (mfind k (re d)) eqn:Ek; [rewrite Ek|destruct (mfind k (mset _ _ _))];
      repeat split; cbn; auto using sorted_set.
  - eapply same_wf; [apply append_maps|]. now apply puts_wf.
  - eapply same_wf; [apply appendF_maps|]. now apply puts_wf.
Qed.
Lemma run_wf : forall l d, wf d -> wf (run l d).
Proof. induction l as [|o l IH]; intros d Hw; [exact Hw|]. apply (IH (step o d)), step_wf, Hw. Qed.

Lemma setDB_su : forall k d, su (setDBElement E S R D toKey addDB k d) = su d.
Proof. intros k d. unfold setDBElement. now destruct (mfind k (el d)). Qed.
Lemma setDB_re : forall k d, re (setDBElement E S R D toKey addDB k d) = re d.
Proof. intros k d. unfold setDBElement. now destruct (mfind k (el d)). Qed.
Lemma element_su : forall k f d, su (element E S R D blankE k f d) = su d.
Proof. intros. unfold element. now destruct (mfind k (match _ with Some _ => _ | None => _ end)). Qed.
Lemma element_re : forall k f d, re (element E S R D blankE k f d) = re d.
Proof. intros. unfold element. now destruct (mfind k (match _ with Some _ => _ | None => _ end)). Qed.
Lemma substance_el : forall k f d, el (substance E S R D blankS k f d) = el d.
Proof. intros. unfold substance. now destruct (mfind k (match _ with Some _ => _ | None => _ end)). Qed.
Lemma substance_re : forall k f d, re (substance E S R D blankS k f d) = re d.
Proof. intros. unfold substance. now destruct (mfind k (match _ with Some _ => _ | None => _ end)). Qed.
Lemma reaction_el : forall k f d, el (reaction E S R D blankR k f d) = el d.
Proof. intros. unfold reaction. now destruct (mfind k (match _ with Some _ => _ | None => _ end)). Qed.
Lemma reaction_su : forall k f d, su (reaction E S R D blankR k f d) = su d.
Proof. intros. unfold reaction. now destruct (mfind k (match _ with Some _ => _ | None => _ end)). Qed.
Lemma edit_find : forall V k (b : V) (f : V -> V) m x, sorted m ->
  let m1 := match mfind k m with Some _ => m | None => mset k b m end in
  mfind x (match mfind k m1 with Some e => mset k (f e) m1 | None => m1 end) = aedit k b f (fun y => mfind y m) x.
Proof.
  intros V k b f m x Hs m1. unfold aedit. subst m1. destruct (mfind k m) as [v|] eqn:Ek.
  - rewrite Ek. now apply find_set.
  - rewrite find_set by exact Hs. unfold aset at 1. rewrite String.eqb_refl.
    rewrite find_set by now apply sorted_set. unfold aset. rewrite find_set by exact Hs. unfold aset.
    destruct (String.eqb x k); reflexivity.
Qed.

Lemma step_S : forall o d k, wf d -> mfind k (su (step o d)) = aS o (fun x => mfind x (su d)) k.
Proof.
  intros o d k Hw. pose proof Hw as (H1 & H2 & H3).
  destruct o as [e|e|s|s|r|r|l|l|l|y f|y f|y f|l lb|dc]; cbn [dbstep aopS]; try reflexivity.
  - unfold addElement. now rewrite setDB_su.
  - unfold setElement. now rewrite setDB_su.
  - cbn. now apply find_insert.
  - cbn. now apply find_set.
  - cbn. apply find_build.
  - now rewrite element_su.
  - unfold substance. rewrite <- (edit_find S y (blankS y) f (su d) k H2). cbn zeta.
    destruct (mfind y (match _ with Some _ => _ | None => _ end)); reflexivity.
  - now rewrite reaction_su.
  - destruct (append_maps l lb d) as (_ & Hq & _). rewrite Hq. now apply puts_S.
  - destruct (appendF_maps dc d) as (_ & Hq & _). rewrite Hq. now apply puts_S.
Qed.
Lemma step_R : forall o d k, wf d -> mfind k (re (step o d)) = aR o (fun x => mfind x (re d)) k.
Proof.
  intros o d k Hw. pose proof Hw as (H1 & H2 & H3).
  destruct o as [e|e|s|s|r|r|l|l|l|y f|y f|y f|l lb|dc]; cbn [dbstep aopR]; try reflexivity.
  - unfold addElement. now rewrite setDB_re.
  - unfold setElement. now rewrite setDB_re.
  - cbn. now apply find_insert.
  - cbn. now apply find_set.
  - cbn. apply find_build.
  - now rewrite element_re.
  - now rewrite substance_re.
  - unfold reaction. rewrite <- (edit_find R y (blankR y) f (re d) k H3). cbn zeta.
    destruct (mfind y (match _ with Some _ => _ | None => _ end)); reflexivity.
  - destruct (append_maps l lb d) as (_ & _ & Hq). rewrite Hq. now apply puts_R.
  - destruct (appendF_maps dc d) as (_ & _ & Hq). rewrite Hq. now apply puts_R.
Qed.
Lemma setDB_E : forall k d x, wf d -> mfind x (el (setDBElement E S R D toKey addDB k d)) =
  match mfind k (el d) with Some e => aset k (toKey e) (fun y => mfind y (el d)) x | None => mfind x (el d) end.
Proof.
  intros k d x (H1 & _). unfold setDBElement. destruct (mfind k (el d)) as [e|]; cbn; [now apply find_set|reflexivity].
Qed.
Lemma step_E : forall o d k, wf d -> mfind k (el (step o d)) = aE (blankE (al d)) o (fun x => mfind x (el d)) k.
Proof.
  intros o d k Hw. pose proof Hw as (H1 & H2 & H3).
  destruct o as [e|e|s|s|r|r|l|l|l|y f|y f|y f|l lb|dc]; cbn [dbstep aopE]; try reflexivity.
  - unfold addElement. rewrite setDB_E by (repeat split; cbn; auto using sorted_insert). cbn.
    rewrite find_insert by exact H1. unfold aadd. destruct (mfind (symE e) (el d)) as [x|] eqn:Ex.
    + rewrite Ex. unfold aset. destruct (String.eqb k (symE e)); [reflexivity|]. unfold minsert. now rewrite Ex.
    + unfold aset at 1. rewrite String.eqb_refl. unfold aset. destruct (String.eqb_spec k (symE e)) as [_|Hne]; [reflexivity|].
      rewrite find_insert by exact H1. unfold aadd. rewrite Ex. unfold aset. destruct (String.eqb_spec k (symE e)); [contradiction|reflexivity].
  - unfold setElement. rewrite setDB_E by (repeat split; cbn; auto using sorted_set). cbn.
    rewrite find_set by exact H1. unfold aset at 1. rewrite String.eqb_refl. unfold aset.
    destruct (String.eqb_spec k (symE e)) as [_|Hne]; [reflexivity|].
    rewrite find_set by exact H1. unfold aset. destruct (String.eqb_spec k (symE e)); [contradiction|reflexivity].
  - cbn. apply find_build.
  - unfold element. rewrite <- (edit_find E y (blankE (al d) y) f (el d) k H1). cbn zeta.
    destruct (mfind y (match _ with Some _ => _ | None => _ end)); reflexivity.
  - now rewrite substance_el.
  - now rewrite reaction_el.
  - destruct (append_maps l lb d) as (Hq & _). rewrite Hq. now apply puts_E.
  - destruct (appendF_maps dc d) as (Hq & _). rewrite Hq. now apply puts_E.
Qed.
(** *** whole histories *)
Definition arunS (l : list (dbop E S R J)) (m : amap S) : amap S := fold_left (fun m o => aS o m) l m.
Definition arunR (l : list (dbop E S R J)) (m : amap R) : amap R := fold_left (fun m o => aR o m) l m.
Lemma aS_ext : forall o m m', (forall k, m k = m' k) -> forall k, aS o m k = aS o m' k.
Proof.
  intros o m m' Hm k. destruct o; cbn; try apply Hm; try reflexivity.
  - unfold aadd. rewrite (Hm (symS s)). destruct (m' (symS s)); [apply Hm|]. unfold aset. destruct (String.eqb _ _); [reflexivity|apply Hm].
  - unfold aset. destruct (String.eqb _ _); [reflexivity|apply Hm].
  - unfold aedit, aset. rewrite (Hm k0). destruct (String.eqb _ _); [reflexivity|apply Hm].
  - now apply aload_ext.
  - now apply aload_ext.
Qed.
Lemma aR_ext : forall o m m', (forall k, m k = m' k) -> forall k, aR o m k = aR o m' k.
Proof.
  intros o m m' Hm k. destruct o; cbn; try apply Hm; try reflexivity.
  - unfold aadd. rewrite (Hm (symR r)). destruct (m' (symR r)); [apply Hm|]. unfold aset. destruct (String.eqb _ _); [reflexivity|apply Hm].
  - unfold aset. destruct (String.eqb _ _); [reflexivity|apply Hm].
  - unfold aedit, aset. rewrite (Hm k0). destruct (String.eqb _ _); [reflexivity|apply Hm].
  - now apply aload_ext.
  - now apply aload_ext.
Qed.
Lemma run_S : forall l d m, wf d -> (forall k, mfind k (su d) = m k) -> forall k, mfind k (su (run l d)) = arunS l m k.
Proof.
  induction l as [|o l IH]; intros d m Hw Hm k; [apply Hm|].
  apply (IH (step o d)); [now apply step_wf|]. intros x. rewrite step_S by exact Hw. now apply aS_ext.
Qed.
Lemma run_R : forall l d m, wf d -> (forall k, mfind k (re d) = m k) -> forall k, mfind k (re (run l d)) = arunR l m k.
Proof.
  induction l as [|o l IH]; intros d m Hw Hm k; [apply Hm|].
  apply (IH (step o d)); [now apply step_wf|]. intros x. rewrite step_R by exact Hw. now apply aR_ext.
Qed.

(** *** getters *)
Lemma empty_wf : forall a, wf (emptyDb E S R D a).
Proof. intros a. repeat split; constructor. Qed.
Lemma get_sub : forall l a k, let d := run l (emptyDb E S R D a) in
  getSubstance E S R D k d = match arunS l (fun _ => None) k with Some s => Ok s | None => OtherEx end /\
  containsSubstance E S R D k d = match arunS l (fun _ => None) k with Some _ => true | None => false end.
Proof.
  intros l a k d. unfold getSubstance, containsSubstance, mcount. subst d.
  rewrite (run_S l _ (fun _ => None)) by (auto using empty_wf). destruct (arunS l _ k); split; reflexivity.
Qed.
Lemma get_rea : forall l a k, let d := run l (emptyDb E S R D a) in
  getReaction E S R D k d = match arunR l (fun _ => None) k with Some s => Ok s | None => OtherEx end /\
  containsReaction E S R D k d = match arunR l (fun _ => None) k with Some _ => true | None => false end.
Proof.
  intros l a k d. unfold getReaction, containsReaction, mcount. subst d.
  rewrite (run_R l _ (fun _ => None)) by (auto using empty_wf). destruct (arunR l _ k); split; reflexivity.
Qed.
Definition lookupE (d : db) (k : string) : option E :=
  match getElement E S R D k d with Ok e => Some e | _ => None end.
Lemma lookupE_find : forall d k, lookupE d k = mfind k (el d).
Proof. intros d k. unfold lookupE, getElement. now destruct (mfind k (el d)). Qed.
Lemma aE_ext : forall b o m m', (forall k, m k = m' k) -> forall k, aE b o m k = aE b o m' k.
Proof.
  intros b o m m' Hm k. destruct o; cbn; try apply Hm; try reflexivity.
  - unfold aset. rewrite (Hm (symE e)). destruct (String.eqb _ _); [reflexivity|apply Hm].
  - unfold aset. destruct (String.eqb _ _); [reflexivity|apply Hm].
  - unfold aedit, aset. rewrite (Hm k0). destruct (String.eqb _ _); [reflexivity|apply Hm].
  - now apply aload_ext.
  - now apply aload_ext.
Qed.
Lemma get_ele : forall l a o k, let d := run l (emptyDb E S R D a) in
  lookupE (step o d) k = aE (blankE (al d)) o (lookupE d) k /\
  getElement E S R D k d = (match lookupE d k with Some e => Ok e | None => OtherEx end) /\
  containsElement E S R D k d = match lookupE d k with Some _ => true | None => false end.
Proof.
  intros l a o k d. assert (Hw : wf d) by (apply run_wf, empty_wf). split; [|split].
  - rewrite lookupE_find, step_E by exact Hw. apply aE_ext. intros x. symmetry. apply lookupE_find.
  - rewrite lookupE_find. unfold getElement. now destruct (mfind k (el d)).
  - rewrite lookupE_find. unfold containsElement, mcount. now destruct (mfind k (el d)).
Qed.

(** *** listings *)
Lemma listing : forall V (m : smap V), sorted m ->
  StronglySorted slt (map fst m) /\ NoDup (map fst m) /\
  (forall k, In k (map fst m) <-> mfind k m <> None) /\
  (forall v, In v (map snd m) <-> exists k, mfind k m = Some v) /\ length (map snd m) = length m /\
  map (fun k => mfind k m) (map fst m) = map Some (map snd m).
Proof.
  intros V m Hs. split; [now apply sorted_slt|]. split; [now apply sorted_nodup|]. split; [|split; [|split]].
  - intros k. rewrite in_map_iff. split.
    + intros ([k' v] & Hk & Hi). cbn in Hk. subst k'. apply find_in in Hi; [|exact Hs]. congruence.
    + destruct (mfind k m) as [v|] eqn:Ef; [|congruence]. intros _. apply find_in in Ef; [|exact Hs]. now exists (k, v).
  - intros v. rewrite in_map_iff. split.
    + intros ([k v'] & Hk & Hi). cbn in Hk. subst v'. exists k. now apply find_in.
    + intros (k & Hf). apply find_in in Hf; [|exact Hs]. now exists (k, v).
  - apply map_length.
  - assert (G : forall l, (forall p, In p l -> In p m) -> map (fun k => mfind k m) (map fst l) = map Some (map snd l)).
    { induction l as [|[k v] l IH]; intros Hi; cbn; [reflexivity|]. f_equal.
      - apply find_in; [exact Hs|]. apply Hi. now left.
      - apply IH. intros p Hp. apply Hi. now right. }
    apply G. auto.
Qed.
Definition well_listed {V} (keys : list string) (vals : list V) (n : nat) (get : string -> outc V) (has : string -> bool) : Prop :=
  StronglySorted slt keys /\ NoDup keys /\ (forall k, In k keys <-> has k = true) /\
  map get keys = map Ok vals /\ length keys = n /\ length vals = n.
Lemma listings : forall l a, let d := run l (emptyDb E S R D a) in
  well_listed (getSubstancesList E S R D d) (getSubstances E S R D d) (numberOfSubstances E S R D d)
    (fun k => getSubstance E S R D k d) (fun k => containsSubstance E S R D k d) /\
  well_listed (getReactionsList E S R D d) (getReactions E S R D d) (numberOfReactions E S R D d)
    (fun k => getReaction E S R D k d) (fun k => containsReaction E S R D k d) /\
  well_listed (getElementsList E S R D d) (getElements E S R D d) (numberOfElements E S R D d)
    (fun k => getElement E S R D k d) (fun k => containsElement E S R D k d).
Proof.
  intros l a d. assert (Hw : wf d) by (apply run_wf, empty_wf). destruct Hw as (H1 & H2 & H3).
  assert (G : forall V (m : smap V), sorted m -> well_listed (map fst m) (map snd m) (length m)
      (fun k => match mfind k m with Some e => Ok e | None => OtherEx end) (fun k => negb (Nat.eqb (mcount k m) 0))).
  { intros V m Hs. destruct (listing V m Hs) as (L1 & L2 & L3 & L4 & L5 & L6).
    split; [exact L1|]. split; [exact L2|]. split; [|split; [|split; [apply map_length|exact L5]]].
    - intros k. rewrite L3. unfold mcount. destruct (mfind k m); cbn; split; congruence.
    - apply (f_equal (map (fun o => match o with Some e => Ok e | None => OtherEx end))) in L6.
      rewrite !map_map in L6. rewrite !map_map. exact L6. }
  split; [|split]; apply G; assumption.
Qed.
(** the same records in any order give the same listing *)
Lemma run_setS : forall ss d k, wf d -> NoDup (map symS ss) ->
  (forall s, In s ss -> symS s = k -> mfind k (su (run (map (SetS E S R J) ss) d)) = Some s) /\
  ((forall s, In s ss -> symS s <> k) -> mfind k (su (run (map (SetS E S R J) ss) d)) = mfind k (su d)).
Proof.
  induction ss as [|s0 ss IH]; intros d k Hw Hn.
  - split; [intros s []|reflexivity].
  - change (run (map (SetS E S R J) (s0 :: ss)) d) with (run (map (SetS E S R J) ss) (step (SetS E S R J s0) d)).
    inversion Hn as [|? ? Hni Hn']; subst.
    assert (Hf : mfind k (su (step (SetS E S R J s0) d)) = aset (symS s0) s0 (fun x => mfind x (su d)) k)
      by (apply find_set; apply Hw).
    destruct (IH (step (SetS E S R J s0) d) k (step_wf _ _ Hw) Hn') as [I1 I2]. split.
    + intros s [->|Hi] Hk; [|now apply I1]. rewrite I2.
      * rewrite Hf. unfold aset. subst k. now rewrite String.eqb_refl.
      * intros s' Hs' Hk'. apply Hni. rewrite Hk, <- Hk'. now apply in_map.
    + intros Ha. rewrite I2 by (intros s Hs; apply Ha; now right). rewrite Hf. unfold aset.
      destruct (String.eqb_spec k (symS s0)) as [->|_]; [|reflexivity]. exfalso. apply (Ha s0); [now left|reflexivity].
Qed.
Lemma order_free : forall ss ss' a, Permutation ss ss' -> NoDup (map symS ss) ->
  let d := run (map (SetS E S R J) ss) (emptyDb E S R D a) in
  let d' := run (map (SetS E S R J) ss') (emptyDb E S R D a) in
  getSubstancesList E S R D d = getSubstancesList E S R D d' /\ getSubstances E S R D d = getSubstances E S R D d'.
Proof.
  intros ss ss' a Hp Hn d d'.
  assert (Hn' : NoDup (map symS ss')) by (eapply Permutation_NoDup; [apply Permutation_map; exact Hp|exact Hn]).
  assert (Em : su d = su d').
  { apply sorted_ext; [apply run_wf, empty_wf|apply run_wf, empty_wf|]. intros k.
    destruct (run_setS ss _ k (empty_wf a) Hn) as [A1 A2]. destruct (run_setS ss' _ k (empty_wf a) Hn') as [B1 B2].
    destruct (find (fun s => String.eqb (symS s) k) ss) as [s|] eqn:Ef.
    - apply find_some in Ef. destruct Ef as [Hi Hk]. apply String.eqb_eq in Hk.
      unfold d, d'. rewrite (A1 s Hi Hk), (B1 s); [reflexivity| |exact Hk]. eapply Permutation_in; eassumption.
    - assert (Hno : forall s, In s ss -> symS s <> k).
      { intros s Hi Hk. eapply find_none in Ef; [|exact Hi]. cbn in Ef. apply String.eqb_neq in Ef. contradiction. }
      unfold d, d'. rewrite A2, B2; [reflexivity| |exact Hno].
      intros s Hi. apply Hno. eapply Permutation_in; [apply Permutation_sym; exact Hp|exact Hi]. }
  unfold getSubstancesList, getSubstances. now rewrite Em.
Qed.

(** *** loading *)
Definition allGood {A B} (f : A -> outc B) (l : list A) : Prop := forall a, In a l -> exists b, f a = Ok b.
Lemma good_ok : forall A B (f : A -> outc B) l, allGood f l -> firstFailure f l = Ok tt.
Proof.
  intros A B f l. induction l as [|a l IH]; intros Hg; cbn; [reflexivity|].
  destruct (Hg a (or_introl eq_refl)) as [b Hb]. rewrite Hb. apply IH. intros x Hx. apply Hg. now right.
Qed.
Lemma puts_same : forall l d d', same_maps d d' -> same_maps (puts d l) (puts d' l).
Proof.
  induction l as [|i l IH]; intros d d' Hs; [exact Hs|]. apply (IH (put d i) (put d' i)).
  destruct Hs as (Q1 & Q2 & Q3). destruct i; repeat split; cbn; congruence.
Qed.
Lemma same_trans : forall d d' d'', same_maps d d' -> same_maps d' d'' -> same_maps d d''.
Proof. unfold same_maps. intuition congruence. Qed.
Lemma same_sym : forall d d', same_maps d d' -> same_maps d' d.
Proof. unfold same_maps. intuition congruence. Qed.
Lemma append_split : forall l1 l2 lb d, allGood (decT lb) l1 ->
  same_maps (fst (append (l1 ++ l2)%list lb d)) (fst (append l2 lb (fst (append l1 lb d)))) /\
  snd (append (l1 ++ l2)%list lb d) = snd (append l2 lb (fst (append l1 lb d))).
Proof.
  intros l1 l2 lb d Hg. pose proof (good_ok _ _ _ _ Hg) as Hf. split.
  - eapply same_trans; [apply append_maps|]. apply same_sym.
    eapply same_trans; [apply append_maps|]. rewrite goodPrefix_app, Hf, puts_app.
    apply puts_same, append_maps.
  - rewrite !append_ends, firstFailure_app, Hf. reflexivity.
Qed.
(** everything after the first failing record is ignored *)
Lemma append_cut : forall l1 x l2 lb d, allGood (decT lb) l1 -> (forall i, decT lb x <> Ok i) ->
  same_maps (fst (append (l1 ++ x :: l2)%list lb d)) (fst (append l1 lb d)) /\
  (decT lb x = JsonEx -> snd (append (l1 ++ x :: l2)%list lb d) = Ok tt) /\
  (decT lb x = OtherEx -> snd (append (l1 ++ x :: l2)%list lb d) = OtherEx).
Proof.
  intros l1 x l2 lb d Hg Hx. pose proof (good_ok _ _ _ _ Hg) as Hf. split; [|split].
  - eapply same_trans; [apply append_maps|]. apply same_sym. eapply same_trans; [apply append_maps|].
    rewrite goodPrefix_app, Hf. cbn. destruct (decT lb x) as [i| |]; [destruct (Hx i eq_refl)| |]; rewrite app_nil_r; repeat split.
  - intros Hj. rewrite append_ends, firstFailure_app, Hf. cbn. now rewrite Hj.
  - intros Hj. rewrite append_ends, firstFailure_app, Hf. cbn. now rewrite Hj.
Qed.
(** loading over known element symbols never reaches the formula data *)
Lemma puts_all : forall l d, al (puts d l) = al d.
Proof. induction l as [|i l IH]; intros d; [reflexivity|]. change (al (puts (put d i) l) = al d). rewrite IH. now destruct i. Qed.
Lemma append_stale : forall l lb d, numberOfElements E S R D (fst (append l lb d)) = numberOfElements E S R D d ->
  al (fst (append l lb d)) = al d.
Proof.
  intros l lb d. unfold numberOfElements, appendData. rewrite fromJSONs_dec.
  destruct (swal _); cbn [fst]; intros Hn; try (now rewrite puts_all).
  destruct (Nat.eqb_spec (length (el d)) (length (el (puts d (goodPrefix (decT lb) l))))) as [He|He].
  - now rewrite puts_all.
  - cbn in Hn. congruence.
Qed.
(** a failure other than a json error leaves the formula data behind as well *)
Lemma append_failed_stale : forall l lb d, snd (append l lb d) = OtherEx -> al (fst (append l lb d)) = al d.
Proof.
  intros l lb d. unfold appendData. rewrite fromJSONs_dec. destruct (swal _); cbn [fst snd]; intros Hn; try discriminate.
  - now rewrite puts_all.
Qed.

(** *** records under their own symbol *)
Definition keyed (d : db) : Prop :=
  (forall k e, mfind k (el d) = Some e -> symE e = k) /\ (forall k s, mfind k (su d) = Some s -> symS s = k) /\
  (forall k r, mfind k (re d) = Some r -> symR r = k).
(** operations that respect symbols *)
Definition respects (o : dbop E S R J) : Prop :=
  match o with
  | MapE _ _ _ _ l => forall k e, In (k, e) l -> symE e = k
  | MapS _ _ _ _ l => forall k e, In (k, e) l -> symS e = k
  | MapR _ _ _ _ l => forall k e, In (k, e) l -> symR e = k
  | EditE _ _ _ _ k f => forall e, symE (f e) = symE e
  | EditS _ _ _ _ k f => forall e, symS (f e) = symS e
  | EditR _ _ _ _ k f => forall e, symR (f e) = symR e
  | _ => True
  end.
Lemma afirst_in : forall V (l : list (string * V)) k v, afirst l k = Some v -> In (k, v) l.
Proof.
  intros V l. induction l as [|[a b] l IH]; intros k v; cbn; [discriminate|]. unfold aset.
  destruct (String.eqb_spec k a) as [->|_]; [left; congruence|right; auto].
Qed.
Lemma aload_keyed : forall V (sym : V -> string) l m, (forall k v, m k = Some v -> sym v = k) ->
  forall k v, aload sym l m k = Some v -> sym v = k.
Proof.
  intros V sym l. induction l as [|x l IH]; intros m Hm k v; cbn; [apply Hm|]. apply IH.
  intros k' v'. unfold aset. destruct (String.eqb_spec k' (sym x)) as [->|_]; [congruence|apply Hm].
Qed.
Lemma aset_keyed : forall V (sym : V -> string) k0 v0 m, sym v0 = k0 -> (forall k v, m k = Some v -> sym v = k) ->
  forall k v, aset k0 v0 m k = Some v -> sym v = k.
Proof. intros V sym k0 v0 m H0 Hm k v. unfold aset. destruct (String.eqb_spec k k0) as [->|_]; [congruence|apply Hm]. Qed.
Hypothesis toKey_sym : forall e, symE (toKey e) = symE e.
Hypothesis blankE_sym : forall a k, symE (blankE a k) = k.
Hypothesis blankS_sym : forall k, symS (blankS k) = k.
Hypothesis blankR_sym : forall k, symR (blankR k) = k.
Lemma step_keyed : forall o d, wf d -> respects o -> keyed d -> keyed (step o d).
Proof.
  intros o d Hw Hr (K1 & K2 & K3). split; [|split].
  - intros k v. rewrite step_E by exact Hw. destruct o; cbn in *; try (now apply K1).
    + apply aset_keyed; [|exact K1]. rewrite toKey_sym. destruct (mfind (symE e) (el d)) eqn:Ee; [now apply K1|reflexivity].
    + apply aset_keyed; [|exact K1]. apply toKey_sym.
    + intros Hv. apply afirst_in in Hv. now apply Hr.
    + unfold aedit. apply aset_keyed; [|exact K1]. rewrite Hr. destruct (mfind k0 (el d)) eqn:Ee; [now apply K1|apply blankE_sym].
    + now apply aload_keyed.
    + now apply aload_keyed.
  - intros k v. rewrite step_S by exact Hw. destruct o; cbn in *; try (now apply K2).
    + unfold aadd. destruct (mfind (symS s) (su d)); [apply K2|]. now apply aset_keyed.
    + now apply aset_keyed.
    + intros Hv. apply afirst_in in Hv. now apply Hr.
    + unfold aedit. apply aset_keyed; [|exact K2]. rewrite Hr. destruct (mfind k0 (su d)) eqn:Ee; [now apply K2|apply blankS_sym].
    + now apply aload_keyed.
    + now apply aload_keyed.
  - intros k v. rewrite step_R by exact Hw. destruct o; cbn in *; try (now apply K3).
    + unfold aadd. destruct (mfind (symR r) (re d)); [apply K3|]. now apply aset_keyed.
    + now apply aset_keyed.
    + intros Hv. apply afirst_in in Hv. now apply Hr.
    + unfold aedit. apply aset_keyed; [|exact K3]. rewrite Hr. destruct (mfind k0 (re d)) eqn:Ee; [now apply K3|apply blankR_sym].
    + now apply aload_keyed.
    + now apply aload_keyed.
Qed.
Lemma run_keyed : forall l d, wf d -> (forall o, In o l -> respects o) -> keyed d -> keyed (run l d).
Proof.
  induction l as [|o l IH]; intros d Hw Hr Hk; [exact Hk|]. apply (IH (step o d)).
  - now apply step_wf.
  - intros o' Ho. apply Hr. now right.
  - apply step_keyed; [exact Hw| |exact Hk]. apply Hr. now left.
Qed.
Lemma keyed_get : forall l a, (forall o, In o l -> respects o) -> let d := run l (emptyDb E S R D a) in
  (forall k e, getElement E S R D k d = Ok e -> symE e = k) /\
  (forall k s, getSubstance E S R D k d = Ok s -> symS s = k) /\
  (forall k r, getReaction E S R D k d = Ok r -> symR r = k).
Proof.
  intros l a Hr d. assert (Hk : keyed d).
  { apply run_keyed; [apply empty_wf|exact Hr|]. repeat split; intros k v; discriminate. }
  destruct Hk as (K1 & K2 & K3).
  split; [|split]; intros k v; unfold getElement, getSubstance, getReaction.
  - specialize (K1 k). destruct (mfind k (el d)); [|discriminate]. intros Hv. apply K1. congruence.
  - specialize (K2 k). destruct (mfind k (su d)); [|discriminate]. intros Hv. apply K2. congruence.
  - specialize (K3 k). destruct (mfind k (re d)); [|discriminate]. intros Hv. apply K3. congruence.
Qed.
End Db.
