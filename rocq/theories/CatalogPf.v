(** Proofs about Catalog.v *)
From Coq Require Import String List ZArith Reals Lia Bool.
From Verif Require Import UnitsModel JsonModel JsonSpec Catalog.
Import ListNotations.
Local Open Scope string_scope.

Lemma catalogue_total : forall par off, (exists L, catalogue par off = Some L) <-> (forall k n, In (k, n) off -> at_ k par <> None).
Proof.
  intros par. induction off as [|[k n] off IH]; cbn; [split; [intros _ ? ? []|eauto]|].
  destruct (at_ k par) as [ps|] eqn:E.
  - destruct IH as [I1 I2]. split.
    + intros [L HL]. destruct (catalogue par off) as [r|] eqn:C; [|discriminate].
      intros k' n' [X|X]; [inversion X; subst; congruence|eapply I1; eauto].
    + intros H. destruct I2 as [r Hr]; [intros; eapply H; right; eassumption|]. rewrite Hr. eauto.
  - split; [intros [L HL]; discriminate|]. intros H. exfalso. eapply H; [left; reflexivity|exact E].
Qed.
Lemma catalogue_lines : forall par off L, catalogue par off = Some L ->
  Forall2 (fun kn j => exists ps, at_ (fst kn) par = Some ps /\ j = line (fst kn) (snd kn) ps) off L.
Proof.
  intros par. induction off as [|[k n] off IH]; cbn; intros L H; [inversion H; constructor|].
  destruct (at_ k par) as [ps|] eqn:E; [|discriminate]. destruct (catalogue par off) as [r|] eqn:C; [|discriminate].
  inversion H; subst. constructor; [exists ps; auto|]. auto.
Qed.
Definition in_table (par : list (Z * list string)) (off : list (Z * string)) : bool :=
  forallb (fun p => match at_ (fst p) par with Some _ => true | None => false end) off.
Lemma in_table_ok : forall par off, in_table par off = true -> exists L, catalogue par off = Some L.
Proof.
  intros par off H. apply catalogue_total. intros k n I. unfold in_table in H. rewrite forallb_forall in H.
  specialize (H _ I). cbn in H. destruct (at_ k par); congruence.
Qed.
Lemma no_exception : (exists L, catalogue par_s offered_s = Some L) /\ (exists L, catalogue par_r offered_r = Some L).
Proof. split; apply in_table_ok; reflexivity. Qed.

(** every line of the catalogue, with its code *)
Definition template (par : list (Z * list string)) (off : list (Z * string)) (j : json) (k : Z) : Prop :=
  exists n ps, In (k, n) off /\ at_ k par = Some ps /\ j = line k n ps.

Lemma dec_s : forall k n, In (k, n) offered_s -> stoi (dec k) = Some k.
Proof.
  assert (D : forallb (fun p => match stoi (dec (fst p)) with Some z => Z.eqb z (fst p) | None => false end) offered_s = true) by (vm_compute; reflexivity).
  intros k n I. rewrite forallb_forall in D. specialize (D _ I). cbn [fst] in D. destruct (stoi (dec k)); [|discriminate].
  apply Z.eqb_eq in D. congruence.
Qed.
Lemma dec_r : forall k n, In (k, n) offered_r -> stoi (dec k) = Some k.
Proof.
  assert (D : forallb (fun p => match stoi (dec (fst p)) with Some z => Z.eqb z (fst p) | None => false end) offered_r = true) by (vm_compute; reflexivity).
  intros k n I. rewrite forallb_forall in D. specialize (D _ I). cbn [fst] in D. destruct (stoi (dec k)); [|discriminate].
  apply Z.eqb_eq in D. congruence.
Qed.

Section R.
Variable convert : R -> string -> string -> jres R.
Lemma rvu_line : forall k n ps d v to, d <> "method" -> exists v', read_values_units convert (line k n ps) d v to = JOk v'.
Proof.
  intros k n ps d v to Hd. unfold read_values_units, line, field. cbn [assoc].
  apply String.eqb_neq in Hd. rewrite Hd. destruct ps as [|p [|]]; [eexists; reflexivity| |eexists; reflexivity].
  destruct (String.eqb p ""); [eexists; reflexivity|]. cbn [assoc]. destruct (String.eqb d p); [|eexists; reflexivity].
  eexists. cbn. reflexivity.
Qed.
Ltac rv := match goal with |- context [read_values_units convert (line ?k ?n ?ps) ?d ?v ?to] =>
  let X := fresh in let Y := fresh in destruct (rvu_line k n ps d v to) as [X Y]; [discriminate|]; rewrite Y; clear Y; cbn [jbind] end.
Lemma limits_line : forall k n ps, ps <> ["limitsTP"] -> limits (line k n ps) = JOk [].
Proof.
  intros k n ps H. unfold limits, limit, line, field. cbn [assoc]. cbn [String.eqb Ascii.eqb Bool.eqb].
  destruct ps as [|p [|]]; try reflexivity. destruct (String.eqb p "") eqn:E; [reflexivity|]. cbn [assoc].
  destruct (String.eqb "limitsTP" p) eqn:F; [apply String.eqb_eq in F; subst; congruence|reflexivity].
Qed.
Lemma param_s_line : forall k n ps x, ps <> ["limitsTP"] -> exists x', thermoParamSubst convert (line k n ps) n x = JOk x'.
Proof.
  intros k n ps x H. unfold thermoParamSubst. do 3 rv.
  destruct (String.eqb n "cp_ft_equation"); [rewrite limits_line by exact H|]; cbn [jbind]; do 4 rv; eexists; reflexivity.
Qed.
Lemma param_r_line : forall k n ps x, exists x', thermoParamReac convert (line k n ps) x = JOk x'.
Proof. intros k n ps x. unfold thermoParamReac. do 6 rv. eexists; reflexivity. Qed.

Lemma no_limits_key : forall k ps, at_ k par_s = Some ps -> ps <> ["limitsTP"].
Proof.
  intros k ps H. unfold par_s in H. cbn [at_] in H.
  repeat match type of H with context [if ?b then _ else _] => destruct b; [inversion H; discriminate|] end. discriminate.
Qed.

Lemma key_line : forall k n, stoi (dec k) = Some k -> key_int (JObj [(dec k, JStr n)]) = JOk k.
Proof. intros k n H. unfold key_int, first_key, stoi_. cbn [jbind]. rewrite H. reflexivity. Qed.

(** any choice of lines of the catalogue is accepted by the reader and selects the methods it names *)
Lemma templates_s : forall ls ks, Forall2 (template par_s offered_s) ls ks -> forall x s,
  exists x', methodsS convert ls x s = (set_meth (fun m => fold_left (fun m k => setM (s_method k) m) ks m) s, JOk x').
Proof.
  induction 1 as [|j k ls ks T F IH]; intros x s; cbn [methodsS].
  - exists x. unfold ret. cbn. destruct s; reflexivity.
  - destruct T as (n & ps & I & A & ->). pose proof (dec_s _ _ I) as D.
    change (field (line k n ps) "method") with (Some (JObj [(dec k, JStr n)])). cbn [usable is_null negb].
    unfold bind at 1, lift at 1. rewrite key_line by exact D. unfold bind at 1, lift at 1. cbn [first_value get_string].
    destruct (param_s_line k n ps x (no_limits_key _ _ A)) as [x1 X1].
    unfold seqM, bind, upd, lift. rewrite X1. cbn [fst snd].
    destruct (IH x1 (set_meth (setM (s_method k)) s)) as [x' E]. rewrite E. exists x'. reflexivity.
Qed.
Lemma templates_r : forall ls ks, Forall2 (template par_r offered_r) ls ks -> forall x s,
  exists x', methodsR convert ls x s = (set_rmeth (fun m => fold_left (fun m k => setM (r_method k) m) ks m) s, JOk x').
Proof.
  induction 1 as [|j k ls ks T F IH]; intros x s; cbn [methodsR].
  - exists x. unfold ret. cbn. destruct s; reflexivity.
  - destruct T as (n & ps & I & A & ->). pose proof (dec_r _ _ I) as D.
    change (field (line k n ps) "method") with (Some (JObj [(dec k, JStr n)])). cbn [usable is_null negb].
    unfold bind at 1, lift at 1. rewrite key_line by exact D. unfold bind at 1, lift at 1. cbn [first_value get_string].
    destruct (param_r_line k n ps x) as [x1 X1].
    unfold seqM, bind, upd, lift. rewrite X1. cbn [fst snd].
    destruct (IH x1 (set_rmeth (setM (r_method k)) s)) as [x' E]. rewrite E. exists x'. reflexivity.
Qed.

(** a line whose values were left empty removes the coefficients read before it *)
Lemma emptied : forall k n x, thermoParamSubst convert (line k n ["eos_hkf_coeffs"]) n x =
  JOk (mkPS (p_ak x) (p_crit x) [] (if String.eqb n "cp_ft_equation" then p_int x ++ [[]] else p_int x)%list (p_cp x) (p_ph x) (p_landau x) (p_hp x) (p_exp x) (p_comp x)).
Proof. intros k n x. unfold thermoParamSubst. cbn. destruct (String.eqb n "cp_ft_equation"); reflexivity. Qed.
Lemma emptied_r : forall k n x, thermoParamReac convert (line k n ["logk_ft_coeffs"]) x =
  JOk (mkPR [] (q_cp x) (q_v x) (q_rb x) (q_fm x) (q_dm x)).
Proof. reflexivity. Qed.
End R.

Lemma templates : forall convert,
  (forall ls ks, Forall2 (template par_s offered_s) ls ks -> forall x s,
    exists x', methodsS convert ls x s = (set_meth (fun m => fold_left (fun m k => setM (s_method k) m) ks m) s, JOk x')) /\
  (forall ls ks, Forall2 (template par_r offered_r) ls ks -> forall x s,
    exists x', methodsR convert ls x s = (set_rmeth (fun m => fold_left (fun m k => setM (r_method k) m) ks m) s, JOk x')).
Proof. intros convert. split; [exact (templates_s convert)|exact (templates_r convert)]. Qed.
Lemma emptied_both : forall convert,
  (forall k n x, n <> "cp_ft_equation" -> thermoParamSubst convert (line k n ["eos_hkf_coeffs"]) n x =
    JOk (mkPS (p_ak x) (p_crit x) [] (p_int x) (p_cp x) (p_ph x) (p_landau x) (p_hp x) (p_exp x) (p_comp x))) /\
  (forall k n x, thermoParamReac convert (line k n ["logk_ft_coeffs"]) x = JOk (mkPR [] (q_cp x) (q_v x) (q_rb x) (q_fm x) (q_dm x))).
Proof.
  intros convert. split; [|exact (emptied_r convert)].
  intros k n x H. rewrite emptied. apply String.eqb_neq in H. rewrite H. reflexivity.
Qed.
