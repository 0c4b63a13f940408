(** More lemmas about the equation parser: signs, exponents, empty pieces. *)
From Coq Require Import String Ascii List Bool Arith Reals ZArith Lia Lra.
From Verif Require Import DatabaseModel DatabaseSpec DatabaseProofs EquationModel EquationSpec EquationProofs.
Import ListNotations.
Open Scope list_scope.
Open Scope R_scope.

Lemma pow10_Z : forall z, powerRZ 10 z = Rpower 10 (IZR z).
Proof. intros z. apply powerRZ_Rpower. lra. Qed.
Lemma dval_shift : forall a e k, dval (a, (e - Z.of_nat k)%Z) = IZR a / 10 ^ k * Rpower 10 (IZR e).
Proof.
  intros a e k. unfold dval; cbn [fst snd]. rewrite pow10_Z, minus_IZR. unfold Rminus. rewrite Rpower_plus, Rpower_Ropp.
  rewrite <- INR_IZR_INZ, Rpower_pow by lra. field. apply pow_nonzero. lra.
Qed.
Definition exp_z (e : option (bool * option bool * text)) : Z :=
  match e with None => 0%Z | Some (_, Some true, d) => (- numeral d)%Z | Some (_, _, d) => numeral d end.
Lemma exp_z_value : forall e, Rpower 10 (IZR (exp_z e)) = exp_value e.
Proof.
  intros [[[u [[|]|]] d]|]; cbn [exp_z exp_value]; rewrite ?opp_IZR, ?Rpower_Ropp, ?numeral_value; try reflexivity.
  apply Rpower_O. lra.
Qed.
Lemma exponent_read : forall e s, match e with None => looks_exponent s = false | Some (_, _, d) => d <> [] /\ all is_digit d end ->
  match s with [] => True | c :: _ => is_digit c = false end ->
  exponent (exp_text e ++ s) = (exp_z e, s).
Proof.
  intros [[[u sg] d]|] s He Hs; [|now apply noexp]. destruct He as [Hne Hd].
  destruct (take_all is_digit d s Hd Hs) as [T1 T2]. destruct d as [|z d]; [contradiction|].
  assert (Hz : is_digit z = true) by (apply Hd; now left). pose proof (digit_facts z Hz) as (_ & _ & _ & _ & G5 & G6 & _).
  assert (Eu : ceq (if u then "E"%char else "e"%char) "e" || ceq (if u then "E"%char else "e"%char) "E" = true) by (destruct u; reflexivity).
  unfold exponent, exp_text. cbn [app]. rewrite Eu. destruct sg as [[|]|]; cbn [sign_text app ceq Ascii.eqb Bool.eqb] in *; cbv beta iota.
  - rewrite T1, T2. cbn [exp_z]. f_equal; lia.
  - rewrite T1, T2. cbn [exp_z]. f_equal; lia.
  - rewrite G6, G5. rewrite T1, T2. cbn [exp_z]. f_equal; lia.
Qed.
Lemma unsigned_read : forall sg d1 d2 e c s, (is_alpha c = true \/ c = "("%char) ->
  number_ok (mkNumber None (Some (d1, d2)) e) (c :: s) ->
  exists d, stod_unsigned sg (coef_text (Some (d1, d2)) ++ exp_text e ++ c :: s) = Num d (c :: s) /\
    dval d = IZR sg * coef_value (Some (d1, d2)) * exp_value e.
Proof.
  intros sg d1 d2 e c s Hst (Hne & Hd1 & Hd2 & He). cbn [n_exp] in He.
  pose proof (start_facts c Hst) as (F1 & F2 & F3 & F4 & F5 & F6).
  assert (Hexp : exponent (exp_text e ++ c :: s) = (exp_z e, c :: s)).
  { apply exponent_read; [|exact F3]. destruct e as [[[u g] d]|]; tauto. }
  destruct d1 as [|z d1]; [contradiction|].
  assert (Hhead : match exp_text e ++ c :: s with [] => True | y :: _ => is_digit y = false /\ ceq y "." = false /\ (e = None \/ (ceq y "x" || ceq y "X") = false) end).
  { destruct e as [[[u g] d]|]; cbn [exp_text app]; [destruct u; repeat split; right; reflexivity|]. repeat split; auto. }
  destruct d2 as [d2|].
  - cbn [coef_text]. rewrite <- app_assoc. change (("."%char :: d2) ++ exp_text e ++ c :: s) with ("."%char :: d2 ++ exp_text e ++ c :: s).
    unfold stod_unsigned.
    destruct (take_all is_digit (z :: d1) ("."%char :: d2 ++ exp_text e ++ c :: s) Hd1 eq_refl) as [T1 T2]. rewrite T1, T2.
    cbn [ceq Ascii.eqb Bool.eqb]. destruct (take_all is_digit d2 (exp_text e ++ c :: s) Hd2) as [T3 T4].
    { destruct (exp_text e ++ c :: s); tauto. }
    rewrite T3, T4. cbn [app]. rewrite Hexp.
    assert (Hh : match d1 ++ "."%char :: d2 ++ exp_text e ++ c :: s with x0 :: _ => (ceq x0 "x" || ceq x0 "X") = false | [] => True end).
    { destruct d1 as [|y d1]; cbn [app]; [reflexivity|]. assert (Hy : is_digit y = true) by (apply Hd1; right; now left).
      apply digit_facts in Hy. destruct Hy as (_ & _ & _ & _ & _ & _ & _ & _ & -> & -> & _). reflexivity. }
    destruct (d1 ++ "."%char :: d2 ++ exp_text e ++ c :: s) as [|x0 rr] eqn:Er; [destruct d1; discriminate|].
    rewrite Hh, andb_false_r. eexists. split; [reflexivity|].
    rewrite dval_shift, exp_z_value. cbn [coef_value]. change (z :: d1 ++ d2) with ((z :: d1) ++ d2).
    rewrite mult_IZR, numeral_app, plus_IZR, mult_IZR, <- !numeral_value, <- pow_IZR. field. apply pow_nonzero. lra.
  - cbn [coef_text]. unfold stod_unsigned.
    destruct (take_all is_digit (z :: d1) (exp_text e ++ c :: s) Hd1) as [T1 T2].
    { destruct (exp_text e ++ c :: s); tauto. }
    rewrite T1, T2. 
    assert (Eh : exists y t, exp_text e ++ c :: s = y :: t).
    { destruct (exp_text e); cbn; eauto. }
    destruct Eh as (y & t & Ey). rewrite Ey in *. destruct Hhead as (Hy1 & Hy2 & Hy3). rewrite Hy2. rewrite app_nil_r. cbn [app]. rewrite Hexp.
    assert (Hh : match d1 ++ y :: t with x0 :: _ => (ceq x0 "x" || ceq x0 "X") = false | [] => True end).
    { destruct d1 as [|w d1]; cbn [app].
      - destruct Hy3 as [-> |Hy3]; [|exact Hy3]. cbn in Ey. injection Ey as <- <-. destruct He as [_ [X1 X2]].
        unfold ceq. apply Ascii.eqb_neq in X1. apply Ascii.eqb_neq in X2. now rewrite X1, X2.
      - assert (Hw : is_digit w = true) by (apply Hd1; right; now left).
        apply digit_facts in Hw. destruct Hw as (_ & _ & _ & _ & _ & _ & _ & _ & -> & -> & _). reflexivity. }
    destruct (d1 ++ y :: t) as [|x0 rr] eqn:Er; [destruct d1; discriminate|].
    rewrite Hh, andb_false_r. eexists. split; [reflexivity|].
    cbn [length]. rewrite dval_shift, exp_z_value. cbn [coef_value]. rewrite mult_IZR, numeral_value. cbn [pow]. field.
Qed.
Lemma number_read : forall n s, sym_ok s -> number_ok n s -> exists d, extractCoef (number_text n ++ s) = Num d s /\ dval d = number_value n.
Proof.
  intros [sg m e] s [Hs _] Hok. destruct s as [|c s]; [contradiction|]. pose proof (start_facts c Hs) as (F1 & F2 & F3 & F4 & F5 & F6).
  unfold number_text, number_value; cbn [n_sign n_mant n_exp].
  destruct m as [[d1 d2]|].
  - assert (Hd : forall g, exists d, stod_unsigned g (coef_text (Some (d1, d2)) ++ exp_text e ++ c :: s) = Num d (c :: s) /\
        dval d = IZR g * coef_value (Some (d1, d2)) * exp_value e) by (intros g; now apply unsigned_read).
    destruct Hok as (Hne & Hd1 & _). cbn [n_mant] in *. rewrite <- !app_assoc.
    assert (Hz : exists z r, coef_text (Some (d1, d2)) ++ exp_text e ++ c :: s = z :: r /\ is_digit z = true).
    { destruct d1 as [|z d1]; [contradiction|]. exists z. destruct d2; cbn; eexists; (split; [reflexivity|apply Hd1; now left]). }
    destruct Hz as (z & r & Ez & Hz). rewrite Ez in *.
    pose proof (digit_facts z Hz) as (G1 & G2 & G3 & G4 & G5 & G6 & _).
    destruct sg as [[|]|]; cbn [sign_text app sign_value].
    + destruct (Hd (-1)%Z) as (d & E & V). exists d. split; [|exact V]. rewrite <- E. unfold extractCoef.
      cbn [ceq Ascii.eqb Bool.eqb]. rewrite G3. change (Ascii.eqb z "(") with (ceq z "("). rewrite G4. reflexivity.
    + destruct (Hd 1%Z) as (d & E & V). exists d. split; [|exact V]. rewrite <- E. unfold extractCoef.
      cbn [ceq Ascii.eqb Bool.eqb]. rewrite G3. change (Ascii.eqb z "(") with (ceq z "("). rewrite G4. reflexivity.
    + destruct (Hd 1%Z) as (d & E & V). exists d. split; [|exact V]. rewrite <- E. unfold extractCoef. rewrite G3, G4. cbn [orb]. rewrite G5, G6. cbn [andb].
      assert (E2 : stod (z :: r) = stod_unsigned 1 (z :: r)). { unfold stod. cbn [drop_while]. rewrite G1, G6, G5. reflexivity. }
      destruct r; exact E2.
  - cbn in Hok. subst e. cbn [coef_text exp_text app coef_value exp_value]. rewrite app_nil_r.
    destruct sg as [[|]|]; cbn [sign_text app sign_value].
    + exists ((-1)%Z, 0%Z). split; [|unfold dval; cbn; lra]. unfold extractCoef. rewrite F6. reflexivity.
    + exists (1%Z, 0%Z). split; [|unfold dval; cbn; lra]. unfold extractCoef. rewrite F6. reflexivity.
    + exists (1%Z, 0%Z). split; [|unfold dval; cbn; lra]. unfold extractCoef. rewrite F6. reflexivity.
Qed.

(** *** a text without white space is one piece *)
Lemma split_one : forall s, all (fun c => negb (is_ws c)) s -> regexp_split s = [s].
Proof.
  intros s Hs. unfold regexp_split. pose proof (split_skip s [] (S (length s)) [] (le_S _ _ (le_n _)) (nosep_nows s [] Hs)) as E.
  rewrite app_nil_r in E. rewrite E. replace (S (length s) - length s)%nat with 1%nat by lia. cbn [split_sep map]. f_equal.
  rewrite app_nil_r, rev_involutive, strip_filter. apply filter_all. eapply all_impl; [|exact Hs].
  intros c Hc. apply negb_true_iff in Hc. apply negb_true_iff. destruct (is_blank c) eqn:B; [|reflexivity]. apply blank_ws in B. congruence.
Qed.
Definition plain (c : ascii) : bool := negb (is_ws c) && negb (ceq c "=").
Lemma number_plain : forall n s, sym_ok s -> number_ok n s -> all plain (number_text n ++ s).
Proof.
  intros [sg m e] s [_ Hs] Hok. unfold number_text; cbn [n_sign n_mant n_exp]. apply all_app. split; [|exact Hs].
  assert (Dg : forall d, all is_digit d -> all plain d).
  { intros d. apply all_impl. intros c Hd. apply digit_facts in Hd. unfold plain. apply andb_true_iff. rewrite !negb_true_iff. tauto. }
  assert (Sg : forall g, all plain (sign_text g)) by (intros [[|]|] c; cbn; intuition; now subst).
  apply all_app. split; [apply Sg|]. destruct m as [[d1 d2]|]; unfold number_ok in Hok; cbn [n_mant n_exp] in Hok.
  - destruct Hok as (_ & H1 & H2 & H3). apply all_app. split.
    + destruct d2 as [d2|]; cbn; [apply all_app; split; [auto|apply all_cons; split; [reflexivity|auto]]|auto].
    + destruct e as [[[u g] d]|]; [|intros c []]. cbn [exp_text]. apply all_cons. split; [destruct u; reflexivity|]. apply all_app. split; [apply Sg|]. apply Dg, H3.
  - subst e. intros c [].
Qed.
Lemma plain_ws : forall s, all plain s -> all (fun c => negb (is_ws c)) s.
Proof. intros s. apply all_impl. intros c H. now apply andb_true_iff in H. Qed.
Lemma plain_eq : forall s, all plain s -> all (fun c => negb (ceq c "=")) s.
Proof. intros s. apply all_impl. intros c H. now apply andb_true_iff in H. Qed.
Lemma sym_inj : forall s s', s <> s' -> string_of_list_ascii s <> string_of_list_ascii s'.
Proof. intros s s' H E. apply H. rewrite <- (list_ascii_of_string_of_list_ascii s), E. apply list_ascii_of_string_of_list_ascii. Qed.
Lemma signed_numbers : forall n s n' s', sym_ok s -> sym_ok s' -> s <> s' -> number_ok n s -> number_ok n' s' ->
  exists d d' m, fromEquation (number_text n ++ s ++ "="%char :: number_text n' ++ s') [] = Some m /\
    mfind (string_of_list_ascii s) m = Some d /\ dval d = - number_value n /\
    mfind (string_of_list_ascii s') m = Some d' /\ dval d' = number_value n' /\
    forall x, x <> string_of_list_ascii s -> x <> string_of_list_ascii s' -> mfind x m = None.
Proof.
  intros n s n' s' Hs Hs' Hne Hn Hn'. pose proof (number_plain n s Hs Hn) as P. pose proof (number_plain n' s' Hs' Hn') as P'.
  destruct (number_read n s Hs Hn) as (d & E & V). destruct (number_read n' s' Hs' Hn') as (d' & E' & V').
  unfold fromEquation. rewrite app_assoc. destruct (before_after _ (number_text n' ++ s') (plain_eq _ P)) as [-> ->].
  rewrite (split_one _ (plain_ws _ P)), (split_one _ (plain_ws _ P')).
  assert (Nn : s <> []) by (intros ->; exact (proj1 Hs)). assert (Nn' : s' <> []) by (intros ->; exact (proj1 Hs')).
  rewrite (enter_step dneg _ _ _ _ _ E Nn). cbn [enter]. rewrite E'. destruct s' as [|c' t']; [contradiction|].
  eexists (dneg d), d', _. split; [reflexivity|].
  assert (S1 : sorted (mset (string_of_list_ascii s) (dneg d) [])) by (apply sorted_set; constructor).
  rewrite !find_set by (exact S1 || constructor). unfold aset. pose proof (sym_inj _ _ Hne) as Hi.
  rewrite !find_set by constructor. unfold aset. rewrite !String.eqb_refl.
  assert (Eq1 : String.eqb (string_of_list_ascii s) (string_of_list_ascii (c' :: t')) = false) by (now apply String.eqb_neq).
  rewrite Eq1. split; [reflexivity|]. split; [unfold dval, dneg in *; cbn [fst snd]; rewrite opp_IZR; lra|].
  split; [reflexivity|]. split; [exact V'|]. intros x H1 H2. rewrite !find_set by (exact S1 || constructor). unfold aset.
  apply String.eqb_neq in H1. apply String.eqb_neq in H2. rewrite H2, find_set by constructor. unfold aset. now rewrite H1.
Qed.

(** *** an empty piece is passed over *)
Lemma drop_length : forall f (x : text), (length (drop_while f x) <= length x)%nat.
Proof. intros f x. induction x as [|c x IH]; cbn; [lia|]. destruct (f c); cbn; lia. Qed.
Lemma match_sep_length : forall c x r, match_sep (c :: x) = Some r -> (length r <= length x)%nat.
Proof.
  intros c x r. unfold match_sep. destruct (is_ws c) eqn:Ew; [|discriminate]. cbn [drop_while]. rewrite Ew.
  pose proof (drop_length is_ws x) as D2.
  destruct (drop_while is_ws x) as [|p [|q y]]; try discriminate. destruct (ceq p "+" && is_ws q); [|discriminate].
  intros Em. injection Em as <-. pose proof (drop_length is_ws y). cbn [length] in *. lia.
Qed.
Lemma split_fuel : forall n m acc x, (length x < n)%nat -> (length x < m)%nat -> split_sep n acc x = split_sep m acc x.
Proof.
  induction n as [|n IH]; intros m acc x Hn Hm; [lia|]. destruct m as [|m]; [lia|]. cbn [split_sep].
  destruct x as [|c x]; [reflexivity|]. cbn [length] in Hn, Hm. destruct (match_sep (c :: x)) as [r|] eqn:Em.
  - pose proof (match_sep_length _ _ _ Em). f_equal. apply IH; lia.
  - apply IH; lia.
Qed.
Lemma split_lead_sep : forall s l, sep_ok s -> side_ok l -> s_lead l = [] ->
  regexp_split (sep_text s ++ side_text l) = [] :: regexp_split (side_text l).
Proof.
  intros s l Hs Hl El. unfold regexp_split.
  assert (Hf : term_ok (s_first l)) by (apply Hl; now left). pose proof (term_start _ Hf) as Ht.
  assert (Hst : match side_text l with [] => True | c :: _ => is_ws c = false end).
  { unfold side_text. rewrite El. cbn [app]. destruct (term_text (s_first l)); [contradiction|]. cbn. tauto. }
  rewrite split_step by assumption. cbn [rev map]. f_equal.
  f_equal. apply split_fuel; rewrite ?app_length; [|lia].
  assert (1 <= length (sep_text s))%nat by (destruct s; unfold sep_text; cbn; rewrite app_length; cbn; lia). lia.
Qed.
Lemma side_sep_plain : forall s, sep_ok s -> all (fun c => negb (ceq c "=")) (sep_text s).
Proof.
  intros s (_ & _ & W1 & W2). assert (B : forall c, is_ws c = true -> negb (ceq c "=") = true).
  { intros c. enough (implb (is_ws c) (negb (ceq c "=")) = true) by (destruct (is_ws c); auto; discriminate). revert c. chars. }
  unfold sep_text. apply all_app. split; [|apply all_cons; split; [reflexivity|]]; eapply all_impl; eassumption.
Qed.
Lemma empty_piece : forall s l s' r m0, sep_ok s -> sep_ok s' -> side_ok l -> side_ok r -> s_lead l = [] -> s_lead r = [] -> sorted m0 ->
  exists m, fromEquation (sep_text s ++ side_text l ++ "="%char :: sep_text s' ++ side_text r) m0 = Some m /\
    forall x, option_map dval (mfind x m) = last_of x (occurrences l r) (option_map dval (mfind x m0)).
Proof.
  intros s l s' r m0 Hs Hs' Hl Hr El Er Hm. destruct (equation_last l r m0 Hl Hr Hm) as (m & E & _ & V). exists m. split; [|exact V].
  rewrite <- E. unfold fromEquation, equation_text. rewrite app_assoc.
  assert (Hp : all (fun c => negb (ceq c "=")) (sep_text s ++ side_text l)) by (apply all_app; split; [now apply side_sep_plain|now apply noeq_side]).
  destruct (before_after _ (sep_text s' ++ side_text r) Hp) as [-> ->].
  destruct (before_after (side_text l) (side_text r) (noeq_side l Hl)) as [-> ->].
  rewrite !split_lead_sep by assumption. reflexivity.
Qed.
