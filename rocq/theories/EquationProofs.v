(** Lemmas about the equation parser. *)
From Coq Require Import String Ascii List Bool Arith Reals ZArith Lia Lra.
From Verif Require Import DatabaseModel DatabaseSpec DatabaseProofs EquationModel EquationSpec.
Import ListNotations.
Open Scope list_scope.
Open Scope R_scope.

(** *** characters *)
Lemma all_cons : forall f c s, all f (c :: s) <-> f c = true /\ all f s.
Proof. intros f c s. unfold all. cbn. split; [auto|]. intros [H1 H2] x [<-|Hx]; auto. Qed.
Lemma all_app : forall f s s', all f (s ++ s') <-> all f s /\ all f s'.
Proof. intros f s s'. unfold all. setoid_rewrite in_app_iff. firstorder. Qed.
Lemma all_impl : forall (f g : ascii -> bool) s, (forall c, f c = true -> g c = true) -> all f s -> all g s.
Proof. unfold all. auto. Qed.
Lemma by_code : forall (P : ascii -> bool), (forall n, (n < 256)%nat -> P (ascii_of_nat n) = true) -> forall c, P c = true.
Proof. intros P Hp c. rewrite <- (ascii_nat_embedding c). apply Hp. apply nat_ascii_bounded. Qed.
Ltac chars := apply by_code; intros n Hn; do 256 (destruct n as [|n]; [reflexivity|]); lia.
Lemma blank_ws : forall c, is_blank c = true -> is_ws c = true.
Proof. intros c. enough (implb (is_blank c) (is_ws c) = true) by (destruct (is_blank c); auto; discriminate). revert c. chars. Qed.
Lemma digit_facts : forall c, is_digit c = true -> is_ws c = false /\ is_blank c = false /\ is_alpha c = false /\
  ceq c "(" = false /\ ceq c "+" = false /\ ceq c "-" = false /\ ceq c "." = false /\ ceq c "=" = false /\
  ceq c "x" = false /\ ceq c "X" = false /\ ceq c "e" = false /\ ceq c "E" = false.
Proof.
  intros c Hc. assert (Q : implb (is_digit c) (negb (is_ws c) && negb (is_blank c) && negb (is_alpha c) && negb (ceq c "(") &&
    negb (ceq c "+") && negb (ceq c "-") && negb (ceq c ".") && negb (ceq c "=") && negb (ceq c "x") && negb (ceq c "X") && negb (ceq c "e") && negb (ceq c "E")) = true)
    by (revert c Hc; intros c _; revert c; chars).
  rewrite Hc in Q. cbn in Q. rewrite !andb_true_iff, !negb_true_iff in Q. tauto.
Qed.
Lemma start_facts : forall c, is_alpha c = true \/ c = "("%char -> is_ws c = false /\ is_blank c = false /\ is_digit c = false /\
  ceq c "+" = false /\ ceq c "." = false /\ is_alpha c || ceq c "(" = true.
Proof.
  intros c Hc. assert (Q : implb (is_alpha c || ceq c "(") (negb (is_ws c) && negb (is_blank c) && negb (is_digit c) &&
    negb (ceq c "+") && negb (ceq c ".")) = true) by (clear Hc; revert c; chars).
  assert (Hs : is_alpha c || ceq c "(" = true) by (destruct Hc as [-> | ->]; [reflexivity|]; reflexivity).
  rewrite Hs in Q. cbn in Q. rewrite !andb_true_iff, !negb_true_iff in Q. tauto.
Qed.
Lemma point_facts : is_ws "." = false /\ is_blank "." = false /\ is_digit "." = false. Proof. repeat split. Qed.

(** *** lists *)
Lemma drop_all : forall f s r, all f s -> drop_while f (s ++ r) = drop_while f r.
Proof. intros f s r. induction s as [|c s IH]; intros Ha; cbn; [reflexivity|]. apply all_cons in Ha. destruct Ha as [-> Ha]. auto. Qed.
Lemma take_all : forall f s r, all f s -> match r with [] => True | c :: _ => f c = false end ->
  take_while f (s ++ r) = s /\ drop_while f (s ++ r) = r.
Proof.
  intros f s r. induction s as [|c s IH]; intros Ha Hr; cbn.
  - destruct r as [|c r]; [split; reflexivity|]. cbn. rewrite Hr. split; reflexivity.
  - apply all_cons in Ha. destruct Ha as [-> Ha]. destruct (IH Ha Hr) as [-> ->]. split; reflexivity.
Qed.
Lemma filter_all : forall f (s : text), all (fun c => negb (f c)) s -> filter (fun c => negb (f c)) s = s.
Proof. intros f s. induction s as [|c s IH]; intros Ha; cbn; [reflexivity|]. apply all_cons in Ha. destruct Ha as [-> Ha]. now rewrite IH. Qed.
Lemma filter_none : forall f (s : text), all f s -> filter (fun c => negb (f c)) s = [].
Proof. intros f s. induction s as [|c s IH]; intros Ha; cbn; [reflexivity|]. apply all_cons in Ha. destruct Ha as [-> Ha]. cbn. auto. Qed.
Lemma filter_drop : forall f (s : text), filter (fun c => negb (f c)) (drop_while f s) = filter (fun c => negb (f c)) s.
Proof. intros f s. induction s as [|c s IH]; cbn; [reflexivity|]. destruct (f c) eqn:E; cbn; rewrite ?E; cbn; auto. Qed.
Lemma filter_rev : forall f (s : text), filter f (rev s) = rev (filter f s).
Proof.
  intros f s. induction s as [|c s IH]; cbn; [reflexivity|]. rewrite filter_app, IH. cbn. destruct (f c); cbn; [reflexivity|now rewrite app_nil_r].
Qed.
Lemma strip_filter : forall s, strip_all s = filter (fun c => negb (is_blank c)) s.
Proof. intros s. unfold strip_all. rewrite filter_rev, filter_drop, filter_rev, rev_involutive. apply filter_drop. Qed.

(** *** splitting *)
(** no separator starts inside [u] when followed by [r] *)
Definition nosep (u r : text) : Prop := forall a b, u = a ++ b -> b <> [] -> match_sep (b ++ r) = None.
Lemma split_skip : forall u r n acc, (length u <= n)%nat -> nosep u r ->
  split_sep n acc (u ++ r) = split_sep (n - length u) (rev u ++ acc) r.
Proof.
  induction u as [|c u IH]; intros r n acc Hl Hn; cbn [length app rev].
  - now rewrite Nat.sub_0_r.
  - destruct n as [|n]; [cbn in Hl; lia|]. cbn [split_sep Nat.sub].
    pose proof (Hn [] (c :: u) eq_refl) as H0. cbn [app] in H0. rewrite H0 by discriminate.
    rewrite IH; [now rewrite <- app_assoc|cbn in Hl; lia|].
    intros a b Hab Hb. apply (Hn (c :: a) b); [cbn; now rewrite Hab|exact Hb].
Qed.
Lemma nosep_app : forall u v r, nosep u (v ++ r) -> nosep v r -> nosep (u ++ v) r.
Proof.
  intros u v r Hu Hv a b Hab Hb. apply app_eq_app in Hab. destruct Hab as (l & [[H1 H2]|[H1 H2]]).
  - destruct l as [|c l].
    + cbn in H2. subst b. apply (Hv []); [reflexivity|]. exact Hb.
    + rewrite H2, <- app_assoc. apply (Hu a (c :: l)); [exact H1|discriminate].
  - apply (Hv l b); [exact H2|exact Hb].
Qed.
Lemma nosep_nows : forall u r, all (fun c => negb (is_ws c)) u -> nosep u r.
Proof.
  intros u r Ha a b Hab Hb. destruct b as [|c b]; [contradiction|]. cbn [app]. unfold match_sep.
  assert (Hc : is_ws c = false). { apply negb_true_iff. apply Ha. rewrite Hab. apply in_or_app. right. now left. }
  now rewrite Hc.
Qed.
(** blanks in front of something that does not start with + or white space *)
Lemma nosep_blank : forall u r, all is_blank u -> match drop_while is_ws r with c :: _ => ceq c "+" = false | [] => True end -> nosep u r.
Proof.
  intros u r Ha Hr a b Hab Hb. destruct b as [|c b]; [contradiction|].
  assert (Hbb : all is_ws (c :: b)). { apply all_impl with (f := is_blank); [apply blank_ws|]. rewrite Hab in Ha. apply all_app in Ha. tauto. }
  cbn [app]. unfold match_sep. change (c :: b ++ r) with ((c :: b) ++ r). rewrite drop_all by exact Hbb.
  apply all_cons in Hbb. destruct Hbb as [-> _].
  destruct (drop_while is_ws r) as [|d [|e r']]; try reflexivity. rewrite Hr. reflexivity.
Qed.
Lemma match_sep_sep : forall s r, sep_ok s -> match r with [] => True | c :: _ => is_ws c = false end -> match_sep (sep_text s ++ r) = Some r.
Proof.
  intros [w1 w2] r (H1 & H2 & H3 & H4) Hr. cbn [fst snd] in *. unfold sep_text; cbn [fst snd].
  destruct w1 as [|c w1]; [contradiction|]. destruct w2 as [|d w2]; [contradiction|].
  rewrite <- app_assoc. cbn [app].
  assert (D1 : drop_while is_ws (c :: w1 ++ "+"%char :: d :: w2 ++ r) = "+"%char :: d :: w2 ++ r).
  { change (c :: w1 ++ "+"%char :: d :: w2 ++ r) with ((c :: w1) ++ "+"%char :: d :: w2 ++ r). rewrite drop_all by exact H3. reflexivity. }
  assert (D2 : drop_while is_ws (d :: w2 ++ r) = r).
  { change (d :: w2 ++ r) with ((d :: w2) ++ r). rewrite drop_all by exact H4. destruct r as [|e r]; [reflexivity|]. cbn. now rewrite Hr. }
  unfold match_sep. rewrite D1. apply all_cons in H3. destruct H3 as [-> _].
  apply all_cons in H4. destruct H4 as [H4 _]. rewrite H4. cbn [ceq Ascii.eqb Bool.eqb andb]. cbn [drop_while] in D2. rewrite H4 in D2. exact (f_equal Some D2).
Qed.
Lemma split_step : forall n acc s r, sep_ok s -> match r with [] => True | c :: _ => is_ws c = false end ->
  split_sep (S n) acc (sep_text s ++ r) = rev acc :: split_sep n [] r.
Proof.
  intros n acc s r Hs Hr. pose proof (match_sep_sep s r Hs Hr) as Hm. cbn [split_sep].
  destruct (sep_text s ++ r) as [|c x] eqn:E.
  - exfalso. destruct s as [w1 w2]. unfold sep_text in E. cbn in E. destruct w1; discriminate.
  - rewrite Hm. reflexivity.
Qed.
Lemma term_start : forall t, term_ok t -> match term_text t with [] => False | c :: _ => is_ws c = false /\ ceq c "+" = false end.
Proof.
  intros t ((Hs & Ha) & Hg & Hc). unfold term_text. destruct (t_coef t) as [[d1 d2]|].
  - destruct Hc as (Hd & Hd1 & _). destruct d1 as [|c d1]; [contradiction|].
    assert (Hcd : is_digit c = true) by (apply Hd1; now left). apply digit_facts in Hcd.
    destruct d2; cbn; tauto.
  - rewrite Hc. cbn. destruct (t_sym t) as [|c s]; [contradiction|]. apply start_facts in Hs. tauto.
Qed.
Lemma nows_weaken : forall s, all (fun c => negb (is_ws c) && negb (ceq c "=")) s -> all (fun c => negb (is_ws c)) s.
Proof. intros s. apply all_impl. intros c Hc. now apply andb_true_iff in Hc. Qed.
Lemma coef_nows : forall t, term_ok t -> all (fun c => negb (is_ws c)) (coef_text (t_coef t)).
Proof.
  intros t (_ & _ & Hc). destruct (t_coef t) as [[d1 [d2|]]|]; cbn; [| |intros c []].
  - destruct Hc as (_ & H1 & H2 & _). apply all_app. split; [|apply all_cons; split; [reflexivity|]];
      (eapply all_impl; [|eassumption]); intros c Hd; apply digit_facts in Hd; apply negb_true_iff; tauto.
  - destruct Hc as (_ & H1 & _). eapply all_impl; [|eassumption]. intros c Hd; apply digit_facts in Hd; apply negb_true_iff; tauto.
Qed.
Lemma nosep_term : forall t r, term_ok t -> nosep (term_text t) r.
Proof.
  intros t r Ht. pose proof Ht as ((Hs & Ha) & Hg & Hc). unfold term_text.
  apply nosep_app; [apply nosep_nows, coef_nows, Ht|]. apply nosep_app.
  - apply nosep_blank; [exact Hg|]. destruct (t_sym t) as [|c s]; [contradiction|]. apply start_facts in Hs. cbn.
    destruct Hs as (-> & _ & _ & Hp & _). exact Hp.
  - apply nosep_nows, nows_weaken, Ha.
Qed.
Definition more_text (l : list (sep * term)) : text := flat_map (fun p => sep_text (fst p) ++ term_text (snd p)) l.
Lemma split_more : forall l trail n acc, all is_blank trail ->
  (forall p, In p l -> sep_ok (fst p) /\ term_ok (snd p)) -> (length (more_text l ++ trail) < n)%nat ->
  exists ps, split_sep n acc (more_text l ++ trail) = ps /\
    map strip_all ps = strip_all (rev acc) :: map (fun p => strip_all (term_text (snd p))) l.
Proof.
  induction l as [|[s t] l IH]; intros trail n acc Htr Hok Hn.
  - cbn in *. eexists. split; [reflexivity|].
    rewrite <- (app_nil_r trail) at 1. rewrite split_skip; [|lia|].
    + destruct (n - length trail)%nat as [|k]; cbn; rewrite rev_app_distr, rev_involutive, !strip_filter, filter_app;
        rewrite (filter_none _ _ Htr), app_nil_r; reflexivity.
    + apply nosep_blank; [exact Htr|exact I].
  - destruct (Hok (s, t) (or_introl eq_refl)) as [Hs Ht]. cbn [fst snd] in *.
    cbn [more_text flat_map fst snd] in Hn |- *. fold (more_text l) in Hn |- *.
    rewrite <- !app_assoc in Hn |- *. rewrite !app_length in Hn.
    destruct n as [|n]; [lia|]. pose proof (term_start t Ht) as Hst.
    rewrite split_step; [|exact Hs|]. 2:{ destruct (term_text t) as [|c x]; [contradiction|]. cbn. tauto. }
    assert (Hls : (1 <= length (sep_text s))%nat). { destruct s as [w1 w2]. unfold sep_text. cbn. rewrite app_length. cbn. lia. }
    rewrite split_skip; [|lia|now apply nosep_term].
    destruct (IH trail (n - length (term_text t))%nat (rev (term_text t) ++ []) Htr) as (ps & E & Hps).
    + intros p Hp. apply Hok. now right.
    + rewrite app_length. lia.
    + eexists. split; [reflexivity|]. rewrite E. cbn [map snd]. rewrite Hps. rewrite rev_app_distr, rev_involutive. reflexivity.
Qed.
Lemma strip_term : forall t, term_ok t -> strip_all (term_text t) = coef_text (t_coef t) ++ t_sym t.
Proof.
  intros t Ht. rewrite strip_filter. unfold term_text. rewrite !filter_app. destruct Ht as [[Hs Ha] [Hg Hc]] eqn:E. rename E into _E.
  rewrite (filter_none _ _ Hg). cbn. f_equal.
  - apply filter_all. eapply all_impl; [|apply (coef_nows t)]; [|now repeat split].
    intros c Hw. apply negb_true_iff in Hw. apply negb_true_iff. destruct (is_blank c) eqn:B; [|reflexivity]. apply blank_ws in B. congruence.
  - apply filter_all. eapply all_impl; [|apply nows_weaken; exact Ha].
    intros c Hw. apply negb_true_iff in Hw. apply negb_true_iff. destruct (is_blank c) eqn:B; [|reflexivity]. apply blank_ws in B. congruence.
Qed.
Lemma split_side : forall s, side_ok s -> regexp_split (side_text s) = map (fun t => coef_text (t_coef t) ++ t_sym t) (side_terms s).
Proof.
  intros [lead t l trail] (H1 & H2 & H3 & H4). unfold side_terms in *; cbn [s_lead s_trail s_first s_more] in *.
  unfold regexp_split, side_text; cbn [s_lead s_trail s_first s_more]. fold (more_text l).
  assert (Ht : term_ok t) by (apply H3; now left).
  rewrite split_skip; [|rewrite !app_length; lia|].
  2:{ apply nosep_blank; [exact H1|]. pose proof (term_start t Ht) as Hst. destruct (term_text t) as [|c x]; [contradiction|].
      destruct Hst as [Hw Hp]. cbn. rewrite Hw. exact Hp. }
  rewrite split_skip; [|rewrite !app_length; lia|now apply nosep_term].
  destruct (split_more l trail (S (length (lead ++ term_text t ++ more_text l ++ trail)) - length lead - length (term_text t))%nat
     (rev (term_text t) ++ rev lead ++ []) H2) as (ps & E & Hps).
  - intros p Hp. split; [now apply H4|]. apply H3. right. now apply in_map.
  - rewrite !app_length. lia.
  - rewrite E, Hps. cbn [map]. f_equal.
    + rewrite !rev_app_distr, !rev_involutive. cbn [rev app]. rewrite <- (strip_term t Ht), !strip_filter, filter_app, (filter_none _ _ H1). reflexivity.
    + rewrite map_map. apply map_ext_in. intros p Hp. apply strip_term. apply H3. right. now apply in_map.
Qed.

(** *** numbers *)
Lemma numeral_acc : forall s a, fold_left (fun a c => (10 * a + digit c)%Z) s a = (a * 10 ^ Z.of_nat (length s) + numeral s)%Z.
Proof.
  unfold numeral. induction s as [|c s IH]; intros a; cbn [fold_left length]; [cbn; lia|].
  rewrite IH, (IH (10 * 0 + digit c)%Z). rewrite Nat2Z.inj_succ, Z.pow_succ_r by lia. lia.
Qed.
Lemma numeral_app : forall s s', numeral (s ++ s') = (numeral s * 10 ^ Z.of_nat (length s') + numeral s')%Z.
Proof. intros s s'. unfold numeral at 1. rewrite fold_left_app. fold (numeral s). apply numeral_acc. Qed.
Lemma numeral_value : forall s, IZR (numeral s) = digits_value s.
Proof.
  induction s as [|c s IH]; [reflexivity|]. change (c :: s) with ([c] ++ s). rewrite numeral_app, plus_IZR, mult_IZR, IH. cbn.
  f_equal. f_equal.
  - unfold digit, code. now rewrite INR_IZR_INZ.
  - rewrite <- pow_IZR. f_equal. 
Qed.
Lemma noexp : forall s, looks_exponent s = false -> exponent s = (0%Z, s).
Proof.
  intros [|e s]; [reflexivity|]. unfold looks_exponent, exponent. destruct (ceq e "e" || ceq e "E") eqn:Ee; [|reflexivity].
  destruct s as [|c s]; [reflexivity|]. cbn [andb]. rewrite orb_false_iff. intros [Hd Hr].
  destruct (ceq c "-") eqn:Em.
  - cbn in Hr. destruct s as [|d s]; [reflexivity|]. cbn. rewrite Hr. reflexivity.
  - destruct (ceq c "+") eqn:Ep.
    + cbn in Hr. destruct s as [|d s]; [reflexivity|]. cbn. rewrite Hr. reflexivity.
    + cbn. rewrite Hd. reflexivity.
Qed.
Lemma sym_head : forall t, term_ok t -> exists c s, t_sym t = c :: s /\ (is_alpha c = true \/ c = "("%char).
Proof. intros t ((Hs & _) & _). destruct (t_sym t) as [|c s]; [contradiction|]. eauto. Qed.
Lemma coef_ok : forall t, term_ok t -> exists d, extractCoef (coef_text (t_coef t) ++ t_sym t) = Num d (t_sym t) /\ dval d = coef_value (t_coef t).
Proof.
  intros t Ht. destruct (sym_head t Ht) as (c & s & Es & Hst). pose proof (start_facts c Hst) as (F1 & F2 & F3 & F4 & F5 & F6).
  destruct Ht as (_ & _ & Hc). rewrite Es in *. destruct (t_coef t) as [[d1 d2]|].
  - destruct Hc as (Hne & Hd1 & Hd2 & Hexp & Hx). destruct d1 as [|z d1]; [contradiction|].
    assert (Hz : is_digit z = true) by (apply Hd1; now left).
    pose proof (digit_facts z Hz) as (G1 & G2 & G3 & G4 & G5 & G6 & G7 & G8 & _).
    assert (E1 : forall r, extractCoef ((z :: d1) ++ r) = stod_unsigned 1 ((z :: d1) ++ r)).
    { intros r. cbn [app]. unfold extractCoef. rewrite G3, G4. cbn [orb]. rewrite G5, G6. cbn [andb].
      assert (E2 : stod (z :: d1 ++ r) = stod_unsigned 1 (z :: d1 ++ r)).
      { unfold stod. cbn [drop_while]. rewrite G1, G6, G5. reflexivity. }
      destruct (d1 ++ r); exact E2. }
    destruct d2 as [d2|].
    + cbn [coef_text]. rewrite <- app_assoc.
      change (("."%char :: d2) ++ c :: s) with ("."%char :: d2 ++ c :: s). rewrite (E1 ("."%char :: d2 ++ c :: s)). unfold stod_unsigned.
      destruct (take_all is_digit (z :: d1) ("."%char :: d2 ++ c :: s) Hd1 eq_refl) as [T1 T2]. rewrite T1, T2.
      cbn [ceq Ascii.eqb Bool.eqb]. destruct (take_all is_digit d2 (c :: s) Hd2 F3) as [T3 T4]. rewrite T3, T4.
      cbn [app]. rewrite (noexp _ Hexp).
      assert (Hh : match d1 ++ "."%char :: d2 ++ c :: s with x0 :: _ => (ceq x0 "x" || ceq x0 "X") = false | [] => True end).
      { destruct d1 as [|y d1]; cbn [app]; [reflexivity|]. assert (Hy : is_digit y = true) by (apply Hd1; right; now left).
        apply digit_facts in Hy. destruct Hy as (_ & _ & _ & _ & _ & _ & _ & _ & -> & -> & _). reflexivity. }
      destruct (d1 ++ "."%char :: d2 ++ c :: s) as [|x0 rr] eqn:Er; [destruct d1; discriminate|].
      rewrite Hh, andb_false_r. eexists. split; [reflexivity|].
      unfold dval; cbn [fst snd]. cbn [coef_value]. rewrite Z.mul_1_l. change (z :: d1 ++ d2) with ((z :: d1) ++ d2).
      rewrite numeral_app, plus_IZR, mult_IZR, <- !numeral_value.
      assert (Hp : powerRZ 10 (0 - Z.of_nat (length d2)) = / 10 ^ length d2).
      { rewrite Z.sub_0_l, powerRZ_neg', <- powerRZ_inv' . rewrite <- pow_powerRZ. apply pow_inv. }
      rewrite Hp, <- pow_IZR. field. apply pow_nonzero. lra.
    + cbn [coef_text]. rewrite E1. unfold stod_unsigned.
      destruct (take_all is_digit (z :: d1) (c :: s) Hd1 F3) as [T1 T2]. rewrite T1, T2. rewrite F5.
      rewrite app_nil_r. cbn [app].
      rewrite (noexp _ Hexp).
      assert (Hh : match d1 ++ c :: s with x0 :: _ => (ceq x0 "x" || ceq x0 "X") = false | [] => True end).
      { destruct d1 as [|y d1]; cbn [app].
        - destruct Hx as [X1 X2]. unfold ceq. apply Ascii.eqb_neq in X1. apply Ascii.eqb_neq in X2. now rewrite X1, X2.
        - assert (Hy : is_digit y = true) by (apply Hd1; right; now left).
          apply digit_facts in Hy. destruct Hy as (_ & _ & _ & _ & _ & _ & _ & _ & -> & -> & _). reflexivity. }
      destruct (d1 ++ c :: s) as [|x0 rr] eqn:Er; [destruct d1; discriminate|].
      rewrite Hh, andb_false_r. eexists. split; [reflexivity|].
      unfold dval; cbn [fst snd length]. cbn [coef_value]. rewrite Z.mul_1_l, numeral_value. cbn. lra.
  - cbn. rewrite F6. eexists. split; [reflexivity|]. unfold dval; cbn. lra.
Qed.

(** *** entering the terms *)
Definition occ (sg : R) (ts : list term) : list (string * R) :=
  map (fun t => (string_of_list_ascii (t_sym t), sg * coef_value (t_coef t))) ts.
Lemma enter_step : forall f p ps m d r, extractCoef p = Num d r -> r <> [] -> enter f (p :: ps) m = enter f ps (mset (string_of_list_ascii r) (f d) m).
Proof. intros f p ps m d r E Hr. cbn [enter]. rewrite E. destruct r; [contradiction|reflexivity]. Qed.
Lemma enter_terms : forall f sg ts m, (forall d, dval (f d) = sg * dval d) -> (forall t, In t ts -> term_ok t) -> sorted m ->
  exists m', enter f (map (fun t => coef_text (t_coef t) ++ t_sym t) ts) m = Some m' /\ sorted m' /\
    forall x, option_map dval (mfind x m') = last_of x (occ sg ts) (option_map dval (mfind x m)).
Proof.
  intros f sg ts. induction ts as [|t ts IH]; intros m Hf Hts Hm.
  - exists m. repeat split. exact Hm.
  - assert (Ht : term_ok t) by (apply Hts; now left).
    destruct (coef_ok t Ht) as (d & Ed & Hd). destruct (sym_head t Ht) as (c & s & Es & _).
    cbn [map]. rewrite (enter_step _ _ _ _ _ _ Ed) by (rewrite Es; discriminate).
    destruct (IH (mset (string_of_list_ascii (t_sym t)) (f d) m) Hf) as (m' & E & Hs & Hv).
    + intros t' Ht'. apply Hts. now right.
    + now apply sorted_set.
    + exists m'. split; [exact E|]. split; [exact Hs|]. intros x. rewrite Hv. cbn [occ map last_of fst snd].
      f_equal. rewrite find_set by exact Hm. unfold aset. rewrite String.eqb_sym.
      destruct (String.eqb _ x); [|reflexivity]. cbn. now rewrite Hf, Hd.
Qed.
Lemma last_app : forall x l l' d, last_of x (l ++ l') d = last_of x l' (last_of x l d).
Proof. intros x l. induction l as [|p l IH]; intros l' d; cbn; [reflexivity|apply IH]. Qed.
Lemma noeq_side : forall s, side_ok s -> all (fun c => negb (ceq c "=")) (side_text s).
Proof.
  intros [lead t l trail] (H1 & H2 & H3 & H4). unfold side_terms in *; cbn [s_lead s_trail s_first s_more] in *.
  assert (B : forall c, is_ws c = true -> negb (ceq c "=") = true).
  { intros c. enough (implb (is_ws c) (negb (ceq c "=")) = true) by (destruct (is_ws c); auto; discriminate). revert c. chars. }
  assert (T : forall t, term_ok t -> all (fun c => negb (ceq c "=")) (term_text t)).
  { intros t0 ((_ & Ha) & Hg & Hc). unfold term_text. apply all_app. split; [|apply all_app; split].
    - assert (Dg : forall c, is_digit c = true -> negb (ceq c "=") = true) by (intros c Hd; apply digit_facts in Hd; apply negb_true_iff; tauto).
      destruct (t_coef t0) as [[d1 [d2|]]|]; cbn; [| |intros c []].
      + destruct Hc as (_ & A1 & A2 & _). apply all_app. split; [|apply all_cons; split; [reflexivity|]]; eapply all_impl; eassumption.
      + destruct Hc as (_ & A1 & _). eapply all_impl; eassumption.
    - eapply all_impl; [|exact Hg]. intros c Hb. apply B. now apply blank_ws.
    - eapply all_impl; [|exact Ha]. intros c Hb. now apply andb_true_iff in Hb. }
  unfold side_text; cbn [s_lead s_trail s_first s_more]. apply all_app. split; [|apply all_app; split; [|apply all_app; split]].
  - eapply all_impl; [|exact H1]. intros c Hb. apply B. now apply blank_ws.
  - apply T, H3. now left.
  - assert (Hm : forall p, In p l -> sep_ok (fst p) /\ term_ok (snd p)).
    { intros p Hp. split; [now apply H4|]. apply H3. right. now apply in_map. }
    clear -Hm T B. induction l as [|[s t0] l IH]; cbn [flat_map fst snd]; [intros c []|]. apply all_app. split.
    + destruct (Hm (s, t0) (or_introl eq_refl)) as [(_ & _ & W1 & W2) Ht]. cbn [fst snd] in *. apply all_app. split; [|now apply T].
      unfold sep_text. apply all_app. split; [|apply all_cons; split; [reflexivity|]]; eapply all_impl; eassumption.
    + apply IH. intros p Hp. apply Hm. now right.
  - eapply all_impl; [|exact H2]. intros c Hb. apply B. now apply blank_ws.
Qed.
Lemma before_after : forall a b, all (fun c => negb (ceq c "=")) a -> before_eq (a ++ "="%char :: b) = a /\ after_eq (a ++ "="%char :: b) = Some b.
Proof.
  induction a as [|c a IH]; intros b Ha; [split; reflexivity|]. apply all_cons in Ha. destruct Ha as [Hc Ha]. apply negb_true_iff in Hc.
  cbn. rewrite Hc. destruct (IH b Ha) as [-> ->]. split; reflexivity.
Qed.
(** the coefficient of a species after parsing is that of its last occurrence, or the one it had *)
Lemma equation_last : forall l r m0, side_ok l -> side_ok r -> sorted m0 ->
  exists m, fromEquation (equation_text l r) m0 = Some m /\ sorted m /\
    forall x, option_map dval (mfind x m) = last_of x (occurrences l r) (option_map dval (mfind x m0)).
Proof.
  intros l r m0 Hl Hr Hm. unfold fromEquation, equation_text.
  destruct (before_after (side_text l) (side_text r) (noeq_side l Hl)) as [-> ->]. rewrite !split_side by assumption.
  destruct (enter_terms dneg (-1) (side_terms l) m0) as (m1 & -> & Hs1 & V1).
  - intros [a b]. unfold dval, dneg; cbn. rewrite opp_IZR. lra.
  - apply Hl.
  - exact Hm.
  - destruct (enter_terms (fun d => d) 1 (side_terms r) m1) as (m2 & -> & Hs2 & V2).
    + intros d. lra.
    + apply Hr.
    + exact Hs1.
    + exists m2. split; [reflexivity|]. split; [exact Hs2|]. intros x. rewrite V2, V1. unfold occurrences. rewrite last_app.
      assert (O : forall sg ts f, (forall y, f y = sg * y) -> occ sg ts = map (fun t => (string_of_list_ascii (t_sym t), f (coef_value (t_coef t)))) ts).
      { intros sg ts f Hf. unfold occ. apply map_ext. intros t. now rewrite Hf. }
      rewrite (O (-1) _ Ropp) by (intros; lra). rewrite (O 1 _ (fun y => y)) by (intros; lra). reflexivity.
Qed.
(** distinct species: parsing inverts writing *)
Lemma last_notin : forall x l d, ~ In x (map fst l) -> last_of x l d = d.
Proof.
  intros x l. induction l as [|[k v] l IH]; intros d Hn; cbn in *; [reflexivity|].
  destruct (String.eqb_spec k x) as [->|_]; [tauto|]. apply IH. tauto.
Qed.
Lemma last_in : forall x c l d, NoDup (map fst l) -> In (x, c) l -> last_of x l d = Some c.
Proof.
  intros x c l. induction l as [|[k v] l IH]; intros d Hn Hi; [contradiction|]. cbn in *. inversion Hn; subst. destruct Hi as [Hi|Hi].
  - inversion Hi; subst. rewrite String.eqb_refl. now apply last_notin.
  - apply IH; assumption.
Qed.
Lemma round_trip : forall l r, side_ok l -> side_ok r -> NoDup (map fst (occurrences l r)) ->
  exists m, fromEquation (equation_text l r) [] = Some m /\
    forall x c, (exists d, mfind x m = Some d /\ dval d = c) <-> In (x, c) (occurrences l r).
Proof.
  intros l r Hl Hr Hn. destruct (equation_last l r [] Hl Hr) as (m & E & _ & V); [constructor|].
  exists m. split; [exact E|]. intros x c. specialize (V x). change (option_map dval (mfind x [])) with (@None R) in V. split.
  - intros (d & Hd & Hc). rewrite Hd in V. cbn [option_map] in V.
    destruct (in_dec string_dec x (map fst (occurrences l r))) as [Hi|Hi].
    + apply in_map_iff in Hi. destruct Hi as ([x' c'] & Hx & Hi). cbn in Hx. subst x'.
      rewrite (last_in x c' _ None Hn Hi) in V. inversion V as [Q]. rewrite <- Hc. rewrite Q. exact Hi.
    + rewrite last_notin in V by exact Hi. discriminate.
  - intros Hi. rewrite (last_in x c _ None Hn Hi) in V. destruct (mfind x m) as [d|]; [|discriminate]. exists d. split; [reflexivity|]. cbn [option_map] in V. congruence.
Qed.

(** *** net coefficients *)
Lemma net_notin : forall x l, ~ In x (map fst l) -> net x l = 0.
Proof.
  intros x l. induction l as [|[k v] l IH]; cbn; intros Hn; [reflexivity|].
  destruct (String.eqb_spec k x) as [->|_]; [tauto|]. unfold net in IH. rewrite IH by tauto. lra.
Qed.
Lemma net_distinct : forall x c l, NoDup (map fst l) -> In (x, c) l -> net x l = c.
Proof.
  intros x c l. induction l as [|[k v] l IH]; intros Hn Hi; [contradiction|]. cbn in *. inversion Hn; subst. destruct Hi as [Hi|Hi].
  - inversion Hi; subst. rewrite String.eqb_refl. pose proof (net_notin x l H1) as Hz. unfold net in Hz. rewrite Hz. lra.
  - destruct (String.eqb_spec k x) as [->|_].
    + exfalso. apply H1. change x with (fst (x, c)). now apply in_map.
    + pose proof (IH H2 Hi) as Hz. unfold net in Hz. rewrite Hz. lra.
Qed.
Lemma net_iff_distinct : forall l r, side_ok l -> side_ok r -> NoDup (map fst (occurrences l r)) ->
  exists m, fromEquation (equation_text l r) [] = Some m /\
    forall x, match mfind x m with Some d => dval d | None => 0 end = net x (occurrences l r).
Proof.
  intros l r Hl Hr Hn. destruct (equation_last l r [] Hl Hr) as (m & E & _ & V); [constructor|].
  exists m. split; [exact E|]. intros x. specialize (V x). change (option_map dval (mfind x [])) with (@None R) in V.
  destruct (in_dec string_dec x (map fst (occurrences l r))) as [Hi|Hi].
  - apply in_map_iff in Hi. destruct Hi as ([x' c'] & Hx & Hi). cbn in Hx. subst x'.
    rewrite (last_in x c' _ None Hn Hi) in V. rewrite (net_distinct x c' _ Hn Hi).
    destruct (mfind x m); cbn [option_map] in V; congruence.
  - rewrite last_notin in V by exact Hi. rewrite net_notin by exact Hi. destruct (mfind x m); [discriminate|reflexivity].
Qed.

(** *** concrete equations *)
Definition txt := list_ascii_of_string.
Definition sp : sep := (txt " ", txt " ").
Definition bare (s : string) : term := mkTerm None [] (txt s).
Definition times (n s : string) : term := mkTerm (Some (txt n, None)) [] (txt s).
Definition eqA2 : side := mkSide [] (bare "A") [(sp, bare "A")] (txt " ").
Definition eqB : side := mkSide (txt " ") (bare "B") [] [].
Ltac allc := intros ?c ?H; repeat (destruct H as [<-|H]; [reflexivity|]); destruct H.
Ltac term_ok := split; [split; [cbn; auto|allc]|split; [allc|cbn; auto]].
Lemma sp_ok : sep_ok sp. Proof. repeat split; try discriminate; allc. Qed.
Lemma eqA2_ok : side_ok eqA2.
Proof.
  split; [allc|]. split; [allc|]. split.
  - intros t Ht. repeat (destruct Ht as [<-|Ht]); [term_ok|term_ok|destruct Ht].
  - intros p Hp. destruct Hp as [<-|[]]. exact sp_ok.
Qed.
Lemma eqB_ok : side_ok eqB.
Proof.
  split; [allc|]. split; [allc|]. split.
  - intros t Ht. repeat (destruct Ht as [<-|Ht]); [term_ok|destruct Ht].
  - intros p [].
Qed.
(** A + A = B *)
Lemma duplicate_lost : exists l r x m, side_ok l /\ side_ok r /\ fromEquation (equation_text l r) [] = Some m /\
  match mfind x m with Some d => dval d | None => 0 end <> net x (occurrences l r).
Proof.
  exists eqA2, eqB, "A"%string. eexists. split; [exact eqA2_ok|]. split; [exact eqB_ok|]. split; [vm_compute; reflexivity|].
  assert (Q : net "A" (occurrences eqA2 eqB) = -2) by (cbn; lra). rewrite Q. vm_compute (mfind _ _). unfold dval. cbn [fst snd]. rewrite powerRZ_O. intros Q2. lra.
Qed.
(** 2 HCO3- + 0.5O2(aq) = e- + 1.25 (OH)x *)
Definition eqL : side := mkSide (txt "  ") (mkTerm (Some (txt "2", None)) (txt " ") (txt "HCO3-"))
  [((txt " ", txt "  "), mkTerm (Some (txt "0", Some (txt "5"))) [] (txt "O2(aq)"))] (txt " ").
Definition eqR : side := mkSide (txt " ") (mkTerm (Some (txt "10", None)) [] (txt "e-"))
  [(sp, mkTerm (Some (txt "1", Some (txt "25"))) (txt " ") (txt "(OH)x"))] [].
Lemma eqL_ok : side_ok eqL.
Proof.
  split; [allc|]. split; [allc|]. split.
  - intros t Ht. destruct Ht as [<-|[<-|[]]]; (split; [split; [cbn; auto|allc]|split; [allc|]]);
      (split; [discriminate|]); (split; [allc|]); (split; [cbn; auto; allc|]); (split; [reflexivity|]); split; discriminate.
  - intros p [<-|[]]. repeat split; try discriminate; allc.
Qed.
Lemma eqR_ok : side_ok eqR.
Proof.
  split; [allc|]. split; [allc|]. split.
  - intros t Ht. destruct Ht as [<-|[<-|[]]]; (split; [split; [cbn; auto|allc]|split; [allc|]]);
      (split; [discriminate|]); (split; [allc|]); (split; [cbn; auto; allc|]); (split; [reflexivity|]); split; discriminate.
  - intros p [<-|[]]. exact sp_ok.
Qed.
Lemma eqLR_distinct : NoDup (map fst (occurrences eqL eqR)).
Proof. cbn. repeat constructor; cbn; intros H; repeat (destruct H as [H|H]; [discriminate|]); exact H. Qed.
