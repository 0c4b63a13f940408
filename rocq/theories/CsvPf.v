From Coq Require Import String Ascii List Bool Arith Lia.
From Verif Require Import CsvModel CsvSpec.
Import ListNotations.
Open Scope list_scope.
Open Scope char_scope.

Lemma strip_some : forall sep s r, strip sep s = Some r <-> s = sep ++ r.
Proof.
  induction sep as [|a sep IH]; intros s r; cbn.
  - split; intro H; [now inversion H|now rewrite H].
  - destruct s as [|b s]; [split; discriminate|]. destruct (Ascii.eqb a b) eqn:E.
    + apply Ascii.eqb_eq in E. subst b. rewrite IH. split; [now intros ->|]. intro H. now inversion H.
    + split; [discriminate|]. intro H. inversion H. subst. rewrite Ascii.eqb_refl in E. discriminate.
Qed.
Lemma cut_some : forall sep s a b, cut sep s = Some (a, b) -> s = a ++ sep ++ b /\ (sep <> [] -> ~ occurs sep a).
Proof.
  intros sep s. induction s as [|c s IH]; intros a b H; cbn in H.
  - destruct (strip sep []) eqn:E; [|discriminate]. inversion H; subst. apply strip_some in E. split; [exact E|]. intros N [x [y K]]. destruct x; [|discriminate]. cbn in K. destruct sep; [contradiction|discriminate].
  - destruct (strip sep (c :: s)) eqn:E.
    + inversion H; subst. apply strip_some in E. split; [exact E|]. intros N [x [y K]]. destruct x; [|discriminate]. cbn in K. destruct sep; [contradiction|discriminate].
    + destruct (cut sep s) as [[a' b']|] eqn:E2; [|discriminate]. inversion H; subst. destruct (IH _ _ eq_refl) as [-> K]. split; [reflexivity|].
      intros N [x [y L]]. destruct x as [|x0 x]; cbn in L.
      * assert (Hs : strip sep (c :: a' ++ sep ++ b) = Some (y ++ sep ++ b)) by (apply strip_some; change (c :: a' ++ sep ++ b) with ((c :: a') ++ sep ++ b); rewrite L; now rewrite <- app_assoc).
        congruence.
      * inversion L; subst. apply (K N). now exists x, y.
Qed.
Lemma cut_none : forall sep s, cut sep s = None -> ~ occurs sep s.
Proof.
  intros sep s. induction s as [|c s IH]; intros H [x [y L]]; cbn in H.
  - destruct (strip sep []) eqn:E; [discriminate|]. destruct x; [|discriminate]. cbn in L. assert (strip sep [] = Some y) by now apply strip_some. congruence.
  - destruct (strip sep (c :: s)) eqn:E; [discriminate|]. destruct (cut sep s) as [[a' b']|] eqn:E2; [discriminate|].
    destruct x as [|x0 x]; cbn in L.
    + assert (strip sep (c :: s) = Some y) by now apply strip_some. congruence.
    + inversion L; subst. apply IH; [reflexivity|]. now exists x, y.
Qed.
Lemma replace_from_spec : forall sep rep fuel s d, sep <> [] -> length s < fuel ->
  exists l r, l <> [] /\ s = join sep l /\ r = join rep l /\ Forall (fun x => ~ occurs sep x) l /\ replace_from fuel sep rep d s = Some (d ++ r).
Proof.
  intros sep rep fuel. induction fuel as [|fuel IH]; intros s d N F; [lia|]. cbn. destruct (cut sep s) as [[a b]|] eqn:E.
  - destruct (cut_some _ _ _ _ E) as [-> K]. assert (L : length b < fuel) by (rewrite !app_length in F; destruct sep; [contradiction|cbn in F; lia]).
    destruct (IH b (d ++ a ++ rep) N L) as [l [r [Hl [-> [-> [Hf ->]]]]]]. exists (a :: l), (a ++ rep ++ join rep l). split; [discriminate|].
    destruct l as [|l0 l]; [contradiction|]. split; [reflexivity|]. split; [reflexivity|]. split; [constructor; [now apply K|exact Hf]|]. now rewrite <- !app_assoc.
  - exists [s], s. split; [discriminate|]. split; [reflexivity|]. split; [reflexivity|]. split; [|reflexivity]. constructor; [now apply cut_none|constructor].
Qed.
(** an occurrence of a text without '_' lies inside one of the pieces around '_' *)
Lemma straddle : forall (u : ascii) sep a b, sep <> [] -> ~ In u sep -> occurs sep (a ++ u :: b) -> occurs sep a \/ occurs sep b.
Proof.
  intros u sep a b N F [x [y H]]. revert a H. induction x as [|x0 x IH]; intros a H.
  - cbn in H. left. revert sep N F H. induction a as [|a0 a IHa]; intros sep N F H.
    + destruct sep as [|s0 sep]; [contradiction|]. cbn in H. inversion H; subst. exfalso. apply F. now left.
    + destruct sep as [|s0 sep]; [contradiction|]. cbn in H. inversion H; subst.
      destruct sep as [|s1 sep]; [now exists [], a|].
      destruct (IHa (s1 :: sep)) as [p [q K]]; [discriminate|intro I; apply F; now right|assumption|].
      clear IHa. assert (G : forall (t a : text), ~ In u t -> a ++ u :: b = t ++ y -> exists r, a = t ++ r).
      { clear. intro t. induction t as [|t0 t IH]; intros a F H; [now exists a|]. destruct a as [|a0 a]; cbn in H; inversion H; subst.
        - exfalso. apply F. now left.
        - destruct (IH a) as [r ->]; [intro I; apply F; now right|assumption|]. now exists r. }
      destruct (G (s1 :: sep) a) as [r ->]; [intro I; apply F; now right|assumption|]. exists [], r. reflexivity.
  - destruct a as [|a0 a]; cbn in H; inversion H; subst.
    + right. now exists x, y.
    + destruct (IH a) as [[p [q ->]]|K]; [assumption| |now right]. left. now exists (x0 :: p), q.
Qed.
Lemma join_free : forall u sep l, sep <> [] -> ~ In u sep -> l <> [] -> Forall (fun x => ~ occurs sep x) l -> ~ occurs sep (join [u] l).
Proof.
  intros u sep l N F. induction l as [|x l IH]; intros Hl Hf O; [contradiction|]. inversion Hf; subst. destruct l as [|y l]; [now apply H1|].
  cbn in O. change (x ++ u :: join [u] (y :: l)) with (x ++ u :: join [u] (y :: l)) in O.
  destruct (straddle u sep x (join [u] (y :: l)) N F O) as [K|K]; [now apply H1|]. now apply IH.
Qed.
Theorem replace_ok : forall sep s, sep <> [] -> ~ In "_" sep ->
  exists l r, find_and_replace (S (length s)) s sep ["_"] = Some r /\ s = join sep l /\ r = join ["_"] l /\ Forall (fun x => ~ occurs sep x) l /\ ~ occurs sep r.
Proof.
  intros sep s N F. destruct (replace_from_spec sep ["_"] (S (length s)) s [] N (Nat.lt_succ_diag_r _)) as [l [r [Hl [Hs [Hr [Hf He]]]]]].
  exists l, r. split; [exact He|]. split; [exact Hs|]. split; [exact Hr|]. split; [exact Hf|]. rewrite Hr. now apply join_free.
Qed.
Lemma replace_fuel : forall sep rep s n r d, replace_from n sep rep d s = Some r -> forall m, n <= m -> replace_from m sep rep d s = Some r.
Proof.
  intros sep rep s n. revert s. induction n as [|n IH]; intros s r d H m L; [discriminate|]. destruct m as [|m]; [lia|]. cbn in H |- *. destruct (cut sep s) as [[a b]|]; [|exact H].
  apply IH with (m := m) in H; [exact H|lia].
Qed.
Theorem replace_empty : forall fuel s rep, find_and_replace fuel s [] rep = None.
Proof. unfold find_and_replace. intros fuel s rep. generalize (@nil ascii) at 2 as d. revert s. induction fuel as [|fuel IH]; intros s d; [reflexivity|]. cbn. destruct s; cbn; apply IH. Qed.
Lemma replace_none : forall n sep rep s, ~ occurs sep s -> find_and_replace (S n) s sep rep = Some s.
Proof.
  intros n sep rep s H. unfold find_and_replace. cbn. destruct (cut sep s) as [[a b]|] eqn:E; [|reflexivity]. exfalso. apply H. destruct (cut_some _ _ _ _ E) as [-> _]. now exists a, b.
Qed.
Lemma occurs_one : forall c s, occurs [c] s <-> In c s.
Proof.
  intros c s. split.
  - intros [a [b ->]]. apply in_or_app. right. now left.
  - intro H. apply in_split in H. destruct H as [a [b ->]]. now exists a, b.
Qed.
(** replacing a text by itself changes nothing *)
Lemma replace_same : forall sep s, sep <> [] -> find_and_replace (S (length s)) s sep sep = Some s.
Proof.
  intros sep s N. destruct (replace_from_spec sep sep (S (length s)) s [] N (Nat.lt_succ_diag_r _)) as [l [r [_ [Hs [Hr [_ He]]]]]]. unfold find_and_replace. rewrite He. cbn. now rewrite Hr, <- Hs.
Qed.

(** *** the reader *)
Lemma split_free : forall c s, free c s -> split c s = [s].
Proof.
  intros c s. induction s as [|x s IH]; intro F; [reflexivity|]. cbn. destruct (Ascii.eqb x c) eqn:E.
  - apply Ascii.eqb_eq in E. exfalso. apply F. now left.
  - rewrite IH; [reflexivity|]. intro I. apply F. now right.
Qed.
Lemma split_app : forall c s t, free c s -> split c (s ++ c :: t) = s :: split c t.
Proof.
  intros c s t. induction s as [|x s IH]; intro F.
  - cbn. now rewrite Ascii.eqb_refl.
  - cbn. destruct (Ascii.eqb x c) eqn:E.
    + apply Ascii.eqb_eq in E. exfalso. apply F. now left.
    + rewrite IH; [reflexivity|]. intro I. apply F. now right.
Qed.
Lemma split_cells : forall c s l, free c s -> Forall (free c) l -> split c (s ++ cells_text [c] l) = s :: l.
Proof.
  intros c s l. revert s. induction l as [|x l IH]; intros s F H.
  - cbn. rewrite app_nil_r. now apply split_free.
  - inversion H; subst. change (cells_text [c] (x :: l)) with (c :: (x ++ cells_text [c] l)). rewrite split_app by assumption. now rewrite IH.
Qed.
Lemma split_file : forall l, Forall (free nl) l -> split nl (file_text l) = l ++ [[]].
Proof.
  induction l as [|x l IH]; intro H; [reflexivity|]. inversion H; subst. change (file_text (x :: l)) with ((x ++ [nl]) ++ file_text l). rewrite <- app_assoc. cbn [app].
  rewrite split_app by assumption. now rewrite IH.
Qed.
Lemma read_file : forall c l, Forall (free nl) l -> read c (file_text l) = map (split c) l.
Proof. intros c l H. unfold read. rewrite split_file by assumption. now rewrite removelast_last. Qed.
Lemma split_free_all : forall c s, Forall (free c) (split c s).
Proof.
  intros c s. induction s as [|x s IH]; cbn; [constructor; [intros []|constructor]|]. destruct (Ascii.eqb x c) eqn:E; [constructor; [intros []|assumption]|].
  destruct (split c s) as [|f fs]; [constructor; [|constructor]|inversion IH; subst; constructor; [|assumption]].
  - intros [H|[]]. subst. rewrite Ascii.eqb_refl in E. discriminate.
  - intros [H|H]; [subst; rewrite Ascii.eqb_refl in E; discriminate|contradiction].
Qed.

Lemma clean_free : forall c s, c <> "_" -> free c (clean c s).
Proof.
  intros c s N H. unfold clean in H. apply in_map_iff in H. destruct H as [x [E _]]. destruct (Ascii.eqb x c) eqn:B; [congruence|]. subst. rewrite Ascii.eqb_refl in B. discriminate.
Qed.
Lemma clean_id : forall c s, free c s -> clean c s = s.
Proof.
  intros c s. induction s as [|x s IH]; intro F; [reflexivity|]. cbn. destruct (Ascii.eqb x c) eqn:E.
  - apply Ascii.eqb_eq in E. exfalso. apply F. now left.
  - f_equal. apply IH. intro I. apply F. now right.
Qed.
Lemma clean_join : forall c l, Forall (free c) l -> clean c (join [c] l) = join ["_"] l.
Proof.
  intros c l. induction l as [|x l IH]; intro H; [reflexivity|]. inversion H; subst. destruct l as [|y l]; [now apply clean_id|].
  change (join [c] (x :: y :: l)) with (x ++ c :: join [c] (y :: l)). change (join ["_"] (x :: y :: l)) with (x ++ "_" :: join ["_"] (y :: l)).
  unfold clean. rewrite map_app. cbn [map]. rewrite Ascii.eqb_refl. fold (clean c x). fold (clean c (join [c] (y :: l))). rewrite IH by assumption. now rewrite clean_id.
Qed.
(** with a one-character separator every occurrence becomes '_' *)
Theorem replace_char : forall c s n, length s <= n -> find_and_replace (S n) s [c] ["_"] = Some (clean c s).
Proof.
  intros c s n L. destruct (replace_from_spec [c] ["_"] (S n) s []) as [l [r [_ [Hs [Hr [Hf He]]]]]]; [discriminate|lia|].
  unfold find_and_replace. rewrite He. cbn [app]. rewrite Hs, clean_join; [now rewrite Hr|]. eapply Forall_impl; [|exact Hf]. intros a K I. apply K. now apply occurs_one.
Qed.
Theorem row_read : forall c sym T P vals n, c <> "_" -> free c T -> free c P -> Forall (free c) vals -> length sym <= n ->
  exists row, csv_row (S n) [c] sym T P vals = Some row /\ split c row = clean c sym :: T :: P :: vals.
Proof.
  intros c sym T P vals n N FT FP FV L. unfold csv_row. rewrite replace_char by assumption. cbn [option_map]. eexists. split; [reflexivity|].
  apply split_cells; [now apply clean_free|]. constructor; [assumption|]. now constructor.
Qed.
Lemma free_app : forall c a b, free c a -> free c b -> free c (a ++ b).
Proof. intros c a b H K I. apply in_app_or in I. destruct I; [now apply H|now apply K]. Qed.
Lemma free_b : forall c s, forallb (fun x => negb (Ascii.eqb x c)) s = true -> free c s.
Proof. intros c s H I. rewrite forallb_forall in H. apply H in I. now rewrite Ascii.eqb_refl in I. Qed.
Lemma plain_in : forall c s, plain_sep c -> (forall x, In x s -> In x (txt "SymbolPropertyT()_")) -> free c s.
Proof. intros c s H K I. unfold plain_sep in H. rewrite forallb_forall in H. apply K in I. apply H in I. now rewrite Ascii.eqb_refl in I. Qed.
Ltac pl := apply plain_in; [assumption|let x := fresh in let I := fresh in intros x I; cbn in I |- *; intuition].
Theorem header_read : forall c uT uP props, plain_sep c -> free c uT -> free c uP -> Forall (fun p => free c (fst p) /\ free c (snd p)) props ->
  split c (csv_header [c] uT uP props) = txt "Symbol" :: (txt "T(" ++ uT ++ [")"]) :: (txt "P(" ++ uP ++ [")"]) :: map (fun p => fst p ++ ["("] ++ snd p ++ [")"]) props.
Proof.
  intros c uT uP props H FT FP FV. unfold csv_header. apply split_cells; [pl|].
  constructor; [apply free_app; [pl|]; apply free_app; [assumption|pl]|]. constructor; [apply free_app; [pl|]; apply free_app; [assumption|pl]|].
  apply Forall_map. eapply Forall_impl; [|exact FV]. intros [p u] [K1 K2]. apply free_app; [assumption|]. apply free_app; [pl|]. apply free_app; [assumption|pl].
Qed.
Lemma all_some_map : forall (A B : Type) (f : A -> option B) (g : A -> B) l, (forall a, In a l -> f a = Some (g a)) -> all_some (map f l) = Some (map g l).
Proof. intros A B f g l. induction l as [|a l IH]; intro H; [reflexivity|]. cbn. rewrite H by now left. rewrite IH; [reflexivity|]. intros; apply H; now right. Qed.
Theorem header_t_read : forall c uT uP syms n, plain_sep c -> free c uT -> free c uP -> Forall (fun s => length s <= n) syms ->
  exists h, csv_header_t (S n) [c] uT uP syms = Some h /\ split c h = txt "Property" :: (txt "T(" ++ uT ++ [")"]) :: (txt "P(" ++ uP ++ [")"]) :: map (clean c) syms.
Proof.
  intros c uT uP syms n H FT FP L. unfold csv_header_t. rewrite (all_some_map _ _ _ (clean c)) by (intros a I; apply replace_char; rewrite Forall_forall in L; now apply L).
  cbn [option_map]. eexists. split; [reflexivity|]. assert (N : c <> "_") by (intros ->; vm_compute in H; discriminate).
  apply split_cells; [pl|]. constructor; [apply free_app; [pl|]; apply free_app; [assumption|pl]|]. constructor; [apply free_app; [pl|]; apply free_app; [assumption|pl]|].
  apply Forall_map. apply Forall_forall. intros; now apply clean_free.
Qed.
Theorem row_t_read : forall c prop unit T P vals n, plain_sep c -> free c unit -> free c T -> free c P -> Forall (free c) vals -> length prop <= n ->
  exists row, csv_row_t (S n) [c] prop unit T P vals = Some row /\ split c row = (clean c prop ++ ["("] ++ unit ++ [")"]) :: T :: P :: vals.
Proof.
  intros c prop unit T P vals n H FU FT FP FV L. unfold csv_row_t. rewrite replace_char by assumption. cbn [option_map]. eexists. split; [reflexivity|].
  assert (N : c <> "_") by (intros ->; vm_compute in H; discriminate).
  apply split_cells; [apply free_app; [now apply clean_free|]; apply free_app; [pl|]; apply free_app; [assumption|pl]|]. constructor; [assumption|]. now constructor.
Qed.
