From Coq Require Import String Ascii List Bool Arith Lia.
From Verif Require Import CsvModel CsvSpec CsvPf CsvSet.
Import ListNotations.
Open Scope list_scope.
Open Scope char_scope.

Lemma free_cells : forall c x l, free nl x -> c <> nl -> Forall (free nl) l -> free nl (x ++ cells_text [c] l).
Proof.
  intros c x l Hx N. revert x Hx. induction l as [|y l IH]; intros x Hx H; [cbn; now rewrite app_nil_r|]. inversion H; subst.
  change (cells_text [c] (y :: l)) with (c :: (y ++ cells_text [c] l)). apply free_app; [exact Hx|]. intros [K|K]; [now apply N|]. now apply (IH y H2 H3).
Qed.
Lemma clean_nl : forall c s, free nl s -> free nl (clean c s).
Proof. intros c s F H. unfold clean in H. apply in_map_iff in H. destruct H as [x [E I]]. destruct (Ascii.eqb x c); [discriminate|]. subst. now apply F. Qed.
Lemma row_line : forall c n l, c <> "_" -> c <> nl -> line_ok c n l ->
  exists row, csv_row (S n) [c] (l_sym l) (l_T l) (l_P l) (l_vals l) = Some row /\ free nl row /\ split c row = clean c (l_sym l) :: l_T l :: l_P l :: l_vals l.
Proof.
  intros c n [s T P vs] N M [L [F H]]. cbn in *. inversion H as [|? ? [HT1 HT2] H']; subst. inversion H' as [|? ? [HP1 HP2] Hv]; subst.
  assert (V1 : Forall (free c) vs) by (eapply Forall_impl; [|exact Hv]; now intros a [? _]). assert (V2 : Forall (free nl) vs) by (eapply Forall_impl; [|exact Hv]; now intros a [_ ?]).
  unfold csv_row. rewrite replace_char by assumption. cbn [option_map]. eexists. split; [reflexivity|]. split.
  - apply free_cells; [now apply clean_nl|exact M|]. constructor; [exact HT2|]. now constructor.
  - apply split_cells; [now apply clean_free|]. constructor; [exact HT1|]. now constructor.
Qed.
Lemma all_rows : forall c n ls, c <> "_" -> c <> nl -> Forall (line_ok c n) ls ->
  exists rows, all_some (map (fun l => csv_row (S n) [c] (l_sym l) (l_T l) (l_P l) (l_vals l)) ls) = Some rows /\ Forall (free nl) rows /\
  map (split c) rows = map (fun l => clean c (l_sym l) :: l_T l :: l_P l :: l_vals l) ls.
Proof.
  intros c n ls N M. induction ls as [|l ls IH]; intro H; [exists []; now split|]. inversion H; subst. destruct (IH H3) as [rows [A [B C]]].
  destruct (row_line c n l N M H2) as [row [A0 [B0 C0]]]. exists (row :: rows). split; [cbn [map all_some]; rewrite A0, A; reflexivity|]. split; [now constructor|]. cbn [map]. now rewrite C, C0.
Qed.
Lemma free_nl_b : forall s, forallb (fun x => negb (Ascii.eqb x nl)) s = true -> free nl s. Proof. apply free_b. Qed.
Theorem table_read : forall c n uT uP props ls, plain_sep c -> c <> nl -> free c uT -> free nl uT -> free c uP -> free nl uP ->
  Forall (fun p => (free c (fst p) /\ free nl (fst p)) /\ free c (snd p) /\ free nl (snd p)) props -> Forall (line_ok c n) ls ->
  exists rows, all_some (map (fun l => csv_row (S n) [c] (l_sym l) (l_T l) (l_P l) (l_vals l)) ls) = Some rows /\
  read c (file_text (csv_header [c] uT uP props :: rows)) =
  (txt "Symbol" :: (txt "T(" ++ uT ++ [")"]) :: (txt "P(" ++ uP ++ [")"]) :: map (fun p => fst p ++ ["("] ++ snd p ++ [")"]) props) ::
  map (fun l => clean c (l_sym l) :: l_T l :: l_P l :: l_vals l) ls.
Proof.
  intros c n uT uP props ls H M A1 A2 B1 B2 Hp Hl. assert (N : c <> "_") by (intros ->; vm_compute in H; discriminate).
  destruct (all_rows c n ls N M Hl) as [rows [A [B C]]]. exists rows. split; [exact A|]. rewrite read_file.
  - cbn [map]. rewrite C. f_equal. apply header_read; [assumption|assumption|assumption|]. eapply Forall_impl; [|exact Hp]. cbn. tauto.
  - constructor; [|exact B]. unfold csv_header. apply free_cells; [now apply free_b|exact M|].
    constructor; [apply free_app; [now apply free_b|]; apply free_app; [assumption|now apply free_b]|]. constructor; [apply free_app; [now apply free_b|]; apply free_app; [assumption|now apply free_b]|].
    apply Forall_map. eapply Forall_impl; [|exact Hp]. intros [p u] [[_ K1] [_ K2]]. cbn in K1, K2. apply free_app; [exact K1|]. apply free_app; [now apply free_b|]. apply free_app; [exact K2|now apply free_b].
Qed.
(** names and units of the default table have no comma, semicolon, tab, blank or new line *)
Lemma defaults_plain : forall c k u, In c [","; ";"; "009"; " "; nl] -> In (k, u) defaultPropertyUnits -> free c (txt k) /\ free c (txt u).
Proof.
  assert (B : forallb (fun c => forallb (fun p => forallb (fun x => negb (Ascii.eqb x c)) (txt (fst p)) && forallb (fun x => negb (Ascii.eqb x c)) (txt (snd p))) defaultPropertyUnits) [","; ";"; "009"; " "; nl] = true) by (vm_compute; reflexivity).
  intros c k u Hc Hk. rewrite forallb_forall in B. specialize (B c Hc). rewrite forallb_forall in B. specialize (B (k, u) Hk). apply andb_prop in B. destruct B as [B1 B2]. split; now apply free_b.
Qed.
Lemma plain_all : forall c, In c [","; ";"; "009"; " "] -> plain_sep c /\ c <> nl.
Proof. intros c H. cbn in H. destruct H as [<-|[<-|[<-|[<-|[]]]]]; (split; [reflexivity|discriminate]). Qed.
Theorem default_table : forall c n uT uP props ls, In c [","; ";"; "009"; " "] -> In ("temperature"%string, uT) defaultPropertyUnits -> In ("pressure"%string, uP) defaultPropertyUnits ->
  incl props defaultPropertyUnits -> Forall (line_ok c n) ls ->
  let tprops := map (fun p => (txt (fst p), txt (snd p))) props in
  exists rows, all_some (map (fun l => csv_row (S n) [c] (l_sym l) (l_T l) (l_P l) (l_vals l)) ls) = Some rows /\
  read c (file_text (csv_header [c] (txt uT) (txt uP) tprops :: rows)) =
  (txt "Symbol" :: (txt "T(" ++ txt uT ++ [")"]) :: (txt "P(" ++ txt uP ++ [")"]) :: map (fun p => fst p ++ ["("] ++ snd p ++ [")"]) tprops) ::
  map (fun l => clean c (l_sym l) :: l_T l :: l_P l :: l_vals l) ls.
Proof.
  intros c n uT uP props ls Hc HT HP Hp Hl. cbn zeta. destruct (plain_all c Hc) as [Q M].
  assert (I : In c [","; ";"; "009"; " "; nl]) by (cbn in Hc |- *; tauto). assert (J : In nl [","; ";"; "009"; " "; nl]) by (cbn; tauto).
  apply table_read; [exact Q|exact M|eapply (defaults_plain c); eassumption|eapply (defaults_plain nl); eassumption|eapply (defaults_plain c); eassumption|eapply (defaults_plain nl); eassumption| |exact Hl].
  apply Forall_map. apply Forall_forall. intros [k u] K. apply Hp in K. cbn. destruct (defaults_plain c k u I K), (defaults_plain nl k u J K). tauto.
Qed.
(** *** what goes wrong *)
Lemma collision : forall T P vals, csv_row 9 [","] (txt "a,b") T P vals = csv_row 9 [","] (txt "a_b") T P vals. Proof. reflexivity. Qed.
Lemma underscore : forall T P vals, free "_" T -> free "_" P -> Forall (free "_") vals ->
  exists row, csv_row 9 ["_"] (txt "a_b") T P vals = Some row /\ split "_" row = txt "a" :: txt "b" :: T :: P :: vals.
Proof.
  intros T P vals A B C. eexists. split; [reflexivity|]. cbn [app]. change ("a" :: "_" :: "b" :: cells_text ["_"] (T :: P :: vals)) with (["a"] ++ "_" :: (["b"] ++ cells_text ["_"] (T :: P :: vals))).
  rewrite split_app by (now apply free_b). f_equal. apply split_cells; [now apply free_b|]. constructor; [exact A|]. now constructor.
Qed.
Lemma endless : forall fuel sym T P vals, csv_row fuel [] sym T P vals = None.
Proof. intros. unfold csv_row. now rewrite replace_empty. Qed.
Lemma two_chars : forall T P vals, exists row rest, csv_row 9 (txt ";;") (txt "x;") T P vals = Some row /\ row = txt "x" ++ txt ";;" ++ rest /\ csv_row 9 (txt ";;") (txt "x;") T P vals <> csv_row 9 (txt ";;") (txt "x") T P vals.
Proof.
  intros T P vals. do 2 eexists. split; [reflexivity|]. split; [reflexivity|]. cbn. intro H. inversion H as [K]. apply (f_equal (@length ascii)) in K. cbn in K. rewrite app_length in K. lia.
Qed.
Lemma new_line : forall T P, free "," T -> free nl T -> free "," P -> free nl P -> exists row, csv_row 9 [","] (txt "a" ++ [nl] ++ txt "b") T P [] = Some row /\ read "," (file_text [row]) = [[txt "a"]; [txt "b"; T; P]].
Proof.
  intros T P A B C D. eexists. split; [reflexivity|]. cbn [app]. unfold read, file_text. cbn [flat_map]. rewrite app_nil_r. set (k := cells_text [","] [T; P]).
  assert (K : free nl (txt "b" ++ k)) by (apply free_cells; [now apply free_b|discriminate|constructor; [exact B|now repeat constructor]]).
  change (([] ++ ("a" :: nl :: txt "b") ++ k) ++ [nl]) with (["a"] ++ nl :: ((txt "b" ++ k) ++ [nl])).
  match goal with |- map _ (removelast (split nl ?x)) = _ => change x with (["a"] ++ nl :: ((txt "b" ++ k) ++ nl :: [])) end.
  rewrite split_app by (now apply free_b). rewrite split_app by exact K. cbn [split removelast map]. f_equal. f_equal. unfold k. apply split_cells; [now apply free_b|]. constructor; [exact A|]. constructor; [exact C|constructor].
Qed.
(** settings *)
Open Scope string_scope.
Lemma not_atomic : exists (m : smap string) ks vs, snd (setPropertiesUnits m ks vs) = Throws /\ at_ (fst (setPropertiesUnits m ks vs)) "enthalpy" <> at_ m "enthalpy" /\ m = defaultPropertyUnits /\ length ks = length vs.
Proof. exists defaultPropertyUnits, ["enthalpy"; "density"], ["kJ/mol"; "kg/m3"]. split; [reflexivity|]. split; [cbn; discriminate|]. now split. Qed.
Lemma replaced_table : exists m : smap string, lookups defaultPropertyUnits ["enthalpy"] = Ok tt /\ lookups (setUnits defaultPropertyUnits m) ["enthalpy"] = Throws /\ at_ m "enthalpy" = Ok "kJ/mol".
Proof. exists [("enthalpy", "kJ/mol")]. now split. Qed.
Lemma history_lookups : forall (h : list (setting string)) props, Forall keeps h -> incl props (keys defaultPropertyUnits) -> lookups (fold_left apply h defaultPropertyUnits) props = Ok tt.
Proof.
  intros h props H I. apply lookups_iff. rewrite history_keys by assumption. apply Forall_forall. intros x [<-|[<-|K]]; [cbn; tauto|cbn; tauto|now apply I].
Qed.
Lemma raw_value : forall (W U : Type) (convert : W -> U -> U -> W) from to prop v row rows w, printed convert from to prop v = Ok w -> toDouble ((v :: row) :: rows) = Ok v /\
  (toDouble ((v :: row) :: rows) = printed convert from to prop v <-> w = v).
Proof. intros W U convert from to prop v row rows w H. rewrite H. split; [reflexivity|]. cbn. split; intro K; [now inversion K|now rewrite K]. Qed.
Lemma no_result : forall W : Type, toDouble (@nil (list W)) = Undefined /\ forall rows, toDouble (@nil W :: rows) = Undefined. Proof. intro W. split; [reflexivity|]. intros rows. reflexivity. Qed.
(** OutputToCSV: columns *)
Lemma columns_thermo : forall cells : list text, length cells = length row_thermo -> Forall (free ","%char) cells -> length (split "," (join [","%char] cells)) = length (split "," (txt head_thermo)).
Proof.
  assert (J : forall l, l <> [] -> Forall (free ","%char) l -> split "," (join [","%char] l) = l).
  { intro l. induction l as [|x l IH]; intros N H; [contradiction|]. inversion H; subst. destruct l as [|y l]; [now apply split_free|]. change (join [","%char] (x :: y :: l)) with (x ++ ","%char :: join [","%char] (y :: l))%list.
    rewrite split_app by assumption. f_equal. apply IH; [discriminate|assumption]. }
  intros cells L F. rewrite J; [rewrite L; reflexivity|destruct cells; discriminate|exact F].
Qed.
Lemma columns_solvent : forall cells : list text, length cells = length row_solvent -> Forall (free ","%char) cells -> length (split "," (join [","%char] cells)) = length (split "," (txt head_solvent)).
Proof.
  assert (J : forall l, l <> [] -> Forall (free ","%char) l -> split "," (join [","%char] l) = l).
  { intro l. induction l as [|x l IH]; intros N H; [contradiction|]. inversion H; subst. destruct l as [|y l]; [now apply split_free|]. change (join [","%char] (x :: y :: l)) with (x ++ ","%char :: join [","%char] (y :: l))%list.
    rewrite split_app by assumption. f_equal. apply IH; [discriminate|assumption]. }
  intros cells L F. rewrite J; [rewrite L; reflexivity|destruct cells; discriminate|exact F].
Qed.
(** the header names the values of the row without the repeated one; from the eighth column on the row is one to the right *)
Lemma columns_electro : length (split "," (txt head_electro)) = length electro_labels /\ length row_electro = 16 /\
  (forall i, i < 7 -> nth_error row_electro i = nth_error electro_labels i) /\
  (forall i, 7 <= i < 15 -> nth_error row_electro i <> nth_error electro_labels i /\ nth_error row_electro (S i) = nth_error electro_labels i).
Proof.
  split; [reflexivity|]. split; [reflexivity|]. split.
  - intros i A. do 7 (destruct i as [|i]; [reflexivity|]). lia.
  - intros i [A B]. do 7 (destruct i as [|i]; [lia|]). do 8 (destruct i as [|i]; [split; [discriminate|reflexivity]|]). lia.
Qed.
Lemma column_names : forall head row, In (head, row) [(head_thermo, row_thermo); (head_solvent, row_solvent)] -> forall i h p, nth_error (split "," (txt head)) i = Some (txt h) -> nth_error row i = Some p -> In (h, p) cell_means.
Proof.
  assert (K : forall head row, In (head, row) [(head_thermo, row_thermo); (head_solvent, row_solvent)] -> forallb (fun c => match c with (h, p) => existsb (fun m => andb (String.eqb (string_of_list_ascii h) (fst m)) (String.eqb p (snd m))) cell_means end) (combine (split "," (txt head)) row) = true).
  { intros head row [E|[E|[]]]; injection E as <- <-; vm_compute; reflexivity. }
  intros head row I i h p A B. specialize (K head row I). rewrite forallb_forall in K.
  assert (C : In (txt h, p) (combine (split "," (txt head)) row)).
  { clear - A B. revert row i A B. generalize (split "," (txt head)). induction l as [|x l IH]; intros row i A B; [destruct i; discriminate|]. destruct row as [|q row]; [destruct i; discriminate|].
    destruct i as [|i]; cbn in A, B; [left; congruence|right; now apply (IH row i)]. }
  specialize (K _ C). apply existsb_exists in K. destruct K as [[a b] [K1 K2]]. apply andb_prop in K2. destruct K2 as [K2 K3]. apply String.eqb_eq in K2, K3. cbn [fst snd] in K2, K3. unfold txt in K2. rewrite string_of_list_ascii_of_string in K2. subst. exact K1.
Qed.

(** *** the names offered *)
Lemma select_app : forall (W : Type) t (field : string -> W) (a b : list string), selectResults t field (a ++ b)%list = (selectResults t field a ++ selectResults t field b)%list.
Proof. intros. unfold selectResults. now rewrite flat_map_app. Qed.
Lemma select_meant : forall (W : Type) (field : string -> W) what table, In (what, table) [("substance"%string, select_subst); ("reaction"%string, select_react)] ->
  forall l, scanProperties what = Ok l -> forall props, incl props (map fst l) -> selectResults table field props = map (fun n => field (meant n)) props.
Proof.
  intros W field what table I l E props H. induction props as [|p props IH]; [reflexivity|].
  change (p :: props) with ([p] ++ props)%list. rewrite select_app, map_app, IH by (intros x Hx; apply H; now right). f_equal.
  assert (P : In p (map fst l)) by (apply H; now left). clear IH H.
  destruct I as [K|[K|[]]]; injection K as <- <-; vm_compute in E; injection E as <-; cbn [map fst] in P;
    repeat (destruct P as [<-|P]; [vm_compute; reflexivity|]); destruct P.
Qed.
Lemma offered : forall what, In what ["substance"; "reaction"]%string -> exists l, scanProperties what = Ok l /\ (forall n, In n (map fst l) <-> In (n, what) defaultPropertyNames) /\
  (forall n u, In (n, u) l -> at_ defaultPropertyUnits n = Ok u /\ (exists d, at_ defaultPropertyDigits n = Ok d) /\ exists e, In (e, u) dim_ends /\ exists pre, n = append pre e).
Proof.
  intros what [<-|[<-|[]]]; eexists; (split; [vm_compute; reflexivity|]); (split; [intro n; split; intro H|intros n u H]).
  - cbn [map fst] in H. repeat (destruct H as [<-|H]; [vm_compute; tauto|]). destruct H.
  - unfold defaultPropertyNames in H. rewrite !in_app_iff in H. destruct H as [H|[H|H]]; cbn [map In] in H; repeat (destruct H as [H|H]; [injection H as <-; cbn; tauto || discriminate|]); try destruct H; try discriminate.
  - repeat (destruct H as [H|H]; [injection H as <- <-; split; [vm_compute; reflexivity|]; split; [eexists; vm_compute; reflexivity|]|]); try destruct H.
    all: match goal with |- exists e, In (e, ?u) dim_ends /\ exists pre, ?n = append pre e => exists n; split; [cbn; tauto|]; exists ""%string; reflexivity end.
  - cbn [map fst] in H. repeat (destruct H as [<-|H]; [vm_compute; tauto|]). destruct H.
  - unfold defaultPropertyNames in H. rewrite !in_app_iff in H. destruct H as [H|[H|H]]; cbn [map In] in H; repeat (destruct H as [H|H]; [injection H as <-; cbn; tauto || discriminate|]); try destruct H; try discriminate.
  - repeat (destruct H as [H|H]; [injection H as <- <-; split; [vm_compute; reflexivity|]; split; [eexists; vm_compute; reflexivity|]|]); try destruct H.
    all: match goal with |- exists e, In (e, ?u) dim_ends /\ exists pre, ?n = append pre e => first [exists n; split; [cbn; tauto|]; exists ""%string; reflexivity | exists (substring 9 100 n); split; [cbn; tauto|]; exists "reaction_"%string; reflexivity] end.
Qed.
Lemma solvent_scan : scanProperties "solvent" = Throws.
Proof. vm_compute. reflexivity. Qed.
Theorem offered_all : forall what table, In (what, table) [("substance", select_subst); ("reaction", select_react)] -> exists l, scanProperties what = Ok l /\
  (forall n, In n (map fst l) <-> In (n, what) defaultPropertyNames) /\
  (forall n u, In (n, u) l -> at_ defaultPropertyUnits n = Ok u /\ (exists d, at_ defaultPropertyDigits n = Ok d) /\ exists e, In (e, u) dim_ends /\ exists pre, n = append pre e) /\
  forall (W : Type) (field : string -> W) props, incl props (map fst l) -> selectResults table field props = map (fun n => field (meant n)) props.
Proof.
  intros what table I. destruct (offered what) as [l [A [B C]]]; [destruct I as [K|[K|[]]]; injection K as <- <-; cbn; tauto|].
  exists l. split; [exact A|]. split; [exact B|]. split; [exact C|]. intros W field props H. exact (select_meant W field what table I l A props H).
Qed.
Theorem solvent_names : scanProperties "solvent" = Throws /\ (forall n, In (n, "solvent") defaultPropertyNames -> at_ defaultPropertyUnits n = Throws /\ forall u, setPropertyUnit defaultPropertyUnits n u = Throws) /\ In ("density", "solvent") defaultPropertyNames.
Proof.
  split; [exact solvent_scan|]. split; [|vm_compute; tauto]. intros n H. unfold defaultPropertyNames in H. rewrite !in_app_iff in H.
  destruct H as [H|[H|H]]; cbn [map In] in H; repeat (destruct H as [H|H]; [try discriminate; injection H as <-; split; reflexivity|]); destruct H.
Qed.
