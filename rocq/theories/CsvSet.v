From Coq Require Import String Ascii List Bool Arith Lia.
From Verif Require Import CsvModel CsvSpec CsvPf.
Import ListNotations.
Open Scope list_scope.
Open Scope string_scope.

(** *** settings *)
Section Maps.
Variable V : Type.
Implicit Types (m : smap V) (k : string) (v : V).
Lemma at_keys : forall m k, (exists v, at_ m k = Ok v) <-> In k (keys m).
Proof.
  induction m as [|[a b] m IH]; intro k; cbn; [split; [intros [v H]; discriminate|intros []]|]. destruct (String.eqb k a) eqn:E.
  - apply String.eqb_eq in E. subst. split; [now left|]. intros _. now exists b.
  - rewrite IH. split; [now right|]. intros [->|H]; [rewrite String.eqb_refl in E; discriminate|exact H].
Qed.
Lemma at_total : forall m k, (exists v, at_ m k = Ok v) \/ at_ m k = Throws.
Proof. induction m as [|[a b] m IH]; intro k; cbn; [now right|]. destruct (String.eqb k a); [left; now exists b|apply IH]. Qed.
Lemma at_missing : forall m k, at_ m k = Throws <-> ~ In k (keys m).
Proof. intros m k. rewrite <- at_keys. destruct (at_total m k) as [[v H]|H]; rewrite H; split; try discriminate; try tauto. intro N. exfalso. apply N. now exists v. intros _ [v K]. discriminate. Qed.
Lemma set_keys : forall m k v, keys (set_at m k v) = keys m.
Proof. induction m as [|[a b] m IH]; intros k v; cbn; [reflexivity|]. destruct (String.eqb k a); cbn; [reflexivity|]. f_equal. apply IH. Qed.
Lemma set_same : forall m k v, In k (keys m) -> at_ (set_at m k v) k = Ok v.
Proof.
  induction m as [|[a b] m IH]; intros k v H; [destruct H|]. cbn. destruct (String.eqb k a) eqn:E; cbn; rewrite E; [reflexivity|]. apply IH. destruct H as [H|H]; [cbn in H; subst; rewrite String.eqb_refl in E; discriminate|exact H].
Qed.
Lemma set_other : forall m k k' v, k' <> k -> at_ (set_at m k v) k' = at_ m k'.
Proof.
  induction m as [|[a b] m IH]; intros k k' v N; [reflexivity|]. cbn. destruct (String.eqb k a) eqn:E; cbn.
  - apply String.eqb_eq in E. subst. apply String.eqb_neq in N. now rewrite N.
  - destruct (String.eqb k' a); [reflexivity|now apply IH].
Qed.
Lemma one_ok : forall m k v, In k (keys m) -> exists m', setPropertyUnit m k v = Ok m' /\ keys m' = keys m /\ at_ m' k = Ok v /\ forall k', k' <> k -> at_ m' k' = at_ m k'.
Proof.
  intros m k v H. unfold setPropertyUnit. destruct (proj2 (at_keys m k) H) as [w ->]. exists (set_at m k v). split; [reflexivity|]. split; [apply set_keys|]. split; [now apply set_same|].
  intros; now apply set_other.
Qed.
Lemma one_missing : forall m k v, ~ In k (keys m) -> setPropertyUnit m k v = Throws.
Proof. intros m k v H. unfold setPropertyUnit. apply at_missing in H. now rewrite H. Qed.
Lemma many_keys : forall ks vs m, keys (fst (setPropertiesUnits m ks vs)) = keys m.
Proof.
  induction ks as [|k ks IH]; intros vs m; [reflexivity|]. destruct vs as [|v vs]; [reflexivity|]. cbn. unfold setPropertyUnit. destruct (at_ m k); [|reflexivity|reflexivity]. rewrite IH. apply set_keys.
Qed.
Lemma many_ok : forall ks vs m, Forall (fun k => In k (keys m)) ks -> length ks <= length vs ->
  snd (setPropertiesUnits m ks vs) = Ok tt /\ forall k, at_ (fst (setPropertiesUnits m ks vs)) k = match last_for ks vs k with Some v => Ok v | None => at_ m k end.
Proof.
  induction ks as [|k ks IH]; intros vs m H L; [now split|]. inversion H; subst. destruct vs as [|v vs]; [cbn in L; lia|]. cbn in L |- *.
  destruct (one_ok m k v H2) as [m' [-> [Hk [Hs Ho]]]]. destruct (IH vs m') as [A B]; [eapply Forall_impl; [|exact H3]; cbn; intros a Ha; now rewrite Hk|lia|].
  split; [exact A|]. intro x. rewrite B. destruct (last_for ks vs x); [reflexivity|]. destruct (String.eqb x k) eqn:E; [apply String.eqb_eq in E; now subst|]. apply Ho. now apply String.eqb_neq.
Qed.
Lemma many_short : forall ks vs m, Forall (fun k => In k (keys m)) ks -> length vs < length ks -> snd (setPropertiesUnits m ks vs) = Undefined.
Proof.
  induction ks as [|k ks IH]; intros vs m H L; [cbn in L; lia|]. inversion H; subst. destruct vs as [|v vs]; [reflexivity|]. cbn in L |- *.
  destruct (one_ok m k v H2) as [m' [-> [Hk [Hs Ho]]]]. apply IH; [eapply Forall_impl; [|exact H3]; cbn; intros a Ha; now rewrite Hk|lia].
Qed.
Lemma apply_keys : forall s m, keeps s -> keys (apply m s) = keys m.
Proof.
  intros [k v|ks vs|n] m H; cbn; [|apply many_keys|destruct H]. unfold setPropertyUnit. destruct (at_ m k); [apply set_keys|reflexivity|reflexivity].
Qed.
Lemma history_keys : forall h m, Forall keeps h -> keys (fold_left apply h m) = keys m.
Proof. induction h as [|s h IH]; intros m H; [reflexivity|]. inversion H; subst. cbn [fold_left]. rewrite IH by assumption. now apply apply_keys. Qed.
Lemma lookups_iff : forall m props, lookups m props = Ok tt <-> Forall (fun k => In k (keys m)) ("temperature" :: "pressure" :: props).
Proof.
  intros m props. unfold lookups. generalize ("temperature" :: "pressure" :: props) as l. induction l as [|k l IH]; cbn; [split; [constructor|reflexivity]|].
  destruct (at_total m k) as [[v H]|H]; rewrite H.
  - rewrite IH. split; intro K; [constructor; [apply at_keys; now exists v|exact K]|now inversion K].
  - split; [discriminate|]. intro K. inversion K; subst. apply at_missing in H. contradiction.
Qed.
Lemma lookups_total : forall m props, lookups m props = Ok tt \/ lookups m props = Throws.
Proof.
  intros m props. unfold lookups. generalize ("temperature" :: "pressure" :: props) as l. induction l as [|k l IH]; cbn; [now left|]. destruct (at_total m k) as [[v H]|H]; rewrite H; [exact IH|now right].
Qed.
End Maps.

(** *** OutputToCSV *)
Lemma rows_run : forall header n rows c, c_open c = Some n -> c_fail c = false -> c_head c = true ->
  let c' := crun header (map CWrite rows) c in c_open c' = Some n /\ c_fail c' = false /\ c_head c' = true /\
  (forall m, files c' m = if String.eqb m n then option_map (fun ls => ls ++ rows)%list (files c n) else files c m).
Proof.
  intros header n rows. induction rows as [|r rows IH]; intros c Ho Hf Hh; cbn.
  - split; [exact Ho|]. split; [exact Hf|]. split; [exact Hh|]. intro m. destruct (String.eqb m n) eqn:E; [|reflexivity]. apply String.eqb_eq in E. subst. destruct (files c n); cbn; [now rewrite app_nil_r|reflexivity].
  - rewrite Hh. unfold put at 1. rewrite Ho, Hf. set (c1 := mkCsv _ _ _ _).
    specialize (IH c1 eq_refl eq_refl Hh). cbn zeta in IH.
    assert (E : fold_left (cstep header) (map CWrite rows) (put c r) = crun header (map CWrite rows) c1) by (unfold crun, put; now rewrite Ho, Hf).
    unfold crun in *. destruct IH as [A [B [C D]]].
    rewrite E. split; [exact A|]. split; [exact B|]. split; [exact C|]. intro m. rewrite D. cbn. rewrite String.eqb_refl. destruct (String.eqb m n); [|reflexivity]. destruct (files c n); cbn; [now rewrite <- app_assoc|reflexivity].
Qed.
Definition closed (c : csv) : Prop := c_open c = None /\ c_head c = false.
Lemma session_run : forall header s c, closed c -> let c' := crun header (session s) c in closed c' /\
  forall m, files c' m = if String.eqb m (fst s) then Some (content header (snd s)) else files c m.
Proof.
  intros header [n rows] c [Ho Hh]. unfold session, crun. cbn [fst snd fold_left cstep]. rewrite Ho, fold_left_app. cbn [fold_left].
  set (c0 := mkCsv (Some n) false (c_head c) _). destruct rows as [|r rows].
  - cbn. split; [split; reflexivity|]. reflexivity.
  - cbn [map fold_left cstep]. assert (H0 : c_head c0 = false) by exact Hh. rewrite H0.
    set (c1 := mkCsv (c_open (put c0 header)) (c_fail (put c0 header)) true (files (put c0 header))).
    set (c2 := put c1 r).
    destruct (rows_run header n rows c2 eq_refl eq_refl eq_refl) as [A [B [C D]]]. unfold crun in *. cbn [cstep]. rewrite A. split; [split; reflexivity|].
    intro m. cbn [files]. rewrite D. cbn. rewrite !String.eqb_refl. cbn. destruct (String.eqb m n); reflexivity.
Qed.
Lemma sessions_run : forall header ss c, closed c -> let c' := crun header (flat_map session ss) c in closed c' /\
  forall m, files c' m = match expected header ss m with Some l => Some l | None => files c m end.
Proof.
  intros header ss. induction ss as [|s ss IH]; intros c H; [split; [exact H|reflexivity]|]. cbn [flat_map]. unfold crun. rewrite fold_left_app.
  destruct (session_run header s c H) as [A B]. unfold crun in *. destruct (IH _ A) as [C D]. split; [exact C|]. intro m. rewrite D, B. cbn. destruct (expected header ss m); [reflexivity|].
  destruct (String.eqb m (fst s)); reflexivity.
Qed.
Theorem protocol : forall header ss n, files (crun header (flat_map session ss) fresh) n = expected header ss n.
Proof. intros header ss n. destruct (sessions_run header ss fresh (conj eq_refl eq_refl)) as [_ B]. rewrite B. cbn. now destruct (expected header ss n). Qed.
(** opening a second file while one is open loses every row written until the close *)
Lemma failed_run : forall header rows c, c_open c <> None -> c_fail c = true -> let c' := crun header (map CWrite rows) c in c_open c' = c_open c /\ c_fail c' = true /\ files c' = files c.
Proof.
  intros header rows. induction rows as [|r rows IH]; intros c Ho Hf; [now split|]. cbn.
  assert (P : forall c0 l, c_open c0 <> None -> c_fail c0 = true -> c_open (put c0 l) = c_open c0 /\ c_fail (put c0 l) = true /\ files (put c0 l) = files c0).
  { intros c0 l A B. unfold put. rewrite B. destruct (c_open c0); [|congruence]. now split. }
  set (c1 := if c_head c then c else _). assert (Q : c_open c1 = c_open c /\ c_fail c1 = true /\ files c1 = files c).
  { unfold c1. destruct (c_head c); [now split|]. cbn. now apply P. }
  destruct Q as [Q1 [Q2 Q3]]. destruct (P c1 r) as [R1 [R2 R3]]; [now rewrite Q1|exact Q2|]. destruct (IH (put c1 r)) as [X [Y Z]]; [now rewrite R1, Q1|exact R2|].
  cbn zeta in X, Y, Z. unfold crun in *. split; [now rewrite X, R1, Q1|]. split; [exact Y|]. now rewrite Z, R3, Q3.
Qed.
Theorem reopen_loses : forall header a b rows rows' ss, b <> a ->
  let c := crun header (flat_map session ss ++ COpen a :: map CWrite rows ++ COpen b :: map CWrite rows' ++ [CClose]) fresh in
  files c a = Some (content header rows) /\ files c b = expected header ss b.
Proof.
  intros header a b rows rows' ss N. unfold crun. rewrite fold_left_app. destruct (sessions_run header ss fresh (conj eq_refl eq_refl)) as [[Ho Hh] D]. unfold crun in *.
  set (c0 := fold_left (cstep header) (flat_map session ss) fresh) in *. cbn [fold_left cstep]. rewrite Ho. rewrite fold_left_app. cbn [fold_left].
  set (c1 := mkCsv (Some a) false (c_head c0) _).
  assert (Q : let c2 := fold_left (cstep header) (map CWrite rows) c1 in c_open c2 = Some a /\ forall m, files c2 m = if String.eqb m a then Some (content header rows) else files c0 m).
  { destruct rows as [|r rows].
    - cbn. split; [reflexivity|]. reflexivity.
    - cbn [map fold_left cstep]. assert (H0 : c_head c1 = false) by exact Hh. rewrite H0.
      set (c3 := mkCsv (c_open (put c1 header)) (c_fail (put c1 header)) true (files (put c1 header))). set (c4 := put c3 r).
      destruct (rows_run header a rows c4 eq_refl eq_refl eq_refl) as [A [_ [_ F]]]. unfold crun in *. split; [exact A|]. intro m. rewrite F. cbn. rewrite !String.eqb_refl. cbn. destruct (String.eqb m a); reflexivity. }
  cbn zeta in Q. set (c2 := fold_left (cstep header) (map CWrite rows) c1) in *. destruct Q as [Q1 Q2]. cbn [cstep]. rewrite Q1.
  rewrite fold_left_app. cbn [fold_left]. set (c5 := mkCsv (Some a) true (c_head c2) (files c2)).
  destruct (failed_run header rows' c5) as [X [_ Z]]; [discriminate|reflexivity|]. unfold crun in *. cbn [cstep]. rewrite X. cbn [c_open c5 files]. rewrite Z. cbn [files c5]. rewrite !Q2, String.eqb_refl.
  split; [reflexivity|]. apply String.eqb_neq in N. rewrite N, D. cbn. now destruct (expected header ss b).
Qed.
(** a row written before the first open is lost and takes the header with it *)
Theorem early_write : forall header a r rows, files (crun header (CWrite r :: COpen a :: map CWrite rows ++ [CClose]) fresh) a = Some rows.
Proof.
  intros header a r rows. unfold crun. cbn [fold_left]. set (c0 := cstep header fresh (CWrite r)). cbn [cstep]. change (c_open c0) with (@None string). cbn iota. rewrite fold_left_app. cbn [fold_left].
  set (c1 := mkCsv (Some a) false (c_head c0) _). destruct (rows_run header a rows c1 eq_refl eq_refl eq_refl) as [A [_ [_ F]]]. unfold crun in *. cbn [cstep]. rewrite A. cbn [files]. rewrite F. cbn. rewrite !String.eqb_refl. reflexivity.
Qed.
