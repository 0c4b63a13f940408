(** Proofs about the files of a property grid.  *)
From Coq Require Import String Ascii List Bool Arith Lia Reals Lra.
From Verif Require Import BatchModel BatchSpec BatchProofs BatchOut BatchGrid BatchWit CsvModel CsvSpec CsvPf CsvSet CsvEx CsvGrid.
Import ListNotations.
Open Scope list_scope.
Open Scope nat_scope.
Open Scope char_scope.

(** *** directories *)
Lemma dir_none : forall s, ~ In "/" s -> dir_of s = [].
Proof.
  intros [|c s] H; [reflexivity|]. cbn [dir_of]. destruct (existsb (Ascii.eqb "/") (c :: s)) eqn:E; [|reflexivity].
  apply existsb_exists in E. destruct E as (x & I & E). apply Ascii.eqb_eq in E. subst. contradiction.
Qed.
Lemma dir_app : forall a s, In "/" s -> dir_of (a ++ s) = a ++ dir_of s.
Proof.
  intros a s H. induction a as [|c a IH]; [reflexivity|]. cbn [app dir_of].
  assert (E : existsb (Ascii.eqb "/") (c :: a ++ s) = true) by (apply existsb_exists; exists "/"; split; [right; apply in_or_app; now right|reflexivity]).
  rewrite E. now rewrite IH.
Qed.

(** *** what the calls leave on the disk *)
Lemma put_seq : forall dirs filename props cs f, dirs [] = true -> ~ In "/" filename -> Forall (fun p => ~ In "/" (txt p)) props -> NoDup props -> length cs = length props ->
  let f' := fold_left (fun f pc => put_file dirs (grid_name filename (fst pc)) (snd pc) f) (combine props cs) f in
  (forall m, ~ In m (map (grid_name filename) props) -> f' m = f m) /\ forall p c, In (p, c) (combine props cs) -> f' (grid_name filename p) = Some c.
Proof.
  intros dirs filename props. induction props as [|p props IH]; intros cs f D N F ND L; cbn zeta; [split; [reflexivity|intros p c []]|].
  destruct cs as [|c cs]; [discriminate|]. cbn [combine fold_left fst snd]. inversion F as [|? ? F1 F2]; subst. inversion ND as [|? ? N1 N2]; subst.
  set (g := put_file dirs (grid_name filename p) c f).
  assert (G : g = fun m => if list_eq_dec ascii_dec m (grid_name filename p) then Some c else f m).
  { unfold g, put_file, grid_name. rewrite dir_none; [now rewrite D|]. intro I. apply in_app_or in I. destruct I as [I|[I|I]]; [contradiction|discriminate|contradiction]. }
  destruct (IH cs g D N F2 N2 ltac:(cbn in L; lia)) as [A B].
  assert (J : forall q, grid_name filename q = grid_name filename p -> q = p).
  { intros q E. unfold grid_name in E. apply app_inv_tail in E. unfold txt in E. rewrite <- (string_of_list_ascii_of_string q), <- (string_of_list_ascii_of_string p). now rewrite E. }
  split.
  - intros m I. rewrite A by (intro K; apply I; now right). rewrite G. destruct (list_eq_dec ascii_dec m (grid_name filename p)) as [E|_]; [exfalso; apply I; left; now symmetry|reflexivity].
  - intros q d [E|I]; [|now apply B]. inversion E; subst. rewrite A; [rewrite G; destruct (list_eq_dec ascii_dec (grid_name filename q) (grid_name filename q)); [reflexivity|contradiction]|].
    intro K. apply in_map_iff in K. destruct K as (x & E1 & E2). apply J in E1. now subst.
Qed.
Lemma put_none : forall dirs filename props cs f, In "/" filename -> (forall p, In p props -> dirs (txt p ++ ["_"] ++ dir_of filename) = false) ->
  fold_left (fun f pc => put_file dirs (grid_name filename (fst pc)) (snd pc) f) (combine props cs) f = f.
Proof.
  intros dirs filename props. induction props as [|p props IH]; intros cs f I H; [reflexivity|]. destruct cs as [|c cs]; [reflexivity|]. cbn [combine fold_left fst snd].
  rewrite IH; [|exact I|intros q Q; apply H; now right]. unfold put_file, grid_name. change (txt p ++ ["_"] ++ filename) with (txt p ++ (["_"] ++ filename)). rewrite !dir_app; [|exact I|apply in_or_app; now right].
  now rewrite (H p (or_introl eq_refl)).
Qed.

(** *** one file *)
Section OneFile.
Variables (V : Type) (c : ascii) (n : nat) (b : bool) (uT uP : text) (colf rowf : R -> text) (val : string -> V -> text).
Hypotheses (Q : plain_sep c) (M : c <> nl) (FT : free c uT) (FT' : free nl uT) (FP : free c uP) (FP' : free nl uP)
  (Hc : forall x, free c (colf x) /\ free nl (colf x)) (Hr : forall x, free c (rowf x) /\ free nl (rowf x)) (Hv : forall p v, free c (val p v) /\ free nl (val p v)).
Definition corner : text := if b then txt "T(" ++ uT ++ txt ")_P(" ++ uP ++ [")"] else txt "P(" ++ uP ++ txt ")_T(" ++ uT ++ [")"].
Lemma not_us : c <> "_". Proof. intros E. subst c. vm_compute in Q. discriminate. Qed.
Lemma corner_c : free c corner.
Proof. unfold corner. destruct b; (apply free_app; [pl|]; apply free_app; [assumption|]; apply free_app; [pl|]; apply free_app; [assumption|pl]). Qed.
Lemma corner_nl : free nl corner.
Proof. unfold corner. destruct b; (apply free_app; [now apply free_b|]; apply free_app; [assumption|]; apply free_app; [now apply free_b|]; apply free_app; [assumption|now apply free_b]). Qed.
Lemma head_split : forall cols, split c (grid_header b [c] uT uP (map colf cols)) = txt "Symbol" :: corner :: map colf cols.
Proof.
  intro cols. unfold grid_header. fold corner. apply split_cells; [pl|]. constructor; [exact corner_c|]. apply Forall_map. apply Forall_forall. intros x _. now apply Hc.
Qed.
Lemma head_nl : forall cols, free nl (grid_header b [c] uT uP (map colf cols)).
Proof.
  intro cols. unfold grid_header. fold corner. apply free_cells; [now apply free_b|exact M|]. constructor; [exact corner_nl|]. apply Forall_map. apply Forall_forall. intros x _. now apply Hc.
Qed.
Definition cells (prop : string) (g : grow V) : list text := let '(s, r, vals) := g in clean c (txt s) :: rowf r :: map (fun cv => val prop (snd cv)) vals.
Lemma line_split : forall prop g, let '(s, _, _) := g in free nl (txt s) -> length (txt s) <= n ->
  exists l, grid_line V (S n) [c] rowf val prop g = Some l /\ free nl l /\ split c l = cells prop g.
Proof.
  intros prop [[s r] vals] F L. unfold grid_line. rewrite replace_char by exact L. cbn [option_map]. eexists. split; [reflexivity|]. split.
  - apply free_cells; [now apply clean_nl|exact M|]. constructor; [apply Hr|]. apply Forall_map. apply Forall_forall. intros x _. apply Hv.
  - unfold cells. apply split_cells; [apply clean_free; exact not_us|]. constructor; [apply Hr|]. apply Forall_map. apply Forall_forall. intros x _. apply Hv.
Qed.
Lemma lines_split : forall prop gs, Forall (fun g => free nl (txt (fst (gkey V g))) /\ length (txt (fst (gkey V g))) <= n) gs ->
  exists ls, all_some (map (grid_line V (S n) [c] rowf val prop) gs) = Some ls /\ Forall (free nl) ls /\ map (split c) ls = map (cells prop) gs.
Proof.
  intros prop gs. induction gs as [|g gs IH]; intro H; [exists []; repeat split; constructor|]. inversion H as [|? ? [A B] H']; subst. destruct (IH H') as (ls & E1 & E2 & E3).
  pose proof (line_split prop g) as L. destruct g as [[s r] vals]. cbn in A, B. destruct (L A B) as (l & L1 & L2 & L3).
  exists (l :: ls). split; [cbn [map all_some]; now rewrite L1, E1|]. split; [now constructor|]. cbn [map]. now rewrite L3, E3.
Qed.
Lemma file_read : forall prop symbols t res idx gs, foutGrid V b symbols t res idx = Some gs ->
  Forall (fun g => free nl (txt (fst (gkey V g))) /\ length (txt (fst (gkey V g))) <= n) gs ->
  exists file, grid_text V (S n) true b [c] uT uP colf rowf val symbols t res idx prop = Some file /\
    read c file = (txt "Symbol" :: corner :: map colf (if b then Ps t else Ts t)) :: map (cells prop) gs.
Proof.
  intros prop symbols t res idx gs E H. destruct (lines_split prop gs H) as (ls & E1 & E2 & E3). unfold grid_text. rewrite E, E1. cbn [option_map]. eexists. split; [reflexivity|].
  set (h := grid_header b [c] uT uP (map colf (if b then Ps t else Ts t))).
  change ((h ++ [endl]) ++ flat_map (fun l => l ++ [endl]) ls) with (file_text (h :: ls)). rewrite read_file; [|constructor; [apply head_nl|exact E2]].
  cbn [map]. rewrite E3. f_equal. apply head_split.
Qed.
End OneFile.

(** *** a grid, from the calculation to the disk *)
Section All.
Variables (V : Type) (ask : string -> R -> R -> R * (string -> option V)) (toT toP fromP : R -> R).
Lemma calc_same : forall b symbols names ts ps, NoDup ts -> NoDup ps -> ts <> [] -> ps <> [] -> symbols <> [] ->
  quiet V ask toT toP fromP symbols (gridPairs b ts ps) -> known V ask toT toP symbols names (gridPairs b ts ps) ->
  exists res log, calculate V ask toT toP fromP true symbols names (addGrid b ts ps) = Some (addGrid b ts ps, res, log) /\
  forall idx p, nth_error names idx = Some p -> exists g, foutGrid V b symbols (addGrid b ts ps) res idx = Some g /\
    map (gkey V) g = flat_map (fun s => map (fun r => (s, r)) (if b then ts else ps)) symbols /\ Forall (grow_right V ask toT toP b (if b then ps else ts) p) g.
Proof.
  intros b symbols names ts ps Nt Np Et Ep Es Hq Hk.
  destruct (addGrid_Ts b ts ps Nt Np Et Ep) as (EP & ET & EPs).
  assert (Hs : settles V ask toT toP fromP (fun _ P => P) symbols names (pairs (addGrid b ts ps))) by (rewrite EP; now apply quiet_settles).
  assert (Hk' : known V ask toT toP symbols names (pairs (addGrid b ts ps))) by (rewrite EP; exact Hk).
  destruct (calc_w V ask toT toP fromP (fun _ P => P) symbols names (addGrid b ts ps) Hs Hk' true Es) as (t' & res & log & E & Et' & L & H).
  assert (Eset : settled (fun _ P : R => P) (addGrid b ts ps) = gridPairs b ts ps).
  { unfold settled. rewrite EP. rewrite <- (map_id (gridPairs b ts ps)) at 2. apply map_ext. now intros [? ?]. }
  rewrite Eset in Et'. assert (Et2 : t' = addGrid b ts ps) by exact Et'. clear Et'. subst t'.
  exists res, log. split; [exact E|]. intros idx p Hp.
  destruct (grid_quiet V ask toT toP fromP b symbols names ts ps idx p Nt Np Et Ep Es Hq Hk Hp) as (t2 & r2 & l2 & g & E2 & G & K & W).
  rewrite E in E2. inversion E2; subst. exists g. auto.
Qed.
Lemma all_some_len : forall (A B : Type) (f : A -> option B) l, (forall a, In a l -> exists b, f a = Some b) -> exists r, all_some (map f l) = Some r /\ length r = length l /\ forall a b, In (a, b) (combine l r) -> f a = Some b.
Proof.
  intros A B f l. induction l as [|a l IH]; intro H; [exists []; repeat split; intros ? ? []|]. destruct (H a (or_introl eq_refl)) as (b & E). destruct IH as (r & E1 & E2 & E3); [intros; apply H; now right|].
  exists (b :: r). cbn [map all_some]. rewrite E, E1. split; [reflexivity|]. split; [cbn; now rewrite E2|]. intros x y [I|I]; [inversion I; now subst|now apply E3].
Qed.
Lemma seq_pos : forall (A : Type) (l : list A) k i a, In (i, a) (combine (seq k (length l)) l) -> k <= i /\ nth_error l (i - k) = Some a.
Proof.
  intros A l. induction l as [|x l IH]; intros k i a H; [destruct H|]. cbn [length seq combine] in H. destruct H as [H|H].
  - inversion H; subst. split; [lia|]. now rewrite Nat.sub_diag.
  - destruct (IH (S k) i a H) as [L E]. split; [lia|]. replace (i - k) with (S (i - S k)) by lia. exact E.
Qed.
Lemma seq_has : forall (A : Type) (l : list A) (B : Type) (r : list B) k, length r = length l -> forall p, In p l -> exists i v, In ((i, p), v) (combine (combine (seq k (length l)) l) r) /\ In (p, v) (combine l r).
Proof.
  intros A l B. induction l as [|x l IH]; intros r k L p H; [destruct H|]. destruct r as [|v r]; [discriminate|]. cbn [length seq combine]. destruct H as [->|H].
  - exists k, v. split; now left.
  - destruct (IH r (S k) ltac:(cbn in L; lia) p H) as (i & w & I & J). exists i, w. split; now right.
Qed.
Lemma keys_of : forall (A B C : Type) (f : B -> A) (g : list B) (symbols : list A) (rows : list C) (key : B -> A * C), map key g = flat_map (fun s => map (fun r => (s, r)) rows) symbols -> forall x, In x g -> In (fst (key x)) symbols.
Proof.
  intros A B C f g symbols rows key E x I. assert (K : In (key x) (map key g)) by now apply in_map. rewrite E in K. apply in_flat_map in K. destruct K as (s & I1 & I2). apply in_map_iff in I2. destruct I2 as (r & <- & _). exact I1.
Qed.
Theorem grid_disk : forall c n b uT uP colf rowf val dirs filename symbols names ts ps f, NoDup ts -> NoDup ps -> ts <> [] -> ps <> [] -> symbols <> [] -> NoDup names ->
  quiet V ask toT toP fromP symbols (gridPairs b ts ps) -> known V ask toT toP symbols names (gridPairs b ts ps) ->
  plain_sep c -> c <> nl -> free c uT -> free nl uT -> free c uP -> free nl uP -> (forall x, free c (colf x) /\ free nl (colf x)) -> (forall x, free c (rowf x) /\ free nl (rowf x)) ->
  (forall p v, free c (val p v) /\ free nl (val p v)) -> Forall (fun s => free nl (txt s) /\ length (txt s) <= n) symbols ->
  dirs [] = true -> ~ In "/" filename -> Forall (fun p => ~ In "/" (txt p)) names ->
  let rows := if b then ts else ps in let cols := if b then ps else ts in
  exists t' res log f', calculate V ask toT toP fromP true symbols names (addGrid b ts ps) = Some (t', res, log) /\
    toCSVPropertyGrid V (S n) true b [c] uT uP colf rowf val dirs filename names symbols t' res f = Some f' /\
    (forall m, ~ In m (map (grid_name filename) names) -> f' m = f m) /\
    forall p, In p names -> exists file lines, f' (grid_name filename p) = Some file /\
      read c file = (txt "Symbol" :: (if b then txt "T(" ++ uT ++ txt ")_P(" ++ uP ++ [")"] else txt "P(" ++ uP ++ txt ")_T(" ++ uT ++ [")"]) :: map colf cols) :: lines /\
      Forall2 (fun sr line => exists vs, line = clean c (txt (fst sr)) :: rowf (snd sr) :: map (val p) vs /\
        Forall2 (fun x v => is_value V ask toT toP (fst sr) (if b then snd sr else x) (if b then x else snd sr) p v) cols vs) (flat_map (fun s => map (fun r => (s, r)) rows) symbols) lines.
Proof.
  intros c n b uT uP colf rowf val dirs filename symbols names ts ps f Nt Np Et Ep Es Nn Hq Hk Q M FT FT' FP FP' Hc Hr Hv Hs D N Fn rows cols.
  destruct (calc_same b symbols names ts ps Nt Np Et Ep Es Hq Hk) as (res & log & E & G). destruct (addGrid_Ts b ts ps Nt Np Et Ep) as (_ & ET & EPs).
  exists (addGrid b ts ps), res, log. set (t := addGrid b ts ps) in *.
  assert (One : forall i p, nth_error names i = Some p -> exists file g, grid_text V (S n) true b [c] uT uP colf rowf val symbols t res i p = Some file /\
    map (gkey V) g = flat_map (fun s => map (fun r => (s, r)) rows) symbols /\ Forall (grow_right V ask toT toP b cols p) g /\
    read c file = (txt "Symbol" :: corner b uT uP :: map colf cols) :: map (cells V c rowf val p) g).
  { intros i p I. destruct (G i p I) as (g & G1 & G2 & G3).
    destruct (file_read V c n b uT uP colf rowf val Q M FT FT' FP FP' Hc Hr Hv p symbols t res i g G1) as (file & A & B).
    - apply Forall_forall. intros x Ix. rewrite Forall_forall in Hs. apply Hs. exact (keys_of _ _ _ (fun x => fst (gkey V x)) g symbols rows (gkey V) G2 x Ix).
    - exists file, g. split; [exact A|]. split; [exact G2|]. split; [exact G3|]. rewrite B. unfold cols. destruct b; now rewrite ?ET, ?EPs. }
  destruct (all_some_len _ _ (fun ip => grid_text V (S n) true b [c] uT uP colf rowf val symbols t res (fst ip) (snd ip)) (combine (seq 0 (length names)) names)) as (cs & C1 & C2 & C3).
  { intros [i p] I. destruct (seq_pos _ names 0 i p I) as [_ I']. rewrite Nat.sub_0_r in I'. destruct (One i p I') as (file & g & A & _). exists file. exact A. }
  unfold toCSVPropertyGrid. rewrite C1. cbn [option_map]. eexists. split; [exact E|]. split; [reflexivity|].
  rewrite combine_length, seq_length, Nat.min_id in C2. destruct (put_seq dirs filename names cs f D N Fn Nn C2) as [P1 P2]. split; [exact P1|].
  intros p I. destruct (seq_has _ names _ cs 0 C2 p I) as (i & file & I1 & I2).
  assert (I3 : In (i, p) (combine (seq 0 (length names)) names)) by (eapply in_combine_l; exact I1).
  destruct (seq_pos _ names 0 i p I3) as [_ I4]. rewrite Nat.sub_0_r in I4. destruct (One i p I4) as (file' & g & A & G2 & G3 & B).
  pose proof (C3 _ _ I1) as A'. cbn [fst snd] in A'. rewrite A in A'. inversion A'; subst file'.
  exists file, (map (cells V c rowf val p) g). split; [exact (P2 p file I2)|]. split; [exact B|].
  rewrite <- G2. clear - G3. induction g as [|x g IH]; [constructor|]. inversion G3 as [|? ? W W']; subst. cbn [map]. constructor; [|now apply IH].
  destruct x as [[s r] vals]. cbn [gkey fst snd cells]. destruct W as [W1 W2]. exists (map snd vals). rewrite map_map. split; [reflexivity|]. rewrite <- W1.
  clear W1 G3. induction W2 as [|[x v] vals W W2 IHv]; [constructor|]. cbn [map fst snd]. constructor; [exact W|apply IHv; now inversion W'].
Qed.
End All.

(** *** other arguments *)
Lemma grid_silent : forall V fuel tpFirst b sep uT uP colf rowf val dirs filename names symbols t res f f', In "/" filename -> (forall p, In p names -> dirs (txt p ++ ["_"] ++ dir_of filename) = false) ->
  toCSVPropertyGrid V fuel tpFirst b sep uT uP colf rowf val dirs filename names symbols t res f = Some f' -> f' = f.
Proof.
  intros V fuel tpFirst b sep uT uP colf rowf val dirs filename names symbols t res f f' I H E. unfold toCSVPropertyGrid in E.
  destruct (all_some _) as [cs|]; [|discriminate]. cbn [option_map] in E. inversion E; subst. now apply put_none.
Qed.
Lemma grid_message : forall V fuel b sep uT uP colf rowf val symbols t res res' idx p,
  grid_text V fuel false b sep uT uP colf rowf val symbols t res idx p = Some (grid_header b sep uT uP (map colf (if b then Ps t else Ts t)) ++ [endl] ++ message) /\
  grid_text V fuel false b sep uT uP colf rowf val symbols t res idx p = grid_text V fuel false b sep uT uP colf rowf val symbols t res' idx p.
Proof. intros. unfold grid_text. split; [now rewrite <- app_assoc|reflexivity]. Qed.
Lemma grid_path : forall V fuel tpFirst b sep uT uP colf rowf val dirs filename names symbols t res f f', In "/" filename -> (forall d, dirs d = true <-> d = [] \/ d = dir_of filename) ->
  toCSVPropertyGrid V fuel tpFirst b sep uT uP colf rowf val dirs filename names symbols t res f = Some f' -> f' = f.
Proof.
  intros V fuel tpFirst b sep uT uP colf rowf val dirs filename names symbols t res f f' I H. apply grid_silent; [exact I|]. intros p _.
  destruct (dirs (txt p ++ ["_"] ++ dir_of filename)) eqn:E; [|reflexivity]. exfalso. apply H in E. destruct E as [E|E].
  - destruct (txt p); discriminate.
  - apply (f_equal (@length ascii)) in E. rewrite !app_length in E. cbn in E. lia.
Qed.
