(** Witnesses for the statements about batch calculations. *)
From Coq Require Import String List Bool Arith Reals Lia Lra.
From Verif Require Import BatchModel BatchSpec BatchProofs BatchOut BatchGrid.
Import ListNotations.
Open Scope list_scope.
Open Scope R_scope.

(** an engine in the manner of the real one: the water model replaces a zero pressure by the
    saturation pressure (here T / 10) and answers for it; a mineral takes the pressure as it is *)
Definition sat_ask (s : string) (T P : R) : R * (string -> option R) :=
  let Q := if String.eqb s "water" then (if Req_EM_T P 0 then T / 10 else P) else P in
  (Q, fun n => if String.eqb n "gibbs_energy" then Some (T + Q) else None).
Definition idR (x : R) : R := x.
Notation calcS := (calculate R sat_ask idR idR idR).
Lemma sat_only_zero : forall s T P, P <> 0 -> fst (sat_ask s T P) = P.
Proof. intros s T P H. unfold sat_ask. cbn. destruct (String.eqb s "water"); [|reflexivity]. destruct (Req_EM_T P 0); [contradiction|reflexivity]. Qed.
Lemma sat_known : forall symbols ps, known R sat_ask idR idR symbols ["gibbs_energy"%string] ps.
Proof. intros symbols ps s T P n _ _ [<-|[]]. unfold is_value, sat_ask. cbn. eauto. Qed.

Definition one_pair : tps := addPairs [(20, 0)].
Lemma qw_run : exists t' res log, calcS true ["quartz"; "water"]%string ["gibbs_energy"%string] one_pair = Some (t', res, log) /\
  foutResults R true ["quartz"; "water"]%string ["gibbs_energy"%string] t' res =
    Some [("quartz"%string, 20, 20 / 10, [("gibbs_energy"%string, 20 + 0)]); ("water"%string, 20, 20 / 10, [("gibbs_energy"%string, 20 + 20 / 10)])].
Proof.
  unfold calculate, one_pair. rewrite addPairs_pairs. cbn -[addPairs Rplus Rdiv Req_EM_T]. unfold idR.
  destruct (Req_EM_T 0 0) as [_|n]; [|congruence]. do 3 eexists. split; [reflexivity|]. unfold foutResults. rewrite addPairs_pairs. reflexivity.
Qed.
Lemma wq_run : exists t' res log, calcS true ["water"; "quartz"]%string ["gibbs_energy"%string] one_pair = Some (t', res, log) /\
  foutResults R true ["water"; "quartz"]%string ["gibbs_energy"%string] t' res =
    Some [("water"%string, 20, 20 / 10, [("gibbs_energy"%string, 20 + 20 / 10)]); ("quartz"%string, 20, 20 / 10, [("gibbs_energy"%string, 20 + 20 / 10)])].
Proof.
  unfold calculate, one_pair. rewrite addPairs_pairs. cbn -[addPairs Rplus Rdiv Req_EM_T]. unfold idR.
  destruct (Req_EM_T 0 0) as [_|n]; [|congruence]. do 3 eexists. split; [reflexivity|]. unfold foutResults. rewrite addPairs_pairs. reflexivity.
Qed.
Lemma label_wrong : exists t' res log rows, calcS true ["quartz"; "water"]%string ["gibbs_energy"%string] one_pair = Some (t', res, log) /\
  foutResults R true ["quartz"; "water"]%string ["gibbs_energy"%string] t' res = Some rows /\ ~ Forall (row_right R sat_ask idR idR ["gibbs_energy"%string]) rows.
Proof.
  destruct qw_run as (t' & res & log & E & F). exists t', res, log. eexists. split; [exact E|]. split; [exact F|].
  intros H. destruct (Forall_inv H) as [_ Hr]. pose proof (Forall_inv Hr) as Hv. unfold is_value, sat_ask, idR in Hv. cbn in Hv. inversion Hv. lra.
Qed.
(** the value of quartz depends on whether it is listed before or after water *)
Lemma order_matters : exists t1 r1 l1 t2 r2 l2 v1 v2 P1 P2 rows1 rows2,
  calcS true ["quartz"; "water"]%string ["gibbs_energy"%string] one_pair = Some (t1, r1, l1) /\
  calcS true ["water"; "quartz"]%string ["gibbs_energy"%string] one_pair = Some (t2, r2, l2) /\
  foutResults R true ["quartz"; "water"]%string ["gibbs_energy"%string] t1 r1 = Some rows1 /\ foutResults R true ["water"; "quartz"]%string ["gibbs_energy"%string] t2 r2 = Some rows2 /\
  In ("quartz"%string, 20, P1, [("gibbs_energy"%string, v1)]) rows1 /\ In ("quartz"%string, 20, P2, [("gibbs_energy"%string, v2)]) rows2 /\ P1 = P2 /\ v1 <> v2.
Proof.
  destruct qw_run as (t1 & r1 & l1 & E1 & F1). destruct wq_run as (t2 & r2 & l2 & E2 & F2).
  exists t1, r1, l1, t2, r2, l2, (20 + 0), (20 + 20 / 10), (20 / 10), (20 / 10). do 2 eexists. split; [exact E1|]. split; [exact E2|]. split; [exact F1|]. split; [exact F2|].
  split; [now left|]. split; [right; now left|]. split; [reflexivity|]. lra.
Qed.
(** a name of another kind of calculation shifts the columns *)
Lemma shifted : exists t' res log rows, calcS true ["quartz"%string] ["logKr"; "gibbs_energy"]%string (addPairs [(20, 1)]) = Some (t', res, log) /\
  foutResults R true ["quartz"%string] ["logKr"; "gibbs_energy"]%string t' res = Some rows /\
  In ("quartz"%string, 20, 1, [("logKr"%string, 20 + 1)]) rows /\ snd (sat_ask "quartz" 20 1) "gibbs_energy"%string = Some (20 + 1) /\ snd (sat_ask "quartz" 20 1) "logKr"%string = None.
Proof.
  unfold calculate. rewrite addPairs_pairs. cbn -[addPairs Rplus Rdiv Req_EM_T]. unfold idR.
  do 4 eexists. split; [reflexivity|]. unfold foutResults. rewrite addPairs_pairs. split; [reflexivity|]. split; [now left|]. split; reflexivity.
Qed.
(** ... and the transposed table then reads outside the result vector *)
Lemma shifted_transposed : exists t' res log, calcS true ["quartz"%string] ["logKr"; "gibbs_energy"]%string (addPairs [(20, 1)]) = Some (t', res, log) /\
  foutTransposed R true ["quartz"%string] ["logKr"; "gibbs_energy"]%string t' res = None.
Proof.
  unfold calculate. rewrite addPairs_pairs. cbn -[addPairs Rplus Rdiv Req_EM_T]. unfold idR.
  do 3 eexists. split; [reflexivity|]. unfold foutTransposed. rewrite addPairs_pairs. reflexivity.
Qed.
(** the property grid of three pairs with two temperatures and two pressures *)
Lemma grid_overrun : exists t' res log, calcS true ["quartz"%string] ["gibbs_energy"%string] (addPairs [(1, 1); (1, 2); (2, 1)]) = Some (t', res, log) /\
  foutGrid R true ["quartz"%string] t' res 0 = None.
Proof.
  unfold calculate. rewrite addPairs_pairs. cbn -[addPairs Rplus Rdiv Req_EM_T]. unfold idR.
  do 3 eexists. split; [reflexivity|]. unfold foutGrid. destruct (addPairs_Ts [(1, 1); (1, 2); (2, 1)]) as [A B]. rewrite A, B. cbn [map fst snd adds fold_left].
  assert (N12 : ~ In 2 [1]) by (intros [H|[]]; lra).
  change (add_new 1 []) with [1]. rewrite !(add_in 1 [1]) by now left. rewrite (add_out 2 [1] N12). rewrite (add_in 1 ([1] ++ [2])) by now left. reflexivity.
Qed.
(** on the saturation curve (pressure 0) the grid puts the value of the second temperature under
    the first one *)
Lemma grid_mixed : exists t' res log g, calcS true ["water"%string] ["gibbs_energy"%string] (addGrid true [10; 20] [0]) = Some (t', res, log) /\
  foutGrid R true ["water"%string] t' res 0 = Some g /\ ~ Forall (grow_right R sat_ask idR idR true (Ps t') "gibbs_energy"%string) g.
Proof.
  unfold calculate, addGrid. rewrite addPairs_pairs. cbn -[addPairs Rplus Rdiv Req_EM_T]. unfold idR.
  destruct (Req_EM_T 0 0) as [_|n]; [|congruence]. do 4 eexists. split; [reflexivity|]. unfold foutGrid. destruct (addPairs_Ts [(10, 10 / 10); (20, 20 / 10)]) as [A B]. rewrite A, B. cbn [map fst snd adds fold_left].
  change (add_new 10 []) with [10]. change (add_new (10 / 10) []) with [10 / 10]. rewrite (add_out 20 [10]) by (intros [H|[]]; lra). rewrite (add_out (20 / 10) [10 / 10]) by (intros [H|[]]; lra).
  split; [reflexivity|]. intros H. destruct (Forall_inv H) as [_ Hr]. pose proof (Forall_inv (Forall_inv_tail Hr)) as Hv.
  unfold is_value, sat_ask, idR in Hv. cbn [fst snd String.eqb Ascii.eqb Bool.eqb] in Hv. destruct (Req_EM_T (20 / 10) 0); inversion Hv; lra.
Qed.
(** a step that does not divide the range runs past its end *)
Lemma overshoot : increments 3 0 1 (3 / 4) = Some [0 - 3 / 4 + 3 / 4; 0 - 3 / 4 + 3 / 4 + 3 / 4; 0 - 3 / 4 + 3 / 4 + 3 / 4 + 3 / 4] /\ 1 < 0 - 3 / 4 + 3 / 4 + 3 / 4 + 3 / 4.
Proof.
  split; [|lra]. unfold increments. rewrite !rounds_S. destruct (Rlt_dec (0 - 3 / 4 + 3 / 4) 1) as [_|H]; [|exfalso; lra].
  destruct (Rlt_dec (0 - 3 / 4 + 3 / 4 + 3 / 4) 1) as [_|H]; [|exfalso; lra].
  destruct (Rlt_dec (0 - 3 / 4 + 3 / 4 + 3 / 4 + 3 / 4) 1) as [H|_]; [exfalso; lra|reflexivity].
Qed.
Lemma past_max_refuted : ~ (forall n min max step l, 0 < step -> min <= max -> increments n min max step = Some l -> forall x, In x l -> x <= max).
Proof.
  intros H. destruct overshoot as [E G]. assert (H1 : 0 < 3 / 4) by lra. assert (H2 : 0 <= 1) by lra.
  pose proof (H _ _ _ _ _ H1 H2 E (0 - 3 / 4 + 3 / 4 + 3 / 4 + 3 / 4) ltac:(right; right; now left)). lra.
Qed.

(** *** further statements *)
Lemma calc_shape : forall V ask toT toP fromP tpFirst symbols names t, exists t' res log,
  calculate V ask toT toP fromP tpFirst symbols names t = Some (t', res, log) /\
  length (pairs t') = length (pairs t) /\ length res = (length symbols * length (pairs t))%nat /\ map fst (pairs t') = map fst (pairs t).
Proof.
  intros V ask toT toP fromP tpFirst symbols names t. destruct (calculate_all V ask toT toP fromP tpFirst symbols names t) as (t' & res & log & E & L1 & L2 & Et & A & _).
  exists t', res, log. repeat split; try assumption.
  apply nth_ext with (d := 0) (d' := 0); [now rewrite !map_length|]. intros p Hp. rewrite map_length, L1 in Hp.
  pose proof (nth_error_nth' _ (pairs t) p (0, 0) Hp) as En. destruct (nth p (pairs t) (0, 0)) as [T P] eqn:Enp. pose proof (A p T P En) as En'.
  rewrite (nth_error_nth' _ (pairs t') p (0, 0)) in En' by lia. inversion En' as [H].
  change 0 with (fst (0, 0)). rewrite !map_nth, H, Enp. reflexivity.
Qed.
Lemma increments_all : forall min max step, 0 < step -> min <= max ->
  exists n l, increments n min max step = Some l /\ (forall m, (n <= m)%nat -> increments m min max step = Some l) /\
  hd_error l = Some min /\ (forall i, (i < length l)%nat -> nth i l 0 = min + INR i * step) /\ NoDup l /\
  (forall x, In x l -> min <= x < max + step) /\ (forall k, min + INR k * step <= max -> In (min + INR k * step) l).
Proof.
  intros min max step Hs Hm. destruct (increments_ends min max step Hs) as (n & l & E). exists n, l. split; [exact E|]. split; [|exact (increments_list n min max step l Hs Hm E)].
  intros m Hn. exact (rounds_more n m _ _ _ l Hn E).
Qed.
Lemma increments_exact : forall n min max step l k, 0 < step -> max = min + INR k * step -> increments n min max step = Some l ->
  l = map (fun i => min + INR i * step) (seq 0 (S k)).
Proof.
  intros n min max step l k Hs Hm E. pose proof (pos_INR k) as Hk. destruct (increments_list n min max step l Hs ltac:(nra) E) as (_ & B & ND & C & D).
  unfold increments in E. destruct (rounds_shape _ _ _ _ _ E) as (A & _ & F & _).
  assert (L : length l = S k).
  { destruct (Nat.lt_trichotomy (length l) (S k)) as [H|[H|H]]; [|exact H|]; exfalso.
    - assert (HI : In (min + INR k * step) l) by (apply D; lra). destruct (In_nth _ _ 0 HI) as (i & Hi & Ei). rewrite B in Ei by exact Hi.
      assert (i = k) by (apply INR_eq; nra). lia.
    - specialize (F k H). rewrite B in F by lia. lra. }
  apply nth_ext with (d := 0) (d' := min + INR 0 * step); [rewrite map_length, seq_length; exact L|]. intros i Hi. rewrite B by exact Hi.
  rewrite (map_nth (fun i => min + INR i * step)). rewrite seq_nth by lia. reflexivity.
Qed.
Lemma default_increments : increments 13 25 300 25 <> None.
Proof. unfold increments. destruct (rounds_ends 25 300 ltac:(lra) 12 (25 - 25)) as [l E]; [cbn; lra|]. congruence. Qed.
Lemma labels_quiet : forall V ask toT toP fromP symbols names t tpFirst, symbols <> [] ->
  quiet V ask toT toP fromP symbols (pairs t) -> known V ask toT toP symbols names (pairs t) ->
  exists t' res log rows trows, calculate V ask toT toP fromP tpFirst symbols names t = Some (t', res, log) /\
  foutResults V tpFirst symbols names t' res = Some rows /\ foutTransposed V tpFirst symbols names t' res = Some trows /\
  Forall (row_right V ask toT toP names) rows /\ Forall (trow_right V ask toT toP symbols) trows.
Proof.
  intros V ask toT toP fromP symbols names t tpFirst Hne Hq Hk. pose proof (quiet_settles V ask toT toP fromP symbols names (pairs t) Hq) as Hs.
  destruct (csv_w V ask toT toP fromP _ symbols names t Hs Hk tpFirst) as (t1 & r1 & l1 & rows & E1 & F1 & _ & G1).
  destruct (transposed_w V ask toT toP fromP _ symbols names t Hs Hk tpFirst Hne) as (t2 & r2 & l2 & trows & E2 & F2 & _ & G2).
  assert (E : Some (t1, r1, l1) = Some (t2, r2, l2)) by congruence. inversion E; subst. exists t2, r2, l2, rows, trows. auto.
Qed.
Lemma independent_quiet : forall V ask toT toP fromP tpFirst symbols symbols' names t k k' s p,
  quiet V ask toT toP fromP symbols (pairs t) -> quiet V ask toT toP fromP symbols' (pairs t) ->
  nth_error symbols k = Some s -> nth_error symbols' k' = Some s -> (p < length (pairs t))%nat ->
  exists t1 r1 l1 t2 r2 l2, calculate V ask toT toP fromP tpFirst symbols names t = Some (t1, r1, l1) /\ calculate V ask toT toP fromP tpFirst symbols' names t = Some (t2, r2, l2) /\
  nth_error r1 (if tpFirst then length (pairs t) * k + p else length symbols * p + k) = nth_error r2 (if tpFirst then length (pairs t) * k' + p else length symbols' * p + k') /\
  nth_error r1 (if tpFirst then length (pairs t) * k + p else length symbols * p + k) <> None.
Proof.
  intros V ask toT toP fromP tpFirst symbols symbols' names t k k' s p Hq Hq' Hk Hk' Hp.
  destruct (calculate_all V ask toT toP fromP tpFirst symbols names t) as (t1 & r1 & l1 & E1 & _ & _ & _ & _ & B1 & _).
  destruct (calculate_all V ask toT toP fromP tpFirst symbols' names t) as (t2 & r2 & l2 & E2 & _ & _ & _ & _ & B2 & _).
  exists t1, r1, l1, t2, r2, l2. split; [exact E1|]. split; [exact E2|].
  pose proof (nth_error_nth' _ (pairs t) p (0, 0) Hp) as En. destruct (nth p (pairs t) (0, 0)) as [T P] eqn:Enp.
  assert (Lk : (k < length symbols)%nat) by (apply nth_error_Some; congruence). assert (Lk' : (k' < length symbols')%nat) by (apply nth_error_Some; congruence).
  rewrite (B1 p k T P En Lk), (B2 p k' T P En Lk'). split; [|discriminate].
  assert (HI : In (T, P) (pairs t)) by (apply nth_error_In with p; exact En).
  assert (PA : forall sy, quiet V ask toT toP fromP sy (pairs t) -> forall ss, (forall s, In s ss -> In s sy) -> Pafter V ask toT toP fromP T P ss = P).
  { intros sy Q. unfold Pafter. induction ss as [|x ss IH]; intros Hs; [reflexivity|]. cbn [fold_left]. rewrite (Q x T P (Hs x (or_introl eq_refl)) HI).
    apply IH. intros y Hy. apply Hs. now right. }
  unfold stored. rewrite (PA symbols Hq), (PA symbols' Hq') by (intros x; apply in_firstn).
  rewrite (nth_error_nth _ _ ""%string Hk), (nth_error_nth _ _ ""%string Hk'). reflexivity.
Qed.
Lemma sat_settles1 : settles R sat_ask idR idR idR (fun _ P => P) ["quartz"; "water"]%string ["gibbs_energy"%string] [(20, 1); (30, 2)].
Proof. apply quiet_settles. intros s T P _ HP. unfold idR. apply sat_only_zero. destruct HP as [E|[E|[]]]; inversion E; lra. Qed.
Lemma sat_settles2 : settles R sat_ask idR idR idR (fun T P => if Req_EM_T P 0 then T / 10 else P) ["water"%string] ["gibbs_energy"%string] [(20, 0); (30, 2)].
Proof.
  intros s T P [<-|[]] HP. unfold idR, sat_ask. cbn [String.eqb Ascii.eqb Bool.eqb fst snd].
  assert (HT : T <> 0) by (destruct HP as [E|[E|[]]]; inversion E; lra).
  destruct (Req_EM_T P 0) as [H0|H0].
  - destruct (Req_EM_T (T / 10) 0); [exfalso; lra|]. auto.
  - destruct (Req_EM_T P 0); [contradiction|]. auto.
Qed.
Lemma grid_hypotheses : NoDup [10; 20] /\ quiet R sat_ask idR idR idR ["quartz"; "water"]%string (gridPairs true [10; 20] [1; 2]).
Proof.
  split; [constructor; [intros [H|[]]; lra|constructor; [intros []|constructor]]|]. intros s T P _ HP. unfold idR. apply sat_only_zero.
  cbn in HP. destruct HP as [E|[E|[E|[E|[]]]]]; inversion E; lra.
Qed.
