(** C26-C29, C57: batch calculations and their tables. *)
From Coq Require Import String List Reals Lra.
From Verif Require Import BatchModel BatchSpec BatchProofs BatchOut BatchGrid BatchWit.
Import ListNotations.
Open Scope R_scope.

(** C26: when all symbols settle on one pressure per pair (in particular when no pressure is 0),
    each row of the table carries the values of its own symbol, temperature and pressure, under
    the right labels; the rows are all combinations, each once; no index is out of range. *)
Theorem C26_table_partial : forall V ask toT toP fromP w symbols names t tpFirst,
  settles V ask toT toP fromP w symbols names (pairs t) -> known V ask toT toP symbols names (pairs t) ->
  exists t' res log rows, calculate V ask toT toP fromP tpFirst symbols names t = Some (t', res, log) /\
  foutResults V tpFirst symbols names t' res = Some rows /\
  map (key V) rows = (let ps := map (fun p => (fst p, w (fst p) (snd p))) (pairs t) in if tpFirst then outer_first symbols ps else pairs_outer symbols ps) /\
  Forall (row_right V ask toT toP names) rows.
Proof. exact (fun V ask toT toP fromP w symbols names t tpFirst Hs Hk => csv_w V ask toT toP fromP w symbols names t Hs Hk tpFirst). Qed.
Print Assumptions C26_table_partial.
Theorem C26_transposed_partial : forall V ask toT toP fromP w symbols names t tpFirst, symbols <> [] ->
  settles V ask toT toP fromP w symbols names (pairs t) -> known V ask toT toP symbols names (pairs t) ->
  exists t' res log rows, calculate V ask toT toP fromP tpFirst symbols names t = Some (t', res, log) /\
  foutTransposed V tpFirst symbols names t' res = Some rows /\
  map (key V) rows = (let ps := map (fun p => (fst p, w (fst p) (snd p))) (pairs t) in if tpFirst then outer_first names ps else pairs_outer names ps) /\
  Forall (trow_right V ask toT toP symbols) rows.
Proof. exact (fun V ask toT toP fromP w symbols names t tpFirst Hn Hs Hk => transposed_w V ask toT toP fromP w symbols names t Hs Hk tpFirst Hn). Qed.
Print Assumptions C26_transposed_partial.
(** each combination is calculated exactly once, in the order of the loops *)
Theorem C26_calls : forall V ask toT toP fromP tpFirst symbols names t, quiet V ask toT toP fromP symbols (pairs t) ->
  exists t' res log, calculate V ask toT toP fromP tpFirst symbols names t = Some (t', res, log) /\ pairs t' = pairs t /\
  log = if tpFirst then flat_map (fun p => map (fun s => (s, toT (fst p), toP (snd p))) symbols) (pairs t)
        else flat_map (fun s => map (fun p => (s, toT (fst p), toP (snd p))) (pairs t)) symbols.
Proof. exact calls_quiet. Qed.
Print Assumptions C26_calls.
(** no run of calculate indexes outside its vectors, whatever the engine does to the pressure *)
Theorem C26_no_overrun : forall V ask toT toP fromP tpFirst symbols names t, exists t' res log,
  calculate V ask toT toP fromP tpFirst symbols names t = Some (t', res, log) /\
  length (pairs t') = length (pairs t) /\ length res = (length symbols * length (pairs t))%nat /\ map fst (pairs t') = map fst (pairs t).
Proof. exact calc_shape. Qed.
Print Assumptions C26_no_overrun.
(** with a zero pressure and a mineral listed before water the row of the mineral is labelled with
    a pressure it was not calculated at *)
Theorem C26_label_refuted : (forall s T P, P <> 0 -> fst (sat_ask s T P) = P) /\
  exists t' res log rows, calculate R sat_ask idR idR idR true ["quartz"; "water"]%string ["gibbs_energy"%string] one_pair = Some (t', res, log) /\
  foutResults R true ["quartz"; "water"]%string ["gibbs_energy"%string] t' res = Some rows /\ ~ Forall (row_right R sat_ask idR idR ["gibbs_energy"%string]) rows.
Proof. exact (conj sat_only_zero label_wrong). Qed.
Print Assumptions C26_label_refuted.
Example C26_hypotheses : settles R sat_ask idR idR idR (fun _ P => P) ["quartz"; "water"]%string ["gibbs_energy"%string] [(20, 1); (30, 2)] /\
  settles R sat_ask idR idR idR (fun T P => if Req_EM_T P 0 then T / 10 else P) ["water"%string] ["gibbs_energy"%string] [(20, 0); (30, 2)] /\
  known R sat_ask idR idR ["quartz"; "water"]%string ["gibbs_energy"%string] [(20, 1); (30, 2)].
Proof. exact (conj sat_settles1 (conj sat_settles2 (sat_known _ _))). Qed.

(** C27: the generated list starts at the minimum, advances by the step without repetition, covers
    every multiple up to the maximum, and passes the maximum by less than a step. *)
Theorem C27_increments_partial : forall min max step, 0 < step -> min <= max ->
  exists n l, increments n min max step = Some l /\ (forall m, (n <= m)%nat -> increments m min max step = Some l) /\
  hd_error l = Some min /\ (forall i, (i < length l)%nat -> nth i l 0 = min + INR i * step) /\ NoDup l /\
  (forall x, In x l -> min <= x < max + step) /\ (forall k, min + INR k * step <= max -> In (min + INR k * step) l).
Proof. exact increments_all. Qed.
Print Assumptions C27_increments_partial.
(** when the step divides the range the list does end at the maximum *)
Theorem C27_exact_range : forall n min max step l k, 0 < step -> max = min + INR k * step -> increments n min max step = Some l ->
  l = map (fun i => min + INR i * step) (seq 0 (S k)).
Proof. exact increments_exact. Qed.
Print Assumptions C27_exact_range.
Theorem C27_past_max_refuted : ~ (forall n min max step l, 0 < step -> min <= max -> increments n min max step = Some l -> forall x, In x l -> x <= max).
Proof. exact past_max_refuted. Qed.
Print Assumptions C27_past_max_refuted.
Theorem C27_ends_refuted : forall min max step, step <= 0 -> min < max -> forall n, increments n min max step = None.
Proof. exact increments_hang. Qed.
Print Assumptions C27_ends_refuted.
Example C27_default : increments 13 25 300 25 <> None.
Proof. exact default_increments. Qed.

(** C28: every requested property name of the right kind labels its own value (rows of both tables);
    this is the second half of C26_table_partial for an engine that leaves the pressure alone. *)
Theorem C28_labels_partial : forall V ask toT toP fromP symbols names t tpFirst, symbols <> [] ->
  quiet V ask toT toP fromP symbols (pairs t) -> known V ask toT toP symbols names (pairs t) ->
  exists t' res log rows trows, calculate V ask toT toP fromP tpFirst symbols names t = Some (t', res, log) /\
  foutResults V tpFirst symbols names t' res = Some rows /\ foutTransposed V tpFirst symbols names t' res = Some trows /\
  Forall (row_right V ask toT toP names) rows /\ Forall (trow_right V ask toT toP symbols) trows.
Proof. exact labels_quiet. Qed.
Print Assumptions C28_labels_partial.
Theorem C28_shift_refuted : exists t' res log rows, calculate R sat_ask idR idR idR true ["quartz"%string] ["logKr"; "gibbs_energy"]%string (addPairs [(20, 1)]) = Some (t', res, log) /\
  foutResults R true ["quartz"%string] ["logKr"; "gibbs_energy"]%string t' res = Some rows /\
  In ("quartz"%string, 20, 1, [("logKr"%string, 20 + 1)]) rows /\ snd (sat_ask "quartz" 20 1) "gibbs_energy"%string = Some (20 + 1) /\ snd (sat_ask "quartz" 20 1) "logKr"%string = None.
Proof. exact shifted. Qed.
Print Assumptions C28_shift_refuted.
Theorem C28_transposed_refuted : exists t' res log, calculate R sat_ask idR idR idR true ["quartz"%string] ["logKr"; "gibbs_energy"]%string (addPairs [(20, 1)]) = Some (t', res, log) /\
  foutTransposed R true ["quartz"%string] ["logKr"; "gibbs_energy"]%string t' res = None.
Proof. exact shifted_transposed. Qed.
Print Assumptions C28_transposed_refuted.

(** C29: for pairs built from distinct temperatures and distinct pressures, with the pressure left
    alone, the grid is right and complete. *)
Theorem C29_grid_partial : forall V ask toT toP fromP b symbols names ts ps idx n, NoDup ts -> NoDup ps -> ts <> [] -> ps <> [] -> symbols <> [] ->
  quiet V ask toT toP fromP symbols (gridPairs b ts ps) -> known V ask toT toP symbols names (gridPairs b ts ps) -> nth_error names idx = Some n ->
  let rows := if b then ts else ps in let cols := if b then ps else ts in
  exists t' res log g, calculate V ask toT toP fromP true symbols names (addGrid b ts ps) = Some (t', res, log) /\ foutGrid V b symbols t' res idx = Some g /\
    map (gkey V) g = flat_map (fun s => map (fun r => (s, r)) rows) symbols /\ Forall (grow_right V ask toT toP b cols n) g.
Proof. exact grid_quiet. Qed.
Print Assumptions C29_grid_partial.
Theorem C29_overrun_refuted : exists t' res log, calculate R sat_ask idR idR idR true ["quartz"%string] ["gibbs_energy"%string] (addPairs [(1, 1); (1, 2); (2, 1)]) = Some (t', res, log) /\
  foutGrid R true ["quartz"%string] t' res 0 = None.
Proof. exact grid_overrun. Qed.
Print Assumptions C29_overrun_refuted.
Theorem C29_saturation_refuted : exists t' res log g, calculate R sat_ask idR idR idR true ["water"%string] ["gibbs_energy"%string] (addGrid true [10; 20] [0]) = Some (t', res, log) /\
  foutGrid R true ["water"%string] t' res 0 = Some g /\ ~ Forall (grow_right R sat_ask idR idR true (Ps t') "gibbs_energy"%string) g.
Proof. exact grid_mixed. Qed.
Print Assumptions C29_saturation_refuted.
Example C29_hypotheses : NoDup [10; 20] /\ quiet R sat_ask idR idR idR ["quartz"; "water"]%string (gridPairs true [10; 20] [1; 2]).
Proof. exact grid_hypotheses. Qed.

(** C57: what is stored for a symbol does not depend on the other symbols of the request. *)
Theorem C57_independent_partial : forall V ask toT toP fromP tpFirst symbols symbols' names t k k' s p,
  quiet V ask toT toP fromP symbols (pairs t) -> quiet V ask toT toP fromP symbols' (pairs t) ->
  nth_error symbols k = Some s -> nth_error symbols' k' = Some s -> (p < length (pairs t))%nat ->
  exists t1 r1 l1 t2 r2 l2, calculate V ask toT toP fromP tpFirst symbols names t = Some (t1, r1, l1) /\ calculate V ask toT toP fromP tpFirst symbols' names t = Some (t2, r2, l2) /\
  nth_error r1 (if tpFirst then length (pairs t) * k + p else length symbols * p + k) = nth_error r2 (if tpFirst then length (pairs t) * k' + p else length symbols' * p + k') /\
  nth_error r1 (if tpFirst then length (pairs t) * k + p else length symbols * p + k) <> None.
Proof. exact independent_quiet. Qed.
Print Assumptions C57_independent_partial.
Theorem C57_order_refuted : exists t1 r1 l1 t2 r2 l2 v1 v2 P1 P2 rows1 rows2,
  calculate R sat_ask idR idR idR true ["quartz"; "water"]%string ["gibbs_energy"%string] one_pair = Some (t1, r1, l1) /\
  calculate R sat_ask idR idR idR true ["water"; "quartz"]%string ["gibbs_energy"%string] one_pair = Some (t2, r2, l2) /\
  foutResults R true ["quartz"; "water"]%string ["gibbs_energy"%string] t1 r1 = Some rows1 /\ foutResults R true ["water"; "quartz"]%string ["gibbs_energy"%string] t2 r2 = Some rows2 /\
  In ("quartz"%string, 20, P1, [("gibbs_energy"%string, v1)]) rows1 /\ In ("quartz"%string, 20, P2, [("gibbs_energy"%string, v2)]) rows2 /\ P1 = P2 /\ v1 <> v2.
Proof. exact order_matters. Qed.
Print Assumptions C57_order_refuted.
