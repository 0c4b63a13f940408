(** Proofs about the check of limits and the messages of reactions. *)
From Coq Require Import Reals Lra Lia String Bool List.
From Verif Require Import ThermoScalarModel EngineModel EngineSpec EngineProofs EngineWit GasModel BoundsModel.
From Verif Require JsonModel.
Import ListNotations.
Open Scope R_scope.

(** the temperature or the pressure is outside the limits *)
Definition outside (l : limits) (T P : R) : Prop := upP l < P \/ upT l < T \/ P < lowP l \/ T < lowT l.
Definition props : list (TPS -> TS) := [G; A; U; H; S; V; Cp; Cv].
Definition rprops : list (TPR -> TS) := [rG; rA; rU; rH; rS; rV; rCp; rCv].
Definition nums (x : TS) : R * R * R * R := (val x, ddt x, ddp x, err x).
Definition known (x : TS) : Prop := fst (sta x) <> notdefined.
(** every property of the list has been calculated and carries this message *)
Definition told (fs : list (TPS -> TS)) (r : TPS) (msg : string) : Prop := forall f, In f fs -> sta (f r) = (calculated, msg).

Lemma beyond_iff : forall l T P, beyond l T P = true <-> outside l T P.
Proof.
  intros l T P. unfold beyond, outside, ltb. rewrite !orb_true_iff.
  destruct (Rlt_dec (upP l) P), (Rlt_dec (upT l) T), (Rlt_dec P (lowP l)), (Rlt_dec T (lowT l)); split; intros; try tauto; try (destruct H as [[[H|H]|H]|H]; discriminate).
Qed.
Lemma beyond_no : forall l T P, beyond l T P = false <-> ~ outside l T P.
Proof. intros l T P. rewrite <- beyond_iff. destruct (beyond l T P); split; congruence. Qed.
Lemma note_one : forall m x, let y := add_note calculated m x in nums y = nums x /\ fst (sta y) = fst (sta x) /\
  (fst (sta x) = calculated -> snd (sta y) = (snd (sta x) ++ m ++ "; ")%string) /\ (fst (sta x) <> calculated -> y = x).
Proof.
  intros m [v a b e [s n]]. unfold add_note. cbn. destruct s; cbn; repeat split; try congruence; intros; exfalso; congruence.
Qed.
Lemma check_exact : forall show l name T P t f, In f props -> let r := checkS show l name T P t in
  nums (f r) = nums (f t) /\ fst (sta (f r)) = fst (sta (f t)) /\
  (outside l T P -> fst (sta (f t)) = calculated -> snd (sta (f r)) = (snd (sta (f t)) ++ note show name l ++ "; ")%string) /\
  (~ outside l T P \/ fst (sta (f t)) <> calculated -> f r = f t).
Proof.
  intros show l name T P t f Hf r. unfold r, checkS. destruct (beyond l T P) eqn:E.
  - apply beyond_iff in E. assert (Ef : f (setMessageS calculated (note show name l) t) = add_note calculated (note show name l) (f t)).
    { cbn in Hf. repeat (destruct Hf as [<-|Hf]; [reflexivity|]). destruct Hf. }
    rewrite Ef. destruct (note_one (note show name l) (f t)) as (N1 & N2 & N3 & N4). repeat split; try assumption; [intros _; exact N3|]. intros [X|X]; [contradiction|exact (N4 X)].
  - apply beyond_no in E. repeat split; intros; try contradiction; reflexivity.
Qed.
Lemma check_exact_R : forall show l name T P t f, In f rprops -> let r := checkR show l name T P t in
  nums (f r) = nums (f t) /\ fst (sta (f r)) = fst (sta (f t)) /\ lnK r = lnK t /\ logK r = logK t /\
  (outside l T P -> fst (sta (f t)) = calculated -> snd (sta (f r)) = (snd (sta (f t)) ++ note show name l ++ "; ")%string) /\
  (~ outside l T P \/ fst (sta (f t)) <> calculated -> f r = f t).
Proof.
  intros show l name T P t f Hf r. unfold r, checkR. destruct (beyond l T P) eqn:E.
  - apply beyond_iff in E. assert (Ef : f (setMessageR calculated (note show name l) t) = add_note calculated (note show name l) (f t)).
    { cbn in Hf. repeat (destruct Hf as [<-|Hf]; [reflexivity|]). destruct Hf. }
    rewrite Ef. destruct (note_one (note show name l) (f t)) as (N1 & N2 & N3 & N4). repeat split; try assumption; [intros _; exact N3|]. intros [X|X]; [contradiction|exact (N4 X)].
  - apply beyond_no in E. repeat split; intros; try contradiction; reflexivity.
Qed.

(** *** statuses of sums and products *)
Lemma st2 : forall x y, known x -> known y -> status2 x y = (calculated, EmptyString).
Proof. intros x y Hx Hy. unfold status2, known in *. destruct (fst (sta x)), (fst (sta y)); cbn; congruence. Qed.
Lemma st1 : forall x, known x -> status1 x = (calculated, EmptyString).
Proof. intros x Hx. unfold status1, known in *. destruct (fst (sta x)); cbn; congruence. Qed.
Lemma add_st : forall x y, known x -> known y -> sta (ip_add x y) = (calculated, EmptyString).
Proof. intros x y Hx Hy. unfold ip_add, status_ip. cbn [sta]. now apply st2. Qed.
Lemma isub_st : forall x y, known x -> known y -> sta (ip_sub x y) = (calculated, EmptyString).
Proof. intros x y Hx Hy. unfold ip_sub, status_ip. cbn [sta]. now apply st2. Qed.
Lemma sub_st : forall x y, known x -> known y -> sta (ts_sub x y) = (calculated, EmptyString).
Proof. intros x y Hx Hy. unfold ts_sub, ctor5. cbn [sta]. now apply st2. Qed.
Lemma mul_st : forall x y, known x -> known y -> sta (ts_mul x y) = (calculated, EmptyString).
Proof. intros x y Hx Hy. unfold ts_mul, ctor5. cbn [sta]. now apply st2. Qed.
Lemma calc_known : forall x m, sta x = (calculated, m) -> known x.
Proof. intros x m E. unfold known. rewrite E. discriminate. Qed.

(** the check on a clean calculated property *)
Definition verdict (show : R -> string) (l : limits) (name : string) (T P : R) (msg : string) : Prop :=
  (outside l T P -> msg = (note show name l ++ "; ")%string) /\ (~ outside l T P -> msg = EmptyString).
Lemma check_told : forall show l name T P t fs, incl fs props -> told fs t EmptyString ->
  exists msg, verdict show l name T P msg /\ told fs (checkS show l name T P t) msg.
Proof.
  intros show l name T P t fs Hi Ht. destruct (beyond l T P) eqn:E.
  - assert (O := proj1 (beyond_iff _ _ _) E). exists (note show name l ++ "; ")%string. split; [split; intros; [reflexivity|contradiction]|].
    intros f Hf. destruct (check_exact show l name T P t f (Hi f Hf)) as (_ & C1 & C2 & _). rewrite (Ht f Hf) in *. specialize (C2 O eq_refl).
    rewrite (surjective_pairing (sta _)). rewrite C1, C2. reflexivity.
  - assert (O := proj1 (beyond_no _ _ _) E). exists EmptyString. split; [split; intros; [contradiction|reflexivity]|].
    intros f Hf. destruct (check_exact show l name T P t f (Hi f Hf)) as (_ & _ & _ & C3). rewrite C3 by (now left). now apply Ht.
Qed.

(** *** minerals *)
Definition seven : list (TPS -> TS) := [G; H; S; V; Cp; U; A].
Definition six : list (TPS -> TS) := [G; H; S; V; U; A].
Definition eight : list (TPS -> TS) := [G; H; S; V; Cp; U; A; Cv].
Ltac inp := let f := fresh in let Hf := fresh in intros f Hf; cbn in Hf |- *; repeat (destruct Hf as [<-|Hf]; [tauto|]); destruct Hf.
Lemma incl7 : incl seven props. Proof. inp. Qed.
Lemma incl6 : incl six props. Proof. inp. Qed.
Lemma incl8 : incl eight props. Proof. inp. Qed.
Ltac kn := repeat first [assumption | (eapply calc_known; (apply add_st || apply sub_st || apply mul_st))].
Ltac cl := let f := fresh in let Hf := fresh in intros f Hf; cbn in Hf; repeat (destruct Hf as [<-|Hf]; [cbn [G A U H S V Cp Cv]; first [apply add_st|apply sub_st|apply mul_st]; kn|]); destruct Hf.
Lemma mur_told : forall show l dg dh ds dv dc tk p t, known dg -> known dh -> known ds -> known dv -> known dc -> known tk -> known p ->
  known (G t) -> known (H t) -> known (S t) -> known (V t) -> known (Cp t) ->
  exists msg, verdict show l "Holland and Powell Murnaghan model" (val tk) (val p * 100000) msg /\ told seven (murnaghan_run show l dg dh ds dv dc tk p t) msg.
Proof. intros. apply check_told; [exact incl7|]. unfold murnaghan_ts. cbv zeta. cl. Qed.
Lemma lan_told : forall show l dg dh ds v dc tk p t, known dg -> known dh -> known ds -> sta v = (calculated, EmptyString) -> known tk -> known p ->
  known (G t) -> known (H t) -> known (S t) ->
  exists msg, verdict show l "Holland and Powell Landau model" (val tk) (val p * 100000) msg /\ told six (landau_run show l dg dh ds v dc tk p t) msg.
Proof.
  intros show l dg dh ds v dc tk p t Q1 Q2 Q3 Hv Q4 Q5 Q6 Q7 Q8. assert (Kv := calc_known _ _ Hv). apply check_told; [exact incl6|]. unfold landau_ts. cbv zeta.
  intros f Hf. cbn in Hf. repeat (destruct Hf as [<-|Hf]; [cbn [G A U H S V Cp Cv]; first [exact Hv|apply add_st|apply sub_st|apply mul_st]; kn|]); destruct Hf.
Qed.
Lemma ber_told : forall show l rv vp dg dh ds dv tk p t, known rv -> known vp -> known dg -> known dh -> known ds -> known dv -> known tk -> known p ->
  known (G t) -> known (H t) -> known (S t) ->
  exists msg, verdict show l "Berman multisite model" (val tk) (val p * 100000) msg /\ told six (berman_run show l rv vp dg dh ds dv tk p t) msg.
Proof. intros. apply check_told; [exact incl6|]. unfold berman_ts. cbv zeta. cl. Qed.
Lemma bir_told : forall show l dg dh ds dv tk p t, known dg -> known dh -> known ds -> known dv -> known tk -> known p ->
  known (G t) -> known (H t) -> known (S t) -> known (V t) ->
  exists msg, verdict show l "BMGottschalk model" (val tk) (val p * 100000) msg /\ told six (birch_run show l dg dh ds dv tk p t) msg.
Proof. intros. apply check_told; [exact incl6|]. unfold birch_ts. cbv zeta. cl. Qed.
Lemma hkf_told : forall show l rho g h s v u a c tk p, 600 < rho < 1400 -> told eight (hkf_ts g h s v u a c) EmptyString ->
  exists msg, verdict show l "HKF model" (val tk) (val p * 100000) msg /\ told eight (hkf_gems_run show l rho tk p (hkf_ts g h s v u a c)) msg.
Proof.
  intros show l rho g h s v u a c tk p Hr Ht. unfold hkf_gems_run, water_note. destruct (Rle_dec 1400 rho); [lra|]. destruct (Rle_dec rho 600); [lra|]. cbn [orb].
  apply check_told; [exact incl8|exact Ht].
Qed.
(** the second HKF model compares degrees centigrade and bar with the limits in K and Pa *)
Lemma hkfr_told : forall show l rho g h s v u a c tk p, 600 < rho < 1400 -> told eight (hkf_ts g h s v u a c) EmptyString ->
  exists msg, verdict show l "HKF model" (val tk - 27315 / 100) (val p) msg /\ told eight (hkf_reaktoro_run show l rho tk p (hkf_ts g h s v u a c)) msg.
Proof.
  intros show l rho g h s v u a c tk p Hr Ht. unfold hkf_reaktoro_run, water_note. destruct (Rle_dec 1400 rho); [lra|]. destruct (Rle_dec rho 600); [lra|]. cbn [orb].
  apply check_told; [exact incl8|exact Ht].
Qed.
Definition cs : TS := mkTS 1 0 0 0 (calculated, EmptyString).
Definition clean : TPS := hkf_ts cs cs cs cs cs cs cs.
Lemma clean_told : told eight clean EmptyString.
Proof. intros f Hf. cbn in Hf. repeat (destruct Hf as [<-|Hf]; [reflexivity|]). destruct Hf. Qed.
Lemma app_nonempty : forall a b, a <> EmptyString -> (a ++ b)%string <> EmptyString.
Proof. intros [|x a] b Ha; [congruence|discriminate]. Qed.
Lemma note_some : forall show name l, (note show name l ++ "; ")%string <> EmptyString.
Proof. intros show name l. unfold note. destruct name; discriminate. Qed.
Lemma hkfr_wrong : forall show, exists l T P T' P', ~ outside l T (P * 100000) /\ sta (G (hkf_reaktoro_run show l 1000 (Temperature T) (Pressure P) clean)) <> (calculated, EmptyString) /\
  outside l T' (P' * 100000) /\ sta (G (hkf_reaktoro_run show l 1000 (Temperature T') (Pressure P') clean)) = (calculated, EmptyString).
Proof.
  intros show. exists (mkLim (27315 / 100) (127315 / 100) 100 500000000), 300, 1, 1500, 200.
  assert (Ho : outside (mkLim (27315 / 100) (127315 / 100) 100 500000000) (300 - 27315 / 100) 1) by (unfold outside; cbn; lra).
  assert (Hi : ~ outside (mkLim (27315 / 100) (127315 / 100) 100 500000000) (1500 - 27315 / 100) 200) by (unfold outside; cbn; lra).
  split; [unfold outside; cbn; lra|]. split; [|split; [unfold outside; cbn; lra|]].
  - destruct (hkfr_told show (mkLim (27315 / 100) (127315 / 100) 100 500000000) 1000 cs cs cs cs cs cs cs (Temperature 300) (Pressure 1)) as (msg & [V1 _] & E); [lra|exact clean_told|].
    unfold clean. rewrite (E G) by (left; reflexivity). cbn [Temperature Pressure ctor5 val] in V1. rewrite (V1 Ho). intros X. apply (f_equal snd) in X. exact (note_some _ _ _ X).
  - destruct (hkfr_told show (mkLim (27315 / 100) (127315 / 100) 100 500000000) 1000 cs cs cs cs cs cs cs (Temperature 1500) (Pressure 200)) as (msg & [_ V2] & E); [lra|exact clean_told|].
    unfold clean. rewrite (E G) by (left; reflexivity). cbn [Temperature Pressure ctor5 val] in V2. rewrite (V2 Hi). reflexivity.
Qed.
(** gases *)
Lemma mul_d_known : forall x c, known x -> known (d_mul_ts c x).
Proof. intros x c Hx. unfold known, d_mul_ts in *. destruct (is0 (val x)); unfold ctor5; cbn [sta]; rewrite st1 by exact Hx; discriminate. Qed.
Lemma gas_told : forall show l name f tk p t, known tk -> known p -> known (G t) -> 0 < val p -> let r := gas_run show l name f tk p t in
  (exists msg, verdict show l name (val tk) (val p * 100000) msg /\ told [G] r msg) /\
  sta (V r) = (assigned, EmptyString) /\ sta (Cv r) = sta (Cv (checkS show l name (val tk) (val p * 100000) t)) /\
  (forall q, In q [H; S; Cp; U; A] -> sta (q r) = sta (q (checkS show l name (val tk) (val p * 100000) t))).
Proof.
  intros show l name f tk p t Ht Hp Hg Pp. cbv zeta. unfold gas_run. assert (Ep : gas_pressure p = p) by (unfold gas_pressure; destruct (Req_EM_T (val p) 0); [lra|reflexivity]).
  rewrite Ep. unfold bar_to_Pa. split; [|split; [|split]].
  - apply check_told; [intros q [<-|[]]; left; reflexivity|]. intros q [<-|[]]. unfold gas_apply. rewrite Ep. cbv zeta. cbn [G].
    assert (K1 : known (d_mul_ts R_CONSTANT tk)) by now apply mul_d_known. assert (K2 : known (ts_mul_d (d_mul_ts R_CONSTANT tk) (ln (f_phi f)))) by (unfold ts_mul_d; now apply mul_d_known).
    assert (K3 : known (d_mul_ts (f_phi f) p)) by now apply mul_d_known.
    assert (K4 : known (ts_div (d_mul_ts (f_phi f) p) p)) by (unfold known, ts_div, ctor5; cbn [sta]; rewrite st2 by assumption; discriminate).
    assert (K5 : known (ts_log (ts_div (d_mul_ts (f_phi f) p) p))) by (unfold known, ts_log; destruct (is0 _); unfold ctor5; cbn [sta]; rewrite st1 by assumption; discriminate).
    apply isub_st; [eapply calc_known; now apply add_st|eapply calc_known; now apply mul_st].
  - unfold checkS. destruct (beyond _ _ _); [|reflexivity]. reflexivity.
  - unfold checkS. destruct (beyond _ _ _); reflexivity.
  - intros q Hq. unfold checkS. destruct (beyond _ _ _); cbn in Hq; repeat (destruct Hq as [<-|Hq]; [cbn [setMessageS gas_apply G A U H S V Cp Cv]; unfold add_note, ip_add_d; cbn [sta]; try reflexivity; destruct (status_eqb _ _); reflexivity|]); destruct Hq.
Qed.
(** every pressure above 0 is outside the limits of a substance read from JSON *)
Lemma json_always : forall s T P, 0 < P -> outside (json_limits s) T P.
Proof. intros s T P HP. left. exact HP. Qed.
Lemma ad_silent : forall show l tk p tps state, ad_run show l tk p tps state = state.
Proof. reflexivity. Qed.
(** a correction applied after a warning removes it *)
Lemma con_clears : forall s T P t m, fst (sta (V (s_ref s))) <> notdefined -> sta (G t) = (calculated, m) -> known (H t) ->
  sta (G (conMolVol s T P t)) = (calculated, EmptyString) /\ sta (H (conMolVol s T P t)) = (calculated, EmptyString) /\
  sta (S (conMolVol s T P t)) = sta (S t) /\ sta (Cp (conMolVol s T P t)) = sta (Cp t).
Proof.
  intros s T P t m Hv Hg Hh. unfold conMolVol. destruct (status_eqb (fst (sta (V (s_ref s)))) notdefined) eqn:E.
  - destruct (fst (sta (V (s_ref s)))); try discriminate. congruence.
  - assert (Kd : known (ts_mul (V (s_ref s)) (ts_sub_d (ip_div_d (Pressure P) bar_to_Pa) (s_refP s / bar_to_Pa)))).
    { eapply calc_known. apply mul_st; [exact Hv|]. unfold known, ts_sub_d, ctor5. cbn [sta]. rewrite st1; [discriminate|]. unfold known. cbn. discriminate. }
    cbn [G H S Cp]. repeat split; apply add_st; try assumption. eapply calc_known, Hg.
Qed.

(** *** reactions from their components *)
Definition word (msg prop name : string) (x : TS) : string :=
  match fst (sta x) with notdefined => (prop ++ " of component " ++ name ++ " not defined; ")%string | _ => (msg ++ snd (sta x))%string end.
Lemma str_assoc : forall a b c : string, ((a ++ b) ++ c)%string = (a ++ b ++ c)%string.
Proof. induction a as [|x a IH]; intros b c; cbn; [reflexivity|]. now rewrite IH. Qed.
Lemma mul_d_msg : forall x c, snd (sta (ts_mul_d x c)) = EmptyString.
Proof. intros x c. unfold ts_mul_d, d_mul_ts. destruct (is0 (val x)); unfold ctor5; cbn [sta]; unfold status1; destruct (status_eqb _ _); reflexivity. Qed.
Lemma ip_add_msg : forall x y, snd (sta (ip_add x y)) = EmptyString.
Proof. intros. unfold ip_add, status_ip, status2. cbn [sta]. destruct (_ || _)%bool; reflexivity. Qed.
Lemma set_word : forall prop msg name x y, snd (sta y) = EmptyString ->
  snd (sta (set_msg (fst (sta x)) (prop ++ " of component " ++ name) (msg ++ snd (sta x)) y)) = word msg prop name x.
Proof. intros prop msg name x y E. unfold set_msg, word. cbn [sta snd]. rewrite E. destruct (fst (sta x)); try reflexivity. cbn. now rewrite !str_assoc. Qed.
Lemma fold_last : forall T msg x c l vs u a, length vs = length l ->
  let r := fold_add T msg (l ++ [(x, c)]) (vs ++ [u]) a in
  snd (sta (rG r)) = word msg "G0" x (G u) /\ snd (sta (rH r)) = word msg "H0" x (H u) /\ snd (sta (rS r)) = word msg "S0" x (S u) /\
  snd (sta (rV r)) = word msg "V0" x (V u) /\ snd (sta (rCp r)) = word msg "Cp" x (Cp u) /\
  snd (sta (lnK r)) = word msg "G0" x (G u) /\ snd (sta (logK r)) = word msg "G0" x (G u).
Proof.
  intros T msg x c l. induction l as [|[y d] l IH]; intros [|v vs] u a Hlen; cbn in Hlen; try discriminate; cbv zeta.
  - cbn [app fold_add]. unfold add_reactant. cbv zeta. cbn [rG rH rS rV rCp lnK logK].
    split; [apply set_word, ip_add_msg|]. split; [apply set_word, ip_add_msg|]. split; [apply set_word, ip_add_msg|]. split; [apply set_word, ip_add_msg|]. split; [apply set_word, ip_add_msg|].
    split; apply set_word; [unfold ts_div_d|]; apply mul_d_msg.
  - cbn [app fold_add]. apply IH. lia.
Qed.
Lemma reaction_words : forall mm n T r e e' t l x c,
  r_reactants r = (l ++ [(x, c)])%list -> reacFromReactants mm n T r e = (e', Ret t) ->
  exists ts u e1, answers (substFn mm n T) (species (r_reactants r)) (with_applyP e true) (ts ++ [u])%list e1 /\
  let msg := ("Calculated from the reaction components: " ++ r_symbol r ++ "; ")%string in
  snd (sta (rG t)) = word msg "G0" x (G u) /\ snd (sta (rH t)) = word msg "H0" x (H u) /\ snd (sta (rS t)) = word msg "S0" x (S u) /\
  snd (sta (rV t)) = word msg "V0" x (V u) /\ snd (sta (rCp t)) = word msg "Cp" x (Cp u) /\
  snd (sta (lnK t)) = word msg "G0" x (G u) /\ snd (sta (logK t)) = word msg "G0" x (G u).
Proof.
  intros mm n T r e e' t l x c Hl Hr. apply fromReactants_inv in Hr.
  destruct Hr as (ts & e1 & Ha & _ & Ht & Hlen).
  rewrite Hl in *. destruct (rev ts) as [|u us] eqn:Er.
  { apply (f_equal (@rev _)) in Er. rewrite rev_involutive in Er. subst ts.
    rewrite app_length in Hlen. cbn in Hlen. lia. }
  apply (f_equal (@rev _)) in Er. rewrite rev_involutive in Er. cbn in Er. subst ts.
  exists (rev us), u, e1. split; [exact Ha|]. rewrite Ht. cbv zeta. apply fold_last. rewrite !app_length in Hlen. cbn in Hlen. lia.
Qed.
(** a witness: the first component carries a warning *)
Definition warned : TPS := let w := mkTS 3 0 0 0 (calculated, "out of bounds; "%string) in mkTPS w w w w w w w w.
Definition exWarned : Subst := mkSubst "A" CTPM_CON 0 0 OTHERCLASS false false "" 298 100000 warned.
Definition w_engine : est := new_engine [("A"%string, exWarned); ("B"%string, exC "B" 4 7)] [("AB"%string, exAB)] (mkTriple 0 0 0 0 0).
Lemma warning_lost : forall mm T P, exists e' t, reacFromReactants mm 3 T exAB (with_pv w_engine P) = (e', Ret t) /\
  sta (rG t) = (calculated, "Calculated from the reaction components: AB; "%string) /\
  exists e1, substFn mm 3 T "A" (with_applyP (with_pv w_engine P) true) = (e1, Ret warned).
Proof.
  intros mm T P. set (e0 := with_applyP (with_pv w_engine P) true).
  set (eA := with_caches (with_state e0 0) [((T, P, "A"%string), warned)] [] [] []).
  set (eB := with_caches (with_state e0 0) [((T, P, "B"%string), const 4 7); ((T, P, "A"%string), warned)] [] [] []).
  assert (QA : substFn mm 3 T "A" e0 = (eA, Ret warned)) by (runo; reflexivity).
  assert (QB : substFn mm 3 T "B" eA = (eB, Ret (const 4 7))).
  { rewrite substFn_S. unfold memoS. unfold bind at 1, get at 1.
    assert (El : lookup skey_eqb (T, pv eA, "B"%string) (c_s eA) = None).
    { cbn. now rewrite andb_false_r. }
    rewrite El. runo. reflexivity. }
  assert (exists e', reacFromReactants mm 3 T exAB (with_pv w_engine P) = (e', Ret (fold_add T ("Calculated from the reaction components: " ++ "AB" ++ "; ") [("A"%string, 1); ("B"%string, 1)] [warned; const 4 7] zeroTPR))) as (e' & Et).
  { unfold reacFromReactants, fromReactants. unfold bind at 1, upd at 1. fold e0.
    unfold bind at 1. cbn [r_reactants exAB add_reactants].
    unfold bind at 1. change (getSubstance "A" e0) with (e0, Ret exWarned). cbn [noMethods exWarned s_eos s_mP s_mT Z.eqb CTPM_CON andb].
    unfold bind at 1. rewrite QA.
    unfold bind at 1. change (getSubstance "B" eA) with (eA, Ret (exC "B" 4 7)). cbn [noMethods exC s_eos s_mP s_mT Z.eqb CTPM_CON andb].
    unfold bind at 1. rewrite QB. unfold ret at 1. unfold bind, upd, ret. eexists _. reflexivity. }
  exists e', (fold_add T ("Calculated from the reaction components: " ++ "AB" ++ "; ") [("A"%string, 1); ("B"%string, 1)] [warned; const 4 7] zeroTPR).
  split; [exact Et|]. split; [|exists eA; exact QA].
  assert (K : forall x c, known x -> known (ts_mul_d x c)) by (intros; unfold ts_mul_d; now apply mul_d_known).
  assert (K0 : known (ts_assign 0)) by discriminate. assert (KW : known (G warned)) by discriminate. assert (KC : known (G (const 4 7))) by discriminate.
  set (a1 := add_reactant T ("Calculated from the reaction components: " ++ "AB" ++ "; ") "A" zeroTPR warned 1).
  assert (K1 : known (rG a1)).
  { unfold a1, add_reactant, known, set_msg. cbn [rG sta fst]. rewrite add_st; [discriminate|exact K0|apply K; exact KW]. }
  cbn [fold_add]. fold a1. unfold add_reactant, set_msg. cbn [rG sta fst]. rewrite add_st; [|exact K1|apply K; exact KC]. reflexivity.
Qed.
