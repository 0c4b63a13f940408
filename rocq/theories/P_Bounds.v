(** Property theorems: temperature and pressure limits (C49), messages of reactions (C67). *)
From Coq Require Import Reals Lra String List.
From Verif Require Import ThermoScalarModel EngineModel EngineSpec EngineProofs EngineWit GasModel BoundsModel BoundsProofs.
From Verif Require JsonModel.
Import ListNotations.
Open Scope R_scope.

(** the check of a substance: no number and no status changes; a calculated property gets the message exactly
    when T or P is outside the limits (which are themselves inside); nothing else changes *)
Theorem C49_check : forall show l name T P t f, In f [G; A; U; H; S; V; Cp; Cv] -> let r := checkS show l name T P t in
  nums (f r) = nums (f t) /\ fst (sta (f r)) = fst (sta (f t)) /\
  (upP l < P \/ upT l < T \/ P < lowP l \/ T < lowT l -> fst (sta (f t)) = calculated -> snd (sta (f r)) = (snd (sta (f t)) ++ note show name l ++ "; ")%string) /\
  (~ (upP l < P \/ upT l < T \/ P < lowP l \/ T < lowT l) \/ fst (sta (f t)) <> calculated -> f r = f t).
Proof. exact check_exact. Qed.
Print Assumptions C49_check.
Example C49_check_example : forall t, sta (G t) = (calculated, "a; "%string) -> sta (V t) = (assigned, ""%string) ->
  let show := fun x => if Req_EM_T x 0 then "0"%string else "9"%string in let r := checkS show (mkLim 0 9 0 9) "M" 10 1 t in
  sta (G r) = (calculated, "a; M: out of T(0-9 K) and P(0-9 Pa) bounds; "%string) /\ sta (V r) = (assigned, ""%string) /\ checkS show (mkLim 0 9 0 9) "M" 9 0 t = t.
Proof.
  intros t E1 E2 show r. assert (S0 : show 0 = "0"%string) by (unfold show; destruct (Req_EM_T 0 0); [reflexivity|lra]).
  assert (S9 : show 9 = "9"%string) by (unfold show; destruct (Req_EM_T 9 0); [lra|reflexivity]).
  split; [|split].
  - destruct (C49_check show (mkLim 0 9 0 9) "M" 10 1 t G) as (_ & C1 & C2 & _); [left; reflexivity|]. fold r in C1, C2. rewrite E1 in C1, C2.
    rewrite (surjective_pairing (sta (G r))), C1, C2; [|cbn; lra|reflexivity]. unfold note. cbn [lowT upT lowP upP]. rewrite S0, S9. reflexivity.
  - destruct (C49_check show (mkLim 0 9 0 9) "M" 10 1 t V) as (_ & _ & _ & C3); [cbn; tauto|]. fold r in C3. rewrite C3; [exact E2|]. right. rewrite E2. discriminate.
  - unfold checkS. rewrite (proj2 (beyond_no (mkLim 0 9 0 9) 9 0)); [reflexivity|]. unfold outside. cbn. lra.
Qed.
(** the check of a reaction does the same to eight properties and leaves out the equilibrium constants; no calculation calls it *)
Theorem C49_check_reaction_partial : forall show l name T P t f, In f [rG; rA; rU; rH; rS; rV; rCp; rCv] -> let r := checkR show l name T P t in
  nums (f r) = nums (f t) /\ fst (sta (f r)) = fst (sta (f t)) /\ lnK r = lnK t /\ logK r = logK t /\
  (upP l < P \/ upT l < T \/ P < lowP l \/ T < lowT l -> fst (sta (f t)) = calculated -> snd (sta (f r)) = (snd (sta (f t)) ++ note show name l ++ "; ")%string) /\
  (~ (upP l < P \/ upT l < T \/ P < lowP l \/ T < lowT l) \/ fst (sta (f t)) <> calculated -> f r = f t).
Proof. exact check_exact_R. Qed.
Print Assumptions C49_check_reaction_partial.

(** minerals, TK in K and Pbar in bar: every property the model changes carries the message when outside and none when inside *)
Theorem C49_murnaghan : forall show l dg dh ds dv dc tk p t, known dg -> known dh -> known ds -> known dv -> known dc -> known tk -> known p ->
  known (G t) -> known (H t) -> known (S t) -> known (V t) -> known (Cp t) ->
  exists msg, verdict show l "Holland and Powell Murnaghan model" (val tk) (val p * 100000) msg /\ told [G; H; S; V; Cp; U; A] (murnaghan_run show l dg dh ds dv dc tk p t) msg.
Proof. exact mur_told. Qed.
Print Assumptions C49_murnaghan.
Theorem C49_landau : forall show l dg dh ds v dc tk p t, known dg -> known dh -> known ds -> sta v = (calculated, EmptyString) -> known tk -> known p ->
  known (G t) -> known (H t) -> known (S t) ->
  exists msg, verdict show l "Holland and Powell Landau model" (val tk) (val p * 100000) msg /\ told [G; H; S; V; U; A] (landau_run show l dg dh ds v dc tk p t) msg.
Proof. exact lan_told. Qed.
Print Assumptions C49_landau.
Theorem C49_berman : forall show l rv vp dg dh ds dv tk p t, known rv -> known vp -> known dg -> known dh -> known ds -> known dv -> known tk -> known p ->
  known (G t) -> known (H t) -> known (S t) ->
  exists msg, verdict show l "Berman multisite model" (val tk) (val p * 100000) msg /\ told [G; H; S; V; U; A] (berman_run show l rv vp dg dh ds dv tk p t) msg.
Proof. exact ber_told. Qed.
Print Assumptions C49_berman.
Theorem C49_birch_murnaghan : forall show l dg dh ds dv tk p t, known dg -> known dh -> known ds -> known dv -> known tk -> known p ->
  known (G t) -> known (H t) -> known (S t) -> known (V t) ->
  exists msg, verdict show l "BMGottschalk model" (val tk) (val p * 100000) msg /\ told [G; H; S; V; U; A] (birch_run show l dg dh ds dv tk p t) msg.
Proof. exact bir_told. Qed.
Print Assumptions C49_birch_murnaghan.
Example C49_murnaghan_example : forall show, let run T := murnaghan_run show (mkLim 273 1000 0 1000000) cs cs cs cs cs (Temperature T) (Pressure 5) clean in
  sta (G (run 500)) = (calculated, ""%string) /\ snd (sta (G (run 1001))) <> ""%string.
Proof.
  intros show run. assert (K : known cs) by discriminate. assert (KT : forall T, known (Temperature T)) by (intros; discriminate). assert (KP : known (Pressure 5)) by discriminate. split.
  - destruct (C49_murnaghan show (mkLim 273 1000 0 1000000) cs cs cs cs cs (Temperature 500) (Pressure 5) clean) as (m & [_ Vn] & E); try assumption; try apply KT.
    unfold run. rewrite (E G) by (left; reflexivity). rewrite Vn; [reflexivity|]. unfold outside. cbn. lra.
  - destruct (C49_murnaghan show (mkLim 273 1000 0 1000000) cs cs cs cs cs (Temperature 1001) (Pressure 5) clean) as (m & [Vo _] & E); try assumption; try apply KT.
    unfold run. rewrite (E G) by (left; reflexivity). rewrite Vo; [apply note_some|]. unfold outside. cbn. lra.
Qed.
(** solutes, HKF of GEMS: all eight properties *)
Theorem C49_hkf_gems : forall show l rho g h s v u a c tk p, 600 < rho < 1400 -> told [G; H; S; V; Cp; U; A; Cv] (hkf_ts g h s v u a c) EmptyString ->
  exists msg, verdict show l "HKF model" (val tk) (val p * 100000) msg /\ told [G; H; S; V; Cp; U; A; Cv] (hkf_gems_run show l rho tk p (hkf_ts g h s v u a c)) msg.
Proof. exact hkf_told. Qed.
Print Assumptions C49_hkf_gems.
Example C49_hkf_gems_example : told [G; H; S; V; Cp; U; A; Cv] clean EmptyString.
Proof. exact clean_told. Qed.
(** HKF of Reaktoro compares degrees centigrade and bar with limits in K and Pa: it warns inside and is silent outside *)
Theorem C49_hkf_reaktoro_refuted : forall show, exists l T P T' P', ~ outside l T (P * 100000) /\ sta (G (hkf_reaktoro_run show l 1000 (Temperature T) (Pressure P) clean)) <> (calculated, EmptyString) /\
  outside l T' (P' * 100000) /\ sta (G (hkf_reaktoro_run show l 1000 (Temperature T') (Pressure P') clean)) = (calculated, EmptyString).
Proof. exact hkfr_wrong. Qed.
Print Assumptions C49_hkf_reaktoro_refuted.
(** gases: the Gibbs energy is flagged; the volume, set from a plain number, never is; the others as they would have been before the model *)
Theorem C49_gas_partial : forall show l name f tk p t, known tk -> known p -> known (G t) -> 0 < val p -> let r := gas_run show l name f tk p t in
  (exists msg, verdict show l name (val tk) (val p * 100000) msg /\ told [G] r msg) /\
  sta (V r) = (assigned, EmptyString) /\ sta (Cv r) = sta (Cv (checkS show l name (val tk) (val p * 100000) t)) /\
  (forall q, In q [H; S; Cp; U; A] -> sta (q r) = sta (q (checkS show l name (val tk) (val p * 100000) t))).
Proof. exact gas_told. Qed.
Print Assumptions C49_gas_partial.
Example C49_gas_example : known (G clean) /\ known (Temperature 300) /\ known (Pressure 5) /\ 0 < val (Pressure 5).
Proof. repeat split; try discriminate. cbn. lra. Qed.
(** Akinfiev and Diamond: the check is made on a record that is thrown away; the answer does not depend on the limits *)
Theorem C49_akinfiev_refuted : forall show l tk p tps state, ad_run show l tk p tps state = state.
Proof. exact ad_silent. Qed.
Print Assumptions C49_akinfiev_refuted.
(** the pressure limits of a substance read from JSON are 0 and 0: every state at a positive pressure is outside *)
Theorem C49_json_limits_refuted : forall s T P, 0 < P -> outside (json_limits s) T P.
Proof. exact json_always. Qed.
Print Assumptions C49_json_limits_refuted.
Example C49_json_limits_example : outside (json_limits JsonModel.subst0) 300 100000.
Proof. apply C49_json_limits_refuted. lra. Qed.
(** a warning of the temperature correction does not survive the constant-volume pressure correction in G and H *)
Theorem C49_earlier_warning_refuted : forall s T P t m, fst (sta (V (s_ref s))) <> notdefined -> sta (G t) = (calculated, m) -> known (H t) ->
  sta (G (conMolVol s T P t)) = (calculated, EmptyString) /\ sta (H (conMolVol s T P t)) = (calculated, EmptyString) /\
  sta (S (conMolVol s T P t)) = sta (S t) /\ sta (Cp (conMolVol s T P t)) = sta (Cp t).
Proof. exact con_clears. Qed.
Print Assumptions C49_earlier_warning_refuted.
Example C49_earlier_warning_example : sta (G (conMolVol (exC "A" 3 5) 500 200000 warned)) = (calculated, ""%string) /\ sta (S (conMolVol (exC "A" 3 5) 500 200000 warned)) = (calculated, "out of bounds; "%string).
Proof. destruct (C49_earlier_warning_refuted (exC "A" 3 5) 500 200000 warned "out of bounds; ") as (A1 & _ & A2 & _); try discriminate; [reflexivity|]. split; [exact A1|rewrite A2; reflexivity]. Qed.

(** the message of a reaction property calculated from the components says that it was, followed by the message of the
    last component, or names the last component if its property is not defined *)
Theorem C67_message_partial : forall mm n T r e e' t l x c,
  r_reactants r = (l ++ [(x, c)])%list -> reacFromReactants mm n T r e = (e', Ret t) ->
  exists ts u e1, answers (substFn mm n T) (species (r_reactants r)) (with_applyP e true) (ts ++ [u])%list e1 /\
  let msg := ("Calculated from the reaction components: " ++ r_symbol r ++ "; ")%string in
  snd (sta (rG t)) = word msg "G0" x (G u) /\ snd (sta (rH t)) = word msg "H0" x (H u) /\ snd (sta (rS t)) = word msg "S0" x (S u) /\
  snd (sta (rV t)) = word msg "V0" x (V u) /\ snd (sta (rCp t)) = word msg "Cp" x (Cp u) /\
  snd (sta (lnK t)) = word msg "G0" x (G u) /\ snd (sta (logK t)) = word msg "G0" x (G u).
Proof. exact reaction_words. Qed.
Print Assumptions C67_message_partial.
(** warnings of the other components are lost *)
Theorem C67_warning_lost_refuted : forall mm T P, exists e' t, reacFromReactants mm 3 T exAB (with_pv w_engine P) = (e', Ret t) /\
  sta (rG t) = (calculated, "Calculated from the reaction components: AB; "%string) /\
  exists e1, substFn mm 3 T "A" (with_applyP (with_pv w_engine P) true) = (e1, Ret warned).
Proof. exact warning_lost. Qed.
Print Assumptions C67_warning_lost_refuted.
Example C67_message_example : snd (sta (G warned)) = "out of bounds; "%string /\ word "m" "G0" "x" (G warned) = "mout of bounds; "%string /\ word "m" "G0" "x" (G tps_default) = "G0 of component x not defined; "%string.
Proof. repeat split; reflexivity. Qed.
