(** Property theorem C31, engine part: methods no branch of the engine handles. *)
From Coq Require Import Reals String List Bool ZArith.
From Verif Require JsonModel JsonSpec.
From Verif Require Import ThermoScalarModel EngineModel EngineSpec EngineProofs EngineWit EngineUnhandled.
Import ListNotations.

(** a substance other than H+, a solvent or one defined by a reaction, whose codes no branch tests for:
    every property comes out undefined and no exception is thrown *)
Theorem C31_unhandled_refuted : forall mm n T s e,
  s_symbol s <> "H+"%string -> isReacDC s = false -> is_solvent (s_class s) = false ->
  ~ In (s_eos s) [CTPM_CON; CTPM_CPT; CTPM_HKF; CTPM_HKFR; CTPM_HP98; CTPM_AN91] ->
  ~ In (s_mT s) [CTM_CHP; CTM_CST] ->
  ~ In (s_mP s) [CPM_AKI; CPM_CEH; CPM_VBE; CPM_VBM; CPM_CORK; CPM_PRSV; CPM_EMP; CPM_SRK; CPM_PR78; CPM_STP; CPM_OFF; CPM_CON] ->
  e_fallback e = false -> iequals (e_apparent e) "BERMAN_BROWN" = false ->
  exists t, snd (substObj mm (Datatypes.S n) T s e) = Ret t /\ forall p, In p props -> undefined (p t).
Proof. exact unhandled_undefined. Qed.
Print Assumptions C31_unhandled_refuted.
(** offered methods with such codes *)
Theorem C31_offered_unhandled_refuted : forall k n,
  In (k, n) [(1, "cp_ft_equation_saxena86"); (6, "landau_berman88"); (8, "fug_critical_param"); (35, "mv_equation_dorogokupets88"); (39, "mv_eos_tait_hp11")]%Z%string ->
  In (k, n) JsonSpec.offered_s /\ exists c z, JsonModel.s_method k = Some (c, z) /\
  ~ In z [CTM_CHP; CTM_CST] /\ ~ In z [CPM_AKI; CPM_CEH; CPM_VBE; CPM_VBM; CPM_CORK; CPM_PRSV; CPM_EMP; CPM_SRK; CPM_PR78; CPM_STP; CPM_OFF; CPM_CON].
Proof. exact offered_unhandled. Qed.
Print Assumptions C31_offered_unhandled_refuted.
(** corundum with the method landau_berman88 and nothing else *)
Example C31_unhandled_example : let s := mkSubst "Crn" 0%Z 202%Z 0%Z OTHERCLASS false false "" 298 100000 tps_default in
  isReacDC s = false /\ is_solvent (s_class s) = false /\ JsonModel.s_method 6 = Some (JsonModel.CorrT, 202%Z).
Proof. repeat split. Qed.
