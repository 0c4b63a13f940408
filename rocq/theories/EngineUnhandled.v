(** Methods offered to database writers whose codes the engine does not test for. *)
From Coq Require Import String List Bool ZArith.
From Verif Require JsonModel JsonSpec.
From Verif Require Import EngineModel.
Import ListNotations.
Lemma offered_unhandled : forall k n,
  In (k, n) [(1, "cp_ft_equation_saxena86"); (6, "landau_berman88"); (8, "fug_critical_param"); (35, "mv_equation_dorogokupets88"); (39, "mv_eos_tait_hp11")]%Z%string ->
  In (k, n) JsonSpec.offered_s /\ exists c z, JsonModel.s_method k = Some (c, z) /\
  ~ In z [CTM_CHP; CTM_CST] /\ ~ In z [CPM_AKI; CPM_CEH; CPM_VBE; CPM_VBM; CPM_CORK; CPM_PRSV; CPM_EMP; CPM_SRK; CPM_PR78; CPM_STP; CPM_OFF; CPM_CON].
Proof.
  intros k n H; cbn [In] in H.
  repeat (destruct H as [H|H]; [injection H as <- <-; split; [unfold JsonSpec.offered_s; cbn [In]; tauto|do 2 eexists; split; [reflexivity|split; intros H; cbv in H; intuition discriminate]]|]); contradiction.
Qed.
