(** Vocabulary: the state of water carries the derivatives of the values along a density. *)
From Coq Require Import Reals.
From Verif Require Import ThermoScalarModel WaterModel WaterSpec CarrySpec ReacModel CarryReac CarryWater.
Open Scope R_scope.
(** the table entries carry the derivatives of the table along the density [rho] *)
Definition carriesHt (h : hts) (H : R -> R -> helm) (rho : R -> R -> R) (T P : R) : Prop :=
  let c x f := carries x (fun t p => f (H t (rho t p))) T P in
  c (g0 h) h0 /\ c (gT h) hT /\ c (gD h) hD /\ c (gTT h) hTT /\ c (gTD h) hTD /\ c (gDD h) hDD /\ c (gTTD h) hTTD /\ c (gTDD h) hTDD /\ c (gDDD h) hDDD.
Definition some (o : option R) : R := match o with Some x => x | None => 0 end.
Definition carriesWst (z : wst) (s : R -> R -> wstate) (T P : R) : Prop :=
  let c x f := carries x (fun t p => f (s t p)) T P in
  c (z_d z) w_d /\ c (z_dT z) w_dT /\ c (z_dP z) w_dP /\ c (z_dTP z) w_dTP /\ c (z_dPP z) w_dPP /\
  c (z_pD z) w_pD /\ c (z_pT z) w_pT /\ c (z_pDD z) w_pDD /\ c (z_pTD z) w_pTD /\ c (z_pTT z) w_pTT /\
  c (z_V z) w_V /\ c (z_S z) w_S /\ c (z_A z) w_A /\ c (z_U z) w_U /\ c (z_H z) w_H /\ c (z_G z) w_G /\ c (z_cv z) w_cv /\ c (z_cp z) w_cp.
Definition carriesMol (y : mts) (m : R -> R -> tps) (T P : R) : Prop :=
  let c x f := carries x (fun t p => f (m t p)) T P in
  c (y_S y) q_S /\ c (y_H y) q_H /\ c (y_U y) q_U /\ c (y_G y) q_G /\ c (y_A y) q_A /\ c (y_V y) q_V /\ c (y_Cp y) q_Cp /\ c (y_Cv y) q_Cv.
(** the water that the reaction models read *)
Definition water_of (s : wstate) : water := mkW (w_d s) (sAlpha s) (sBeta s) (some (sdAldT s)).
