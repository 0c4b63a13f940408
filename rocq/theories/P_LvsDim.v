(** C109: records of water near the critical point.  Theorems only.  *)
From Coq Require Import Bool Reals Lra.
From Verif Require Import LvsModel LvsSpec LvsPf LvsTab LvsFlow LvsFlowPf LvsFlowUse GemsModel GemsRun GemsSpec HgkSat HgkTrans LvsDim LvsDimPf.
Open Scope R_scope.

(** The near-critical equation reports in the units of the other one: where the two agree on the state and on its properties (per gram, MPa, K), they give the
    same record, the transport properties included if there is a conductivity *)
Theorem C109_units : forall w T P d f (h : LvsModel.therm), d <> 0 -> dpdd f <> 0 ->
  h_S h = sd f * gascon -> h_U h = ud f * (gascon * T) -> h_H h = hd f * (gascon * T) -> h_Cv h = cvd f * gascon -> h_Cp h = cpd f * gascon ->
  h_beta h = 1 / (d * dpdd f) -> h_alpha h = d * dvdt f -> h_speed h = sqrt (Rabs (cpd f * dpdd f * 1000 / cvd f)) ->
  dimLVS w T P (d * 1000) (dal T d (h_alpha h)) h = dim T P d f w /\
  (forall th, Rabs th <> 1 -> t_cond (transLVS T P th (d * 1000) h) <> 0 -> transLVS T P th (d * 1000) h = dim_trans 0 T P d f) /\
  (t_cond (transLVS T P 1 (d * 1000) h) <> 0 -> transLVS T P 1 (d * 1000) h = dim_trans 1 T P d f).
Proof. exact same_units. Qed.
Print Assumptions C109_units.
Example C109_units_case : exists T P d f (h : LvsModel.therm), d <> 0 /\ dpdd f <> 0 /\ h_S h = sd f * gascon /\ h_U h = ud f * (gascon * T) /\ h_H h = hd f * (gascon * T) /\ h_Cv h = cvd f * gascon /\
  h_Cp h = cpd f * gascon /\ h_beta h = 1 / (d * dpdd f) /\ h_alpha h = d * dvdt f /\ h_speed h = sqrt (Rabs (cpd f * dpdd f * 1000 / cvd f)) /\ 0 < P /\ 600 < T.
Proof. exact units_case. Qed.

(** Every property of a saturated record belongs to the density of its own phase and to the saturation pressure *)
Theorem C109_one_density : forall c w T th, th = 1 \/ th = -1 ->
  let D := if Rlt_dec th 0 then Dvap c T else Dliq c T in let P := sat_P c T in let h := thmLVS c T D (coex_r c T) th in
  sat_wp c w T th = dimLVS w T P D (dalLVS c D T P (h_alpha h) (coex_r c T) th) h /\ sat_tr c T th = transLVS T P th D h.
Proof. exact one_density. Qed.
Print Assumptions C109_one_density.

(** Reported at saturation: equal Gibbs energies, an enthalpy of vaporisation T times the entropy of vaporisation, and Clapeyron's equation with the molar
    volumes (J/bar), up to the quotient of the two molar masses in use, 18.0155 and 18.015268 g/mol *)
Theorem C109_equilibrium : forall c w T, lvs_constants c -> 0 < T < l_Tc c -> Dvap c T <> 0 -> Dliq c T <> 0 ->
  let volume D := H2OMolarMass / (D / 1000) / 10 in
  let v := sat_wp c w T (-1) in let l := sat_wp c w T 1 in
  w_G v = w_G l /\ w_H v - w_H l = T * (w_S v - w_S l) /\
  (w_H v - w_H l) * cal_to_J * H2OMolarMass = un_fh * cal_to_J * (T * (sat_slope c T * 10) * (volume (Dvap c T) - volume (Dliq c T))).
Proof. exact equilibrium. Qed.
Print Assumptions C109_equilibrium.
Example C109_equilibrium_case : lvs_constants co_exact /\ 0 < 646 < l_Tc co_exact /\ 0 < Dvap co_exact 646 < Dliq co_exact 646.
Proof. destruct sat_example as (A & _ & B & _ & _ & C). exact (conj A (conj B C)). Qed.

(** The kinematic viscosity is the viscosity over the density, the Prandtl number the quotient of the two diffusivities *)
Theorem C109_relations : forall T P th D h, D <> 0 -> h_Cp h <> 0 -> let r := transLVS T P th D h in
  t_visck r * D = 1000 * t_visc r /\ (t_cond r <> 0 -> t_prandtl r * t_diff r = t_visck r).
Proof. exact relations. Qed.
Print Assumptions C109_relations.

(** The saturated vapour has no surface tension near the critical point, while that of the other equation has the one of the liquid: it falls to 0 where the
    equations change *)
Theorem C109_surface_refuted :
  (forall c T, t_surf (sat_tr c T (-1)) = Some 0 /\ t_surf (sat_tr c T 1) = option_map (fun s => s * 1000) (surten T)) /\
  (forall q T, 27316 / 100 <= T <= 647066 / 1000 -> exists s, 0 < s /\ t_surf (snd (sat_trans q T)) = Some s /\ forall c, t_surf (sat_tr c T (-1)) <> Some s).
Proof. exact surface. Qed.
Print Assumptions C109_surface_refuted.

(** C98: the dielectric and volumetric properties of the two saturated states are those of their own densities and pressures *)
Theorem C98_dielectric : forall w q T, let x := HGKeqn_sat w q T in
  elec_out (wr_w x) = elec_out (dim T (press T (q_dL q)) (q_dL q) (state_at T (q_dL q)) w) /\ elec_out (wl_w x) = elec_out (dim T (press T (q_dV q)) (q_dV q) (state_at T (q_dV q)) w) /\
  solv_out (wr_w x) (q_dL q) = solv_out (dim T (press T (q_dL q)) (q_dL q) (state_at T (q_dL q)) w) (q_dL q) /\
  solv_out (wl_w x) (q_dV q) = solv_out (dim T (press T (q_dV q)) (q_dV q) (state_at T (q_dV q)) w) (q_dV q).
Proof. exact sat_electro. Qed.
Print Assumptions C98_dielectric.
