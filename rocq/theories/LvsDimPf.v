(** Proofs about the records near the critical point.  *)
From Coq Require Import Bool Reals Lra.
From Verif Require Import LvsModel LvsSpec LvsPf LvsTab LvsFlow LvsFlowPf GemsModel GemsRun GemsSpec GemsRunPf HgkSat HgkSatPf HgkTrans HgkTransPf LvsDim.
Open Scope R_scope.

Lemma same_units : forall w T P d f (h : LvsModel.therm), d <> 0 -> dpdd f <> 0 ->
  h_S h = sd f * gascon -> h_U h = ud f * (gascon * T) -> h_H h = hd f * (gascon * T) -> h_Cv h = cvd f * gascon -> h_Cp h = cpd f * gascon ->
  h_beta h = 1 / (d * dpdd f) -> h_alpha h = d * dvdt f -> h_speed h = sqrt (Rabs (cpd f * dpdd f * 1000 / cvd f)) ->
  dimLVS w T P (d * 1000) (dal T d (h_alpha h)) h = dim T P d f w /\
  (forall th, Rabs th <> 1 -> t_cond (transLVS T P th (d * 1000) h) <> 0 -> transLVS T P th (d * 1000) h = dim_trans 0 T P d f) /\
  (t_cond (transLVS T P 1 (d * 1000) h) <> 0 -> transLVS T P 1 (d * 1000) h = dim_trans 1 T P d f).
Proof.
  intros w T P d f h Hd Hp ES EU EH Ev Ec Eb Ea Es.
  assert (B : 1 / (d * dpdd f * un_fp) = h_beta h / un_fp) by (rewrite Eb; unfold un_fp; field; split; assumption).
  assert (B1 : h_beta h / un_fp * un_fp / 10 = h_beta h / 10) by (unfold un_fp; field).
  assert (B2 : h_beta h / un_fp * un_fp / 10 ^ 6 = h_beta h / 10 ^ 6) by (unfold un_fp; field).
  assert (C : cpd f * gascon * un_fh * 1 / un_fh / 1 * 1000 = h_Cp h * 1000) by (rewrite Ec; unfold un_fh; field).
  assert (M : forall isat th, (if Req_EM_T (Rabs th) 1 then if Rlt_dec th 0 then Some 0 else option_map (fun s => s * un_fst) (surten T) else Some 0) =
                match isat with 0%nat | 2%nat => Some 0 | _ => option_map (fun s => s * un_fst) (surten T) end ->
              t_cond (transLVS T P th (d * 1000) h) <> 0 -> transLVS T P th (d * 1000) h = dim_trans isat T P d f).
  { intros isat th K Z. unfold transLVS, dim_trans in *. cbv zeta in *. cbn [t_cond] in Z. rewrite B, B2, C, <- Ea, K. destruct (Req_EM_T _ 0) as [Y|Y]; [contradiction|]. reflexivity. }
  split; [|split].
  - unfold dimLVS, dim. cbv zeta. rewrite B, B1, <- Ea, <- Ec, <- Ev, <- Es, <- ES, <- EU, <- EH. reflexivity.
  - intros th K Z. apply M; [|exact Z]. destruct (Req_EM_T (Rabs th) 1); [contradiction|reflexivity].
  - intros Z. apply M; [|exact Z]. destruct (Req_EM_T (Rabs 1) 1) as [Y|Y]; [|exfalso; apply Y; apply Rabs_R1]. destruct (Rlt_dec 1 0); [lra|reflexivity].
Qed.

Lemma abs_side : forall th, side th -> Rabs th = 1.
Proof. intros th [-> | ->]; [apply Rabs_R1|rewrite Rabs_left; lra]. Qed.
Lemma dens_side : forall c T, sat_dens c T (-1) = Dvap c T /\ sat_dens c T 1 = Dliq c T.
Proof.
  intros c T. unfold sat_dens, dens_of. split.
  - destruct (Req_EM_T (Rabs (-1)) 1) as [Y|Y]; [|exfalso; apply Y; apply abs_side; now right]. destruct (Rlt_dec (-1) 0); [reflexivity|lra].
  - destruct (Req_EM_T (Rabs 1) 1) as [Y|Y]; [|exfalso; apply Y; apply abs_side; now left]. destruct (Rlt_dec 1 0); [lra|reflexivity].
Qed.
Lemma one_density : forall c w T th, th = 1 \/ th = -1 ->
  let D := if Rlt_dec th 0 then Dvap c T else Dliq c T in let P := sat_P c T in let h := thmLVS c T D (coex_r c T) th in
  sat_wp c w T th = dimLVS w T P D (dalLVS c D T P (h_alpha h) (coex_r c T) th) h /\ sat_tr c T th = transLVS T P th D h.
Proof.
  intros c w T th S. cbv zeta. destruct (dens_side c T) as [A B]. destruct (densities c T) as [E F].
  unfold sat_wp, sat_tr, sat_dA, thmSat. replace (sat_P c T * 10 / 10) with (sat_P c T) by field.
  destruct S as [-> | ->]; [destruct (Rlt_dec 1 0); [lra|]; rewrite B, <- F|destruct (Rlt_dec (-1) 0); [|lra]; rewrite A, <- E]; split; reflexivity.
Qed.
Lemma equilibrium : forall c w T, lvs_constants c -> 0 < T < l_Tc c -> Dvap c T <> 0 -> Dliq c T <> 0 ->
  let volume D := H2OMolarMass / (D / 1000) / 10 in
  let v := sat_wp c w T (-1) in let l := sat_wp c w T 1 in
  w_G v = w_G l /\ w_H v - w_H l = T * (w_S v - w_S l) /\
  (w_H v - w_H l) * cal_to_J * H2OMolarMass = un_fh * cal_to_J * (T * (sat_slope c T * 10) * (volume (Dvap c T) - volume (Dliq c T))).
Proof.
  intros c w T K h a b volume v l.
  destruct (clapeyron c K T 1 h a b (or_introl eq_refl)) as [C1 C2]. pose proof (G_sat c K T h a b) as G.
  assert (Gf : forall th, h_G (thmSat c T th) = h_H (thmSat c T th) - T * h_S (thmSat c T th)) by (intro; reflexivity). rewrite !Gf in G. clear Gf.
  unfold v, l, sat_wp, dimLVS. cbv zeta. cbn [w_G w_H w_S]. rewrite C2 in C1. clear C2.
  set (H1 := h_H (thmSat c T (-1))) in *. set (H2 := h_H (thmSat c T 1)) in *. set (S1 := h_S (thmSat c T (-1))) in *. set (S2 := h_S (thmSat c T 1)) in *. clearbody H1 H2 S1 S2.
  assert (H1 = H2 + T * (S1 - S2)) by lra. split; [subst H1; ring|]. split; [subst H1; ring|].
  transitivity ((H1 - H2) * un_fh * cal_to_J * H2OMolarMass); [ring|]. rewrite <- C1. unfold volume. field. split; assumption.
Qed.
Lemma surface : (forall c T, t_surf (sat_tr c T (-1)) = Some 0 /\ t_surf (sat_tr c T 1) = option_map (fun s => s * 1000) (surten T)) /\
  (forall q T, 27316 / 100 <= T <= 647066 / 1000 -> exists s, 0 < s /\ t_surf (snd (sat_trans q T)) = Some s /\ forall c, t_surf (sat_tr c T (-1)) <> Some s).
Proof.
  assert (X : forall c T, t_surf (sat_tr c T (-1)) = Some 0 /\ t_surf (sat_tr c T 1) = option_map (fun s => s * 1000) (surten T)).
  { intros c T. unfold sat_tr, transLVS. cbv zeta. cbn [t_surf]. split.
    - destruct (Req_EM_T (Rabs (-1)) 1) as [Y|Y]; [|exfalso; apply Y; apply abs_side; now right]. destruct (Rlt_dec (-1) 0); [reflexivity|lra].
    - destruct (Req_EM_T (Rabs 1) 1) as [Y|Y]; [|exfalso; apply Y; apply abs_side; now left]. destruct (Rlt_dec 1 0); [lra|reflexivity]. }
  split; [exact X|]. intros q T HT. destruct (surt_falls T (6470667 / 10000) ltac:(lra) ltac:(lra)) as (s1 & s2 & E & _ & L & _).
  exists (s1 * 1000). split; [lra|]. split; [rewrite (proj2 (rec_sat q T)), E; reflexivity|]. intros c. rewrite (proj1 (X c T)). intro Q. injection Q. lra.
Qed.
Lemma relations : forall T P th D h, D <> 0 -> h_Cp h <> 0 -> let r := transLVS T P th D h in
  t_visck r * D = 1000 * t_visc r /\ (t_cond r <> 0 -> t_prandtl r * t_diff r = t_visck r).
Proof.
  intros T P th D h HD HC r. unfold r, transLVS. cbv zeta. cbn [t_visck t_visc t_cond t_prandtl t_diff]. set (x := viscos _ _ _ _). set (y := thcond _ _ _ _ _). clearbody x y.
  unfold un_fvd, un_fvk, un_fc. split; [field; exact HD|]. intro Z. field. repeat split; try assumption. intro E. apply Z. rewrite E. ring.
Qed.
Lemma units_case : exists T P d f (h : LvsModel.therm), d <> 0 /\ dpdd f <> 0 /\ h_S h = sd f * gascon /\ h_U h = ud f * (gascon * T) /\ h_H h = hd f * (gascon * T) /\ h_Cv h = cvd f * gascon /\
  h_Cp h = cpd f * gascon /\ h_beta h = 1 / (d * dpdd f) /\ h_alpha h = d * dvdt f /\ h_speed h = sqrt (Rabs (cpd f * dpdd f * 1000 / cvd f)) /\ 0 < P /\ 600 < T.
Proof.
  set (f := mkF 0 0 9 8 8 6 40 1 1 100). set (T := 650).
  exists T, 22, (3 / 10), f, (LvsModel.mkTherm 0 0 (sd f * gascon) (ud f * (gascon * T)) (hd f * (gascon * T)) (cvd f * gascon) (cpd f * gascon) (1 / (3 / 10 * dpdd f)) (3 / 10 * dvdt f) (sqrt (Rabs (cpd f * dpdd f * 1000 / cvd f)))).
  unfold T. repeat split; cbn; lra.
Qed.
Lemma sat_electro : forall w q T, let x := HGKeqn_sat w q T in
  elec_out (wr_w x) = elec_out (dim T (press T (q_dL q)) (q_dL q) (state_at T (q_dL q)) w) /\ elec_out (wl_w x) = elec_out (dim T (press T (q_dV q)) (q_dV q) (state_at T (q_dV q)) w) /\
  solv_out (wr_w x) (q_dL q) = solv_out (dim T (press T (q_dL q)) (q_dL q) (state_at T (q_dL q)) w) (q_dL q) /\
  solv_out (wl_w x) (q_dV q) = solv_out (dim T (press T (q_dV q)) (q_dV q) (state_at T (q_dV q)) w) (q_dV q).
Proof. intros w q T x. unfold x, HGKeqn_sat. cbv zeta. cbn [wl_w wr_w]. rewrite !rec_at. repeat split; reflexivity. Qed.
