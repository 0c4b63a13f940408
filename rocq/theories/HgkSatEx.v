(** Cases for the statements about saturation.  *)
From Coq Require Import List Bool Arith Reals Lra Lia.
From Coquelicot Require Import Coquelicot.
From Verif Require Import RDiff2 WaterModel WaterSpec HelmModel HelmJet HelmProofs GemsModel GemsSpec GemsRun GemsTotal GemsIso GemsLim GemsRef GemsEx GemsRunPf HgkSat HgkSatSpec HgkSatPf HgkPs.
Open Scope R_scope.

Lemma n_id : near0 (fun d => d) 0.
Proof. exists 1, 1. split; [lra|split; [lra|]]. intros d H. rewrite Rminus_0_r, Rabs_pos_eq; lra. Qed.
Lemma zb_low : forall T, near0 (fun d => zb (base (bb T) d T)) 1.
Proof.
  intro T. unfold base. cbv zeta. cbn [zb]. generalize (b1 (bb T)) (b2 (bb T) / b1 (bb T)). intros b c.
  assert (Y : near0 (fun d => 25 / 100 * b * d) 0) by (eapply n_eq; [apply (n_mult (fun _ => 25 / 100 * b)); [apply n_const|apply n_id]|ring]).
  assert (X : near0 (fun d => 1 - 25 / 100 * b * d) 1) by (eapply n_eq; [apply (n_minus (fun _ => 1)); [apply n_const|exact Y]|ring]).
  eapply n_eq; [apply n_plus; [apply n_div|]|].
  - apply n_plus; [apply n_plus; [apply (n_const 1)|apply n_mult; [apply (n_const g1)|exact Y]]|apply n_mult; [apply n_mult; [apply (n_const g2)|exact Y]|exact Y]].
  - apply n_mult; [apply n_mult; exact X|exact X].
  - lra.
  - apply n_mult; [apply n_mult; [apply (n_const 4)|exact Y]|apply (n_const (c - gf))].
  - field.
Qed.
Lemma q0_low : forall T, off T -> near0 (fun d => q0 (resid T d) / d) 0.
Proof.
  intros T H. assert (HT := proj1 H). assert (A := l_D T HT). assert (Z := zb_low T). destruct (low T H) as [e [He L]].
  apply (n_ext (fun d => d * hD (Htot T d) - gascon * T * zb (base (bb T) d T)) _ _ e He).
  - intros d Hd. destruct (L d Hd) as [Rg _]. destruct (tot T d Rg) as (_ & _ & F & _). assert (P : press T d = gascon * T * d * zb (base (bb T) d T) + q0 (resid T d)) by reflexivity. rewrite P in F. clear P.
    revert F. generalize (hD (Htot T d)) (zb (base (bb T) d T)) (q0 (resid T d)). intros h z q F. replace q with (d * d * h - gascon * T * d * z) by lra. field. lra.
  - eapply n_eq; [apply n_minus; [exact A|apply n_mult; [apply (n_const (gascon * T))|exact Z]]|ring].
Qed.
Lemma gib_diff : forall T d v, 0 < T -> d <> 0 -> v <> 0 -> gibbs_of T d d - gibbs_of T v d = q0 (resid T d) / (gascon * T) * (1 / d - 1 / v).
Proof. intros T d v HT Hd Hv. unfold gibbs_of, thm. cbv zeta. cbn [gd]. generalize (q0 (resid T d)). intro q. field. assert (G := gas_p). repeat split; lra. Qed.
Lemma n_abs : forall f l c, near0 f l -> Rabs l < c -> exists e, 0 < e /\ forall d, 0 < d < e -> Rabs (f d) < c.
Proof.
  intros f l c (M & e & HM & He & A) Hc. exists (Rmin e ((c - Rabs l) / (M + 1))). assert (P : 0 < (c - Rabs l) / (M + 1)) by (apply Rdiv_lt_0_compat; lra). split; [apply Rmin_glb_lt; assumption|]. intros d Hd.
  assert (L1 := Rmin_l e ((c - Rabs l) / (M + 1))). assert (L2 := Rmin_r e ((c - Rabs l) / (M + 1))). assert (B := A d ltac:(lra)). assert (T := Rabs_triang (f d - l) l). replace (f d - l + l) with (f d) in T by ring.
  assert ((M + 1) * d < (M + 1) * ((c - Rabs l) / (M + 1))) by (apply Rmult_lt_compat_l; lra). replace ((M + 1) * ((c - Rabs l) / (M + 1))) with (c - Rabs l) in * by (field; lra). assert (M * d <= (M + 1) * d) by (apply Rmult_le_compat_r; lra). lra.
Qed.
(** the loop of pcorr can stop: one round from a rarefied state, the floor of the vapour density in force *)
Lemma found_ex : exists p d q, pc 1 300 p d d = Found q.
Proof.
  assert (HT : 0 < 300) by lra. assert (G := gas_p). assert (L := l_D 300 HT). destruct (n_pos _ _ L ltac:(lra)) as [e1 [H1 A]]. destruct (low 300 off_300) as [e2 [H2 B]]. destruct (two_e _ _ _ _ H1 H2 A B) as [E Q].
  assert (Z1 : near0 (fun d => q0 (resid 300 d) / d / (gascon * 300)) 0) by (eapply n_eq; [apply (n_div _ (fun _ => gascon * 300)); [apply (q0_low 300 off_300)|apply n_const|lra]|unfold Rdiv; ring]).
  destruct (n_abs _ _ (1 / 10 ^ 4) Z1 ltac:(rewrite Rabs_R0; lra)) as [e3 [H3 C]]. destruct (two_e _ _ _ _ E H3 Q C) as [E' Q']. set (m := Rmin (Rmin e1 e2) e3) in *. clearbody m.
  set (d := Rmin m (5 / 10 ^ 7) / 2). assert (D : 0 < d /\ d < m /\ d < 5 / 10 ^ 7) by (unfold d; assert (L1 := Rmin_l m (5 / 10 ^ 7)); assert (L2 := Rmin_r m (5 / 10 ^ 7)); assert (0 < Rmin m (5 / 10 ^ 7)) by (apply Rmin_glb_lt; lra); lra). clearbody d. destruct D as (D1 & D2 & D3).
  destruct (Q' d (conj D1 D2)) as [[X [Y Z]] W]. assert (PN : press 300 d <> 0). { destruct (tot 300 d Y) as (_ & _ & F & _). rewrite <- F. assert (0 < d * (d * hD (Htot 300 d))) by (apply Rmult_lt_0_compat; lra). lra. }
  assert (S1 := search_first 300 d ltac:(lra) Z PN). exists (press 300 d), d. set (p := press 300 d) in *. clearbody p.
  assert (GL : liq_guess 300 d = d) by (unfold liq_guess; destruct (Rle_dec d 0) as [K|_]; [lra|reflexivity]). assert (GV : vap_guess 300 p d = d) by (unfold vap_guess; destruct (Rle_dec d 0) as [K|_]; [lra|reflexivity]).
  assert (CL : corr_dL 300 p d = d) by (unfold corr_dL; rewrite GL, S1; reflexivity). assert (CV : corr_dV 300 p d = 5 / 10 ^ 7) by (unfold corr_dV; rewrite GV, S1; unfold floorV; cbn [f_dens]; destruct (Rlt_dec d (5 / 10 ^ 7)) as [_|K]; [reflexivity|lra]).
  assert (DG : Rabs (delg 300 p d d) <= 1 / 10 ^ 4).
  { rewrite delg_eq, CL, CV, GL, GV, S1. cbn [f_eval]. rewrite gib_diff by lra. replace (q0 (resid 300 d) / (gascon * 300) * (1 / d - 1 / (5 / 10 ^ 7))) with (q0 (resid 300 d) / d / (gascon * 300) * (1 - d / (5 / 10 ^ 7))) by (field; lra). rewrite Rabs_mult.
    assert (R1 : 0 <= 1 - d / (5 / 10 ^ 7) <= 1). { assert (0 < d / (5 / 10 ^ 7)) by (apply Rdiv_lt_0_compat; lra). assert (d / (5 / 10 ^ 7) <= 1) by (apply Rle_div_l; lra). lra. }
    rewrite (Rabs_pos_eq (1 - _)) by lra. apply (Rle_trans _ (1 / 10 ^ 4 * 1)); [apply Rmult_le_compat; [apply Rabs_pos|lra|apply Rlt_le; exact W|lra]|lra]. }
  unfold pc. cbv zeta. destruct (Req_EM_T _ 0) as [K|_].
  - exfalso. rewrite CL, CV in K. assert (1 / d <> 1 / (5 / 10 ^ 7)) by (intro N; assert (d = 5 / 10 ^ 7) by (rewrite <- (Rinv_inv d), <- (Rinv_inv (5 / 10 ^ 7)); f_equal; lra); lra). lra.
  - destruct (Rlt_dec _ _) as [K|_]; [exfalso; lra|]. eexists. reflexivity.
Qed.

Lemma above_falls : forall t1 t2, 64725 / 100 <= t1 < t2 -> t2 < 12945 / 10 ->
  fst (set_P PsHGK t1 0) = true /\ fst (set_P PsHGK t2 0) = true /\ 0 < snd (set_P PsHGK t2 0) < snd (set_P PsHGK t1 0).
Proof.
  intros t1 t2 H1 H2. rewrite !set_P_low by (unfold low_bar; lra). cbn [fst snd]. split; [reflexivity|split; [reflexivity|]]. assert (A := ps_pos t2). assert (B := ps_down t1 t2 H1 ltac:(lra)). lra.
Qed.
Lemma mixed_far : forall w q T P, 0 < T < tz -> PsHGK T < P <= q_p q -> (PTOL < q_p q - P \/ P = q_p q) ->
  f_ok (denHGK P (q_dL q) T) = true -> f_ok (denHGK P (P / T / (4 / 10)) T) = true ->
  let o := unsat w q T P (PsHGK T * 10) in let t0 := therm_out (s0_w o) (s0_d o) in
  let dl := f_dens (denHGK P (q_dL q) T) in let dg := f_dens (denHGK P (P / T / (4 / 10)) T) in
  settled T P dl /\ settled T P dg /\ o_V t0 = 1 / dg * H2OMolarMass * (1 / 10) /\ o_H t0 - o_U t0 - (tr_H w - tr_U w) = molar * (press T dl / dl).
Proof.
  intros w q T P [HT HZ] [H1 H2] H3 K1 K2. assert (S : snap q T P = P). { destruct H3 as [H3|H3]; [apply snap_far; rewrite Rabs_minus_sym, Rabs_pos_eq by lra; exact H3|rewrite H3; apply snap_self]. }
  cbv zeta. unfold unsat. rewrite S. exact (win_low_out w T P (PsHGK T * 10) (q_p q) (q_dL q) HT HZ ltac:(lra) H2 K1 K2).
Qed.
Lemma twin_far : forall w q T P, T < tz -> q_p q + PTOL < P <= PsHGK T ->
  let o := unsat w q T P (PsHGK T * 10) in s1_w o = s0_w o /\ s1_d o = s0_d o.
Proof.
  intros w q T P HT [H1 H2]. assert (X : 0 < PTOL) by (unfold PTOL; lra). cbv zeta. unfold unsat. rewrite snap_far by (rewrite Rabs_pos_eq; lra). apply win_high; lra.
Qed.
Lemma windows_ex : exists q P, 0 < 300 < tz /\ PsHGK 300 < P <= q_p q /\ PTOL < q_p q - P /\ exists q', q_p q' + PTOL < PsHGK 300 /\ PsHGK 300 <= PsHGK 300.
Proof.
  exists (mkSat (PsHGK 300 + 1) 1 (1 / 1000) (PsHGK 300)), (PsHGK 300 + 1 / 2). cbn [q_p]. unfold tz, PTOL. split; [lra|split; [lra|split; [lra|]]]. exists (mkSat (PsHGK 300 - 1) 1 (1 / 1000) (PsHGK 300)). cbn [q_p]. lra.
Qed.
(** two neighbouring stable states *)
Lemma near_pt : forall (f : R -> R) x l c, is_derive f x l -> 0 < c -> exists e, 0 < e /\ forall y, Rabs (y - x) < e -> Rabs (f y - f x) < c.
Proof.
  intros f x l c D Hc. assert (C := ex_derive_continuous f x (ex_intro _ l D)). destruct (C (fun y => Rabs (y - f x) < c)) as [e He]. { exists (mkposreal c Hc). intros y Hy. exact Hy. } exists e. split; [apply cond_pos|]. intros y Hy. apply He. exact Hy.
Qed.
Lemma gd_cont : forall T D, regular T D -> exists l, is_derive (fun d => gd (state_at T d)) D l.
Proof.
  intros T D HR. assert (HT := proj1 HR). assert (HD := proj1 (proj2 HR)). assert (A := e_2 _ _ _ _ _ (helmholtz_d T D HR)). assert (B := e_2 _ _ _ _ _ (press_d T D HR)). cbv beta in A, B.
  assert (S := surplus_d T D HT (proj1 (proj2 (proj2 (proj2 HR))))).
  revert S A B. generalize (2 * GemsBase.kappa * gascon * T * (25 / 100 * b1 (bb T)) / (1 - 25 / 100 * b1 (bb T) * D) ^ 3) (press T D / D ^ 2) (dpdd (state_at T D)). intros s a b S A B.
  assert (I : is_derive (fun d : R => / (gascon * T * d)) D (- (gascon * T) / (gascon * T * D) ^ 2)). { assert (G := gas_p). assert (0 < gascon * T * D) by (apply Rmult_lt_0_compat; [apply Rmult_lt_0_compat; assumption|exact HD]). auto_derive; [lra|field; lra]. }
  assert (M := is_derive_mult _ _ D _ _ B I Rmult_comm). assert (X := is_derive_plus _ _ D _ _ (is_derive_scal _ D (/ (gascon * T)) _ (is_derive_plus _ _ D _ _ A S)) M). eexists.
  eapply is_derive_ext_loc; [|exact X]. assert (HP : 0 < D / 2) by lra. exists (mkposreal _ HP). intros d Hd. assert (Hd' : Rabs (d - D) < D / 2) by exact Hd. apply Rabs_def2 in Hd'. assert (P : 0 < d) by lra.
  change (@eq R (/ (gascon * T) * (gascon * T * ad (state_at T d) - surplus T d + surplus T d) + press T d * / (gascon * T * d)) (gd (state_at T d))). rewrite (gd_eq T d HT P). generalize (ad (state_at T d)) (surplus T d) (press T d). intros x y z. assert (G := gas_p). field. lra.
Qed.
Lemma main_ex : exists T q, main T q /\ regular T (q_dL q) /\ regular T (q_dV q).
Proof.
  assert (HT : 0 < 300) by lra. assert (G := gas_p). assert (L := l_D 300 HT). destruct (n_pos _ _ L ltac:(lra)) as [e1 [H1 A]]. destruct (low 300 off_300) as [e2 [H2 B]]. destruct (two_e _ _ _ _ H1 H2 A B) as [E Q].
  set (m := Rmin (Rmin e1 e2) 1). assert (M : 0 < m /\ m <= 1 /\ m <= Rmin e1 e2) by (unfold m; repeat split; [apply Rmin_glb_lt; lra|apply Rmin_r|apply Rmin_l]). clearbody m. destruct M as (M1 & M2 & M3). set (d := m / 2). assert (D1 : 0 < d < Rmin e1 e2) by (unfold d; lra).
  destruct (Q d D1) as [X [Y Z]]. assert (PN : 0 < press 300 d). { destruct (tot 300 d Y) as (_ & _ & F & _). rewrite <- F. assert (0 < d * (d * hD (Htot 300 d))) by (apply Rmult_lt_0_compat; lra). lra. }
  assert (B1 := e_2 _ _ _ _ _ (press_d 300 d Y)). cbv beta in B1. destruct (gd_cont 300 d Y) as [lg B2].
  destruct (near_pt _ _ _ (press 300 d / 10 ^ 7) B1 ltac:(apply Rdiv_lt_0_compat; lra)) as [e3 [H3 C3]]. destruct (near_pt _ _ _ (1 / 10 ^ 4) B2 ltac:(lra)) as [e4 [H4 C4]].
  set (h := Rmin (Rmin e3 e4) d / 2). assert (K : 0 < h /\ h < e3 /\ h < e4 /\ h < d). { unfold h. assert (0 < Rmin (Rmin e3 e4) d) by (apply Rmin_glb_lt; [apply Rmin_glb_lt; assumption|lra]). assert (R1 := Rmin_l (Rmin e3 e4) d). assert (R2 := Rmin_r (Rmin e3 e4) d). assert (R3 := Rmin_l e3 e4). assert (R4 := Rmin_r e3 e4). lra. }
  clearbody h. destruct K as (K1 & K2 & K3 & K4). set (v := d - h). assert (V : Rabs (v - d) = h) by (unfold v; replace (d - h - d) with (- h) by ring; rewrite Rabs_Ropp; apply Rabs_pos_eq; lra).
  assert (V1 : 0 < v < Rmin e1 e2) by (unfold v; lra). destruct (Q v V1) as [_ [Y2 Z2]]. assert (U3 := C3 v ltac:(rewrite V; exact K2)). assert (U4 := C4 v ltac:(rewrite V; exact K3)).
  exists 300, (mkSat (press 300 d + gascon * 300 * (gd (state_at 300 d) - gd (state_at 300 v)) / (1 / v - 1 / d)) d v (press 300 d)). cbn [q_dL q_dV]. split; [|split; [exact Y|exact Y2]].
  unfold main, settled. cbn [q_p q_dL q_dV q_at]. split; [|split; [|split; [|split]]].
  - split; [unfold d; lra|split; [exact Z|]]. replace (1 - press 300 d / press 300 d) with 0 by (field; lra). rewrite Rabs_R0. lra.
  - split; [unfold v, d in *; lra|split; [exact Z2|]]. replace (1 - press 300 v / press 300 d) with (- (press 300 v - press 300 d) / press 300 d) by (field; lra). unfold Rdiv at 1. rewrite Rabs_mult, Rabs_Ropp, (Rabs_pos_eq (/ _)) by (apply Rlt_le, Rinv_0_lt_compat; exact PN).
    apply (Rlt_le_trans _ (press 300 d / 10 ^ 7 * / press 300 d)); [apply Rmult_lt_compat_r; [apply Rinv_0_lt_compat; exact PN|exact U3]|]. replace (press 300 d / 10 ^ 7 * / press 300 d) with (1 / 10 ^ 7) by (field; lra). lra.
  - unfold v. lra.
  - rewrite Rabs_minus_sym. apply Rlt_le. exact U4.
  - ring.
Qed.
Lemma rises : forall t1 t2, 0 < t1 < t2 -> t2 <= 64725 / 100 -> 0 < PsHGK t1 < PsHGK t2 /\ PsHGK t2 <= 22093 / 1000.
Proof.
  intros t1 t2 H1 H2. split; [split; [apply ps_pos|apply ps_up; assumption]|]. rewrite <- ps_crit. destruct (Req_dec t2 (64725 / 100)) as [E|E]; [rewrite E; apply Rle_refl|apply Rlt_le, ps_up; lra].
Qed.
Lemma request : forall Tk P, (low_bar <= P -> Rabs (snd (set_P PsHGK Tk P) - P) < 1 / 10 ^ 14) /\ (P < low_bar -> set_P PsHGK Tk P = (true, PsHGK Tk * 10) /\ 0 < PsHGK Tk * 10).
Proof. intros Tk P. assert (X := ps_pos Tk). split; [apply set_P_high; lra|]. intro H. split; [apply set_P_low; exact H|lra]. Qed.
