(** Proofs about HgkSat.  *)
From Coq Require Import List Bool Arith Reals Lra Lia.
From Coquelicot Require Import Coquelicot.
From Verif Require Import RDiff2 HelmJet GemsModel GemsSpec GemsRun GemsIso GemsRunPf HgkSat HgkSatSpec.
Open Scope R_scope.

(** keeps conversion from running the search *)
Strategy opaque [denHGK den].
Lemma gas0 : 0 < gascon. Proof. unfold gascon. lra. Qed.
Lemma gibbs_same : forall T d, gibbs_of T d d = gd (state_at T d). Proof. reflexivity. Qed.

(** what the last round did *)
Lemma pc_last : forall n T p dL dV q, pc n T p dL dV = Found q -> exists l v : R,
  q_dL q = corr_dL T (q_at q) l /\ q_dV q = corr_dV T (q_at q) v /\ 1 / q_dV q - 1 / q_dL q <> 0 /\
  Rabs (delg T (q_at q) l v) <= 1 / 10 ^ 4 /\ q_p q = q_at q + delg T (q_at q) l v * gascon * T / (1 / q_dV q - 1 / q_dL q).
Proof.
  induction n as [|n IH]; intros T p dL dV q H; [discriminate H|]. cbn [pc] in H. cbv zeta in H.
  destruct (Req_EM_T (1 / corr_dV T p dV - 1 / corr_dL T p dL) 0) as [E|E]; [discriminate H|].
  destruct (Rlt_dec (1 / 10 ^ 4) (Rabs (delg T p dL dV))) as [B|B]; [exact (IH _ _ _ _ _ H)|].
  injection H as H. subst q. cbn [q_p q_dL q_dV q_at]. exists dL, dV. split; [reflexivity|split; [reflexivity|split; [exact E|split; [apply Rnot_lt_le; exact B|reflexivity]]]].
Qed.

Definition spec (T p : R) (f : found) : Prop := (1 <= f_count f <= 31)%nat /\ (f_ok f = false -> (11 <= f_count f)%nat) /\ (f_ok f = true -> f_dens f = f_eval f /\ settled T p (f_dens f)).
Lemma spec_den : forall T p g, spec T p (denHGK p g T).
Proof. intros T p g. destruct (search p g T) as (A & B & C). split; [exact A|split; [exact B|]]. intro E. destruct (C E) as (C1 & C2 & C3 & C4 & _). split; [exact C1|exact (conj C2 (conj C3 C4))]. Qed.
Lemma found_abs : forall T q fl fv, spec T (q_at q) fl -> spec T (q_at q) fv -> q_dL q = f_dens fl -> q_dV q = floorV (f_dens fv) -> 1 / q_dV q - 1 / q_dL q <> 0 ->
  Rabs (gibbs_of T (q_dL q) (f_eval fl) - gibbs_of T (q_dV q) (f_eval fv)) <= 1 / 10 ^ 4 ->
  q_p q = q_at q + (gibbs_of T (q_dL q) (f_eval fl) - gibbs_of T (q_dV q) (f_eval fv)) * gascon * T / (1 / q_dV q - 1 / q_dL q) ->
  (11 <= f_count fl <= 31)%nat \/ (11 <= f_count fv <= 31)%nat \/ f_dens fv < 5 / 10 ^ 7 \/ main T q.
Proof.
  intros T q fl fv (B1 & B2 & B3) (C1 & C2 & C3) A1 A2 A3 A4 A5.
  destruct (f_ok fl) eqn:E1; [|left; exact (conj (B2 eq_refl) (proj2 B1))]. destruct (f_ok fv) eqn:E2; [|right; left; exact (conj (C2 eq_refl) (proj2 C1))].
  destruct (Rlt_dec (f_dens fv) (5 / 10 ^ 7)) as [L|L]; [right; right; left; exact L|]. right; right; right. assert (FV : floorV (f_dens fv) = f_dens fv) by (unfold floorV; destruct (Rlt_dec _ _) as [K|K]; [contradiction|reflexivity]). rewrite FV in A2.
  destruct (B3 eq_refl) as (D1 & D2). destruct (C3 eq_refl) as (F1 & F2). rewrite <- D1, <- A1, <- F1, <- A2, !gibbs_same in A4, A5. rewrite <- A1 in D2. rewrite <- A2 in F2. clear B1 B2 B3 C1 C2 C3 A1 A2 D1 F1 L FV.
  split; [exact D2|split; [exact F2|split; [intro E; apply A3; rewrite E; ring|split; [exact A4|]]]]. rewrite A5. clear A4 A5 D2 F2. generalize (gd (state_at T (q_dL q)) - gd (state_at T (q_dV q))). intro g.
  set (k := 1 / q_dV q - 1 / q_dL q) in *. clearbody k. generalize (q_at q). intro a. field. exact A3.
Qed.
Lemma delg_eq : forall T p l v, delg T p l v = gibbs_of T (corr_dL T p l) (f_eval (denHGK p (liq_guess T l) T)) - gibbs_of T (corr_dV T p v) (f_eval (denHGK p (vap_guess T p v) T)).
Proof. intros T p l v. unfold delg. apply eq_refl. Qed.
Lemma found_gen : forall T q l v, q_dL q = corr_dL T (q_at q) l -> q_dV q = corr_dV T (q_at q) v -> 1 / q_dV q - 1 / q_dL q <> 0 ->
  Rabs (delg T (q_at q) l v) <= 1 / 10 ^ 4 -> q_p q = q_at q + delg T (q_at q) l v * gascon * T / (1 / q_dV q - 1 / q_dL q) ->
  (11 <= f_count (denHGK (q_at q) (liq_guess T l) T) <= 31)%nat \/ (11 <= f_count (denHGK (q_at q) (vap_guess T (q_at q) v) T) <= 31)%nat \/
    f_dens (denHGK (q_at q) (vap_guess T (q_at q) v) T) < 5 / 10 ^ 7 \/ main T q.
Proof.
  intros T q l v A1 A2 A3 A4 A5. rewrite delg_eq, <- A1, <- A2 in A4, A5.
  exact (found_abs T q (denHGK (q_at q) (liq_guess T l) T) (denHGK (q_at q) (vap_guess T (q_at q) v) T) (spec_den T (q_at q) (liq_guess T l)) (spec_den T (q_at q) (vap_guess T (q_at q) v)) A1 A2 A3 A4 A5).
Qed.
Lemma found_q : forall n T p dL dV q, pc n T p dL dV = Found q -> exists gl gv : R,
  (11 <= f_count (denHGK (q_at q) gl T) <= 31)%nat \/ (11 <= f_count (denHGK (q_at q) gv T) <= 31)%nat \/ f_dens (denHGK (q_at q) gv T) < 5 / 10 ^ 7 \/ main T q.
Proof.
  intros n T p dL dV q H. destruct (pc_last n T p dL dV q H) as (l & v & A1 & A2 & A3 & A4 & A5). exists (liq_guess T l), (vap_guess T (q_at q) v). exact (found_gen T q l v A1 A2 A3 A4 A5).
Qed.

(** the slope of G in the pressure along one density *)
Section Along.
Variables (T P : R) (rho : R -> R -> R).
Hypothesis HR : regular T (rho T P).
Hypothesis HS : solves rho T P.
Hypothesis HN : dpdd (state_at T (rho T P)) <> 0.
Definition w0 : triple := mkTri 0 0 0 0 0.
(** the Gibbs energy of corr, J/g, without the surplus *)
Lemma g_eq : forall d p, 0 < T -> molar * (gascon * T * gd (state_at T d)) = o_G (therm_out (dim T p d (state_at T d) w0) d).
Proof.
  intros d p HT. unfold therm_out, dim, tpset, w0, molar. cbv zeta. cbn [o_G w_G tr_S tr_G]. rewrite sd_eq.
  assert (Z : hd (state_at T d) - ud (state_at T d) = gd (state_at T d) - ad (state_at T d)) by (unfold state_at, thm; cbv zeta; cbn [hd ud gd ad]; ring).
  revert Z. generalize (hd (state_at T d)) (ud (state_at T d)) (gd (state_at T d)) (ad (state_at T d)). intros h u g a Z. replace g with (h - u + a) by lra. unfold un_fh, cal_to_J. field.
Qed.
Lemma g_d : is_derive (fun p => gascon * T * gd (state_at T (rho T p)) - surplus T (rho T p)) P (1 / rho T P).
Proof.
  assert (HT := proj1 HR). assert (M : molar <> 0) by (unfold molar, un_fh, cal_to_J; lra). assert (A := e_2 _ _ _ _ _ (gibbs_d w0 rho T P HR HS HN)). cbv beta in A.
  assert (B := is_derive_scal _ _ (/ molar) _ A). cbv beta in B.
  replace (/ molar * (molar / rho T P)) with (1 / rho T P) in B by (field; split; [assert (X := proj1 (proj2 HR)); lra|exact M]).
  revert B. apply is_derive_ext. intro p. change (@eq R (/ molar * (o_G (thermo w0 rho T p) - molar * surplus T (rho T p))) (gascon * T * gd (state_at T (rho T p)) - surplus T (rho T p))).
  unfold thermo, wat. rewrite <- (g_eq (rho T p) p HT). generalize (gascon * T * gd (state_at T (rho T p))) (surplus T (rho T p)). intros x y. field. exact M.
Qed.
End Along.

(** the correction of the pressure is a step of Newton's method *)
Lemma newton_q : forall T q, main T q -> regular T (q_dL q) -> regular T (q_dV q) -> exists (rl rv : R -> R -> R) (sl sv : R),
  rl T (press T (q_dL q)) = q_dL q /\ solves rl T (press T (q_dL q)) /\ rv T (press T (q_dV q)) = q_dV q /\ solves rv T (press T (q_dV q)) /\
  is_derive (fun p => gascon * T * gd (state_at T (rl T p)) - surplus T (rl T p)) (press T (q_dL q)) sl /\
  is_derive (fun p => gascon * T * gd (state_at T (rv T p)) - surplus T (rv T p)) (press T (q_dV q)) sv /\
  q_p q = q_at q - gascon * T * (gd (state_at T (q_dL q)) - gd (state_at T (q_dV q))) / (sl - sv).
Proof.
  intros T q (A1 & A2 & A3 & A4 & A5) R1 R2. destruct A1 as (B1 & B2 & _). destruct A2 as (C1 & C2 & _).
  destruct (density_ex T (q_dL q) R1 (Rgt_not_eq _ _ B2)) as (rl & E1 & S1). destruct (density_ex T (q_dV q) R2 (Rgt_not_eq _ _ C2)) as (rv & E2 & S2).
  exists rl, rv, (1 / q_dL q), (1 / q_dV q). split; [exact E1|split; [exact S1|split; [exact E2|split; [exact S2|]]]].
  assert (D1 := g_d T (press T (q_dL q)) rl). rewrite E1 in D1. assert (D2 := g_d T (press T (q_dV q)) rv). rewrite E2 in D2.
  split; [exact (D1 R1 S1 (Rgt_not_eq _ _ B2))|split; [exact (D2 R2 S2 (Rgt_not_eq _ _ C2))|]].
  revert A5. generalize (gd (state_at T (q_dL q)) - gd (state_at T (q_dV q))). intros g A5. replace (q_p q) with (q_at q + (q_p q - q_at q)) by ring. rewrite A5. clear - A3 B1 C1. field. repeat split; try lra; intro E; apply A3; lra.
Qed.

(** the saturated states *)
Lemma sat_states : forall w q T, 0 < T -> exists l v : therm, at_sat w q T 0 = Some l /\ at_sat w q T 1 = Some v /\
  l = therm_out (dim T (press T (q_dL q)) (q_dL q) (state_at T (q_dL q)) w) (q_dL q) /\ v = therm_out (dim T (press T (q_dV q)) (q_dV q) (state_at T (q_dV q)) w) (q_dV q) /\
  o_G l - o_G v = molar * (gascon * T * (gd (state_at T (q_dL q)) - gd (state_at T (q_dV q)))) /\
  o_H l - o_H v - T * (o_S l - o_S v) = o_G l - o_G v.
Proof.
  intros w q T HT. unfold at_sat, HGKeqn_sat. cbv zeta. cbn [wl_w wl_d wr_w wr_d]. rewrite !rec_at.
  assert (U : forall x, x / un_fd = x) by (intro x; unfold un_fd; field). rewrite !U. do 2 eexists. split; [reflexivity|split; [reflexivity|split; [reflexivity|split; [reflexivity|]]]].
  assert (G : forall d, hd (state_at T d) = gd (state_at T d) + sd (state_at T d)) by (intro d; rewrite sd_eq; unfold state_at, thm; cbv zeta; cbn [hd ud gd ad]; ring).
  unfold therm_out, dim. cbv zeta. cbn [o_G o_H o_S w_G w_H w_S]. rewrite !G. generalize (gd (state_at T (q_dL q))) (gd (state_at T (q_dV q))) (sd (state_at T (q_dL q))) (sd (state_at T (q_dV q))) (tr_G (tpset w)) (tr_S (tpset w)) (tr_H (tpset w)). intros a b c d e f g. unfold molar. split; ring.
Qed.
Lemma sat_equal : forall w q T, 0 < T -> main T q -> exists l v : therm, at_sat w q T 0 = Some l /\ at_sat w q T 1 = Some v /\
  Rabs (o_G l - o_G v) <= molar * gascon * T / 10 ^ 4 /\ Rabs (o_H l - o_H v - T * (o_S l - o_S v)) <= molar * gascon * T / 10 ^ 4 /\
  o_V l * q_dL q = o_V v * q_dV q.
Proof.
  intros w q T HT (A1 & A2 & _ & A4 & _). destruct (sat_states w q T HT) as (l & v & E1 & E2 & E3 & E4 & E5 & E6). exists l, v. split; [exact E1|split; [exact E2|]].
  assert (K : Rabs (o_G l - o_G v) <= molar * gascon * T / 10 ^ 4).
  { rewrite E5. assert (M : 0 < molar * gascon * T) by (assert (0 < molar) by (unfold molar, un_fh, cal_to_J; lra); apply Rmult_lt_0_compat; [apply Rmult_lt_0_compat; [assumption|exact gas0]|exact HT]).
    replace (molar * (gascon * T * (gd (state_at T (q_dL q)) - gd (state_at T (q_dV q))))) with (molar * gascon * T * (gd (state_at T (q_dL q)) - gd (state_at T (q_dV q)))) by ring. rewrite Rabs_mult, (Rabs_pos_eq (molar * gascon * T)) by (apply Rlt_le; exact M).
    unfold Rdiv. apply Rmult_le_compat_l; [apply Rlt_le; exact M|]. rewrite <- (Rmult_1_l (/ 10 ^ 4)). exact A4. }
  split; [exact K|split; [rewrite E6; exact K|]]. rewrite E3, E4. unfold therm_out. cbn [o_V]. destruct A1 as (B1 & _). destruct A2 as (C1 & _). clear - B1 C1. field. lra.
Qed.

(** pressures near the saturation pressure *)
Lemma snap_near : forall w q T P Psat, Ttr <= T <= Tc -> P <= Pc -> Rabs (P - q_p q) <= PTOL -> unsat w q T P Psat = unsat w q T (q_p q) Psat.
Proof.
  intros w q T P Psat [H1 H2] H3 H4. unfold unsat. assert (E1 : snap q T P = q_p q).
  { unfold snap. destruct (Rlt_dec Tc T) as [B|_]; [lra|]. destruct (Rlt_dec T Ttr) as [B|_]; [lra|]. destruct (Rlt_dec Pc P) as [B|_]; [lra|]. cbn [orb]. destruct (Rle_dec _ _) as [_|B]; [reflexivity|lra]. }
  assert (E2 : snap q T (q_p q) = q_p q). { unfold snap. destruct (_ || _)%bool; [reflexivity|]. destruct (Rle_dec _ _); reflexivity. } rewrite E1, E2. reflexivity.
Qed.
Lemma snap_far : forall q T P, PTOL < Rabs (P - q_p q) -> snap q T P = P.
Proof. intros q T P H. unfold snap. destruct (_ || _)%bool; [reflexivity|]. destruct (Rle_dec _ _) as [B|_]; [lra|reflexivity]. Qed.
Lemma snap_self : forall q T, snap q T (q_p q) = q_p q.
Proof. intros q T. unfold snap. destruct (_ || _)%bool; [reflexivity|]. destruct (Rle_dec _ _); reflexivity. Qed.
(** between the two saturation pressures *)
Lemma win_low : forall w T P Psat ps dll, T < tz -> Psat < P * 10 -> P <= ps ->
  s0_w (HGKeqn w T P Psat ps dll) = record_of w T P (f_dens (denHGK P dll T)) (f_eval (denHGK P dll T)) /\
  s0_d (HGKeqn w T P Psat ps dll) = f_dens (denHGK P (P / T / (4 / 10)) T).
Proof.
  intros w T P Psat ps dll H1 H2 H3. assert (G2 : guess2 T dll = dll) by (unfold guess2; destruct (Rlt_dec T tz); [reflexivity|lra]).
  assert (G3 : guess3 T P ps dll = P / T / (4 / 10)) by (unfold guess3; cbv zeta; destruct (Rlt_dec T tz); [|lra]; destruct (Rlt_dec ps P); [lra|reflexivity]).
  unfold HGKeqn. cbv zeta. rewrite G2, G3. destruct (Rlt_dec Psat (P * 10)) as [_|B]; [|lra]. destruct (Rlt_dec T (647126 / 1000)) as [_|B]; [|unfold tz in H1; lra]. cbn [andb s0_w s0_d]. split; reflexivity.
Qed.
Lemma win_high : forall w T P Psat ps dll, T < tz -> P * 10 <= Psat -> ps < P ->
  s1_w (HGKeqn w T P Psat ps dll) = s0_w (HGKeqn w T P Psat ps dll) /\ s1_d (HGKeqn w T P Psat ps dll) = s0_d (HGKeqn w T P Psat ps dll).
Proof.
  intros w T P Psat ps dll H1 H2 H3. assert (G2 : guess2 T dll = dll) by (unfold guess2; destruct (Rlt_dec T tz); [reflexivity|lra]).
  assert (G3 : guess3 T P ps dll = dll) by (unfold guess3; cbv zeta; destruct (Rlt_dec T tz); [|lra]; destruct (Rlt_dec ps P); [reflexivity|lra]).
  unfold HGKeqn. cbv zeta. rewrite G2, G3. destruct (Rlt_dec Psat (P * 10)) as [B|_]; [lra|]. cbn [andb s0_w s0_d s1_w s1_d]. split; reflexivity.
Qed.
(** seen from outside: the energies give one volume, the reported volume is another *)
Lemma win_low_out : forall w T P Psat ps dll, 0 < T -> T < tz -> Psat < P * 10 -> P <= ps ->
  f_ok (denHGK P dll T) = true -> f_ok (denHGK P (P / T / (4 / 10)) T) = true ->
  let t0 := therm_out (s0_w (HGKeqn w T P Psat ps dll)) (s0_d (HGKeqn w T P Psat ps dll)) in
  let dl := f_dens (denHGK P dll T) in let dg := f_dens (denHGK P (P / T / (4 / 10)) T) in
  settled T P dl /\ settled T P dg /\ o_V t0 = 1 / dg * H2OMolarMass * (1 / 10) /\ o_H t0 - o_U t0 - (tr_H w - tr_U w) = molar * (press T dl / dl).
Proof.
  intros w T P Psat ps dll HT H1 H2 H3 K1 K2. destruct (win_low w T P Psat ps dll H1 H2 H3) as [E1 E2]. destruct (spec_den T P dll) as (_ & _ & A). destruct (spec_den T P (P / T / (4 / 10))) as (_ & _ & B). destruct (A K1) as [A1 A2]. destruct (B K2) as [B1 B2].
  cbv zeta. rewrite E1, E2. split; [exact A2|split; [exact B2|split]].
  - reflexivity.
  - assert (N : f_dens (denHGK P dll T) <> 0) by (destruct A2 as ((X & _) & _); apply Rgt_not_eq; exact X). rewrite <- A1. assert (Q := h_u w T P _ _ HT N N). cbv zeta in Q.
    replace (1 / f_dens (denHGK P dll T) - 1 / f_dens (denHGK P dll T)) with 0 in Q by ring. rewrite Rmult_0_r, Rplus_0_r in Q. rewrite <- Q. reflexivity.
Qed.
Lemma liquid_far : forall w q T P Psat, T < tz -> q_p q < P -> PTOL < P - q_p q -> let o := unsat w q T P Psat in
  (exists n : nat, f_count (denHGK P (q_dL q) T) = n /\ (11 <= n <= 31)%nat) \/
  (s0_w o = dim T P (s0_d o) (state_at T (s0_d o)) w /\ settled T P (s0_d o)).
Proof.
  intros w q T P Psat H1 H2 H3. cbv zeta. unfold unsat. rewrite snap_far by (rewrite Rabs_pos_eq by lra; exact H3). assert (A := liquid w T P Psat (q_p q) (q_dL q) H1 H2). cbv zeta in A. destruct A as [A|(A & B)]; [left; exact A|right; split; [exact A|exact B]].
Qed.
