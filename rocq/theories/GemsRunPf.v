(** Proofs about GemsRun.  *)
From Coq Require Import List Bool Arith Reals Lra Lia.
From Coquelicot Require Import Coquelicot.
From Verif Require Import WaterModel WaterSpec HelmModel HelmJet HelmProofs GemsModel GemsSpec GemsRun GemsTotal GemsIso GemsLim GemsRef GemsEx.
Open Scope R_scope.

Lemma set_P_high : forall PsHGK Tk P, 0 <= PsHGK Tk -> low_bar <= P -> Rabs (snd (set_P PsHGK Tk P) - P) < 1 / 10 ^ 14.
Proof.
  intros Q Tk P HQ HP. unfold set_P. cbv zeta. assert (L : 0 < low_bar) by (unfold low_bar; lra). destruct (Rlt_dec P low_bar) as [B|_]; [lra|].
  rewrite (Rabs_pos_eq P) by lra. destruct (Req_EM_T P 0) as [B|_]; [lra|].
  destruct (Rle_dec Tk (647067 / 1000)) as [B|B].
  - rewrite (Rabs_pos_eq (Q Tk * 10)) by lra. destruct (Rlt_dec (Rabs (P - Q Tk * 10)) (1 / 10 ^ 14)) as [C|C]; cbn [snd].
    + rewrite Rabs_minus_sym. exact C.
    + unfold Rminus. rewrite Rplus_opp_r, Rabs_R0. lra.
  - rewrite Rabs_R0, Rminus_0_r, (Rabs_pos_eq P) by lra. destruct (Rlt_dec P (1 / 10 ^ 14)) as [C|C]; [unfold low_bar in HP; lra|]. cbn [snd]. unfold Rminus. rewrite Rplus_opp_r, Rabs_R0. lra.
Qed.
Lemma set_P_low : forall PsHGK Tk P, P < low_bar -> set_P PsHGK Tk P = (true, PsHGK Tk * 10).
Proof. intros Q Tk P H. unfold set_P. cbv zeta. destruct (Rlt_dec P low_bar) as [_|B]; [|lra]. rewrite Rabs_R0. destruct (Req_EM_T 0 0) as [_|B]; [reflexivity|lra]. Qed.

Lemma clamp_in : forall d, 0 < clamp d <= 19 / 10.
Proof. intro d. unfold clamp. cbv zeta. destruct (Rle_dec d 0); destruct (Rlt_dec _ _); lra. Qed.
Lemma close_le : forall g dp, close g dp = true -> dp < 1 / 10 ^ 6 /\ (g <= 7 / 10 -> dp < 1 / 10 ^ 7) /\ (g <= 3 / 10 -> dp < 1 / 10 ^ 8).
Proof.
  intros g dp. unfold close. destruct (Rlt_dec dp (1 / 10 ^ 8)); destruct (Rlt_dec (3 / 10) g); destruct (Rlt_dec dp (1 / 10 ^ 7)); destruct (Rlt_dec (7 / 10) g); destruct (Rlt_dec dp (1 / 10 ^ 6)); cbn; intro H; try discriminate H; repeat split; intros; lra.
Qed.
Definition good (P guess T : R) (f : found) : Prop :=
  f_dens f = f_eval f /\ 0 < f_dens f <= 19 / 10 /\ 0 < dpdd (state_at T (f_dens f)) /\ close guess (Rabs (1 - press T (f_dens f) / P)) = true.
Lemma den_spec : forall fuel i P guess T d, (i + fuel = 31)%nat -> (i <= 30)%nat -> let f := den fuel i P guess T d in
  (i < f_count f <= 31)%nat /\ (if f_ok f then good P guess T f else (11 <= f_count f)%nat).
Proof.
  induction fuel as [|fuel IH]; intros i P g T d H I; [lia|]. cbn [den]. cbv zeta. destruct (Rlt_dec 0 (dpdd (state_at T (clamp d)))) as [SL|SL].
  - destruct (close g (Rabs (1 - press T (clamp d) / P))) eqn:E.
    + split; [cbn [f_count]; lia|]. cbn [f_ok]. unfold good. cbn [f_dens f_eval]. split; [reflexivity|split; [apply clamp_in|split; [exact SL|exact E]]].
    + destruct (S i <=? 30) eqn:B.
      * apply Nat.leb_le in B. specialize (IH (S i) P g T (newton P (press T (clamp d)) (dpdd (state_at T (clamp d))) (clamp d)) ltac:(lia) B). cbv zeta in IH. destruct IH as [A C]. split; [lia|exact C].
      * apply Nat.leb_gt in B. cbn [f_count f_ok]. split; lia.
  - destruct (S i <=? 10) eqn:B.
    + apply Nat.leb_le in B. specialize (IH (S i) P g T (shift g (clamp d)) ltac:(lia) ltac:(lia)). cbv zeta in IH. destruct IH as [A C]. split; [lia|exact C].
    + apply Nat.leb_gt in B. cbn [f_count f_ok]. split; lia.
Qed.
Lemma search : forall P guess T, let f := denHGK P guess T in (1 <= f_count f <= 31)%nat /\ (f_ok f = false -> (11 <= f_count f)%nat) /\
  (f_ok f = true -> f_dens f = f_eval f /\ 0 < f_dens f <= 19 / 10 /\ 0 < dpdd (state_at T (f_dens f)) /\ Rabs (1 - press T (f_dens f) / P) < 1 / 10 ^ 6 /\ (guess <= 7 / 10 -> Rabs (1 - press T (f_dens f) / P) < 1 / 10 ^ 7) /\ (guess <= 3 / 10 -> Rabs (1 - press T (f_dens f) / P) < 1 / 10 ^ 8)).
Proof.
  intros P g T. cbv zeta. assert (A := den_spec 31 0 P g T g eq_refl ltac:(lia)). cbv zeta in A. unfold denHGK. set (f := den 31 0 P g T g) in *. clearbody f. destruct A as [A B]. split; [lia|split].
  - intro E. rewrite E in B. exact B.
  - intro E. rewrite E in B. destruct B as (B1 & B2 & B3 & B4). split; [exact B1|split; [exact B2|split; [exact B3|apply close_le; exact B4]]].
Qed.
(** a guess that already solves the equation is returned at once *)
Lemma den_first : forall n T g, 0 < g <= 19 / 10 -> 0 < dpdd (state_at T g) -> press T g <> 0 -> den (S n) 0 (press T g) g T g = mkFound g g 1 true.
Proof.
  intros n T g Hg SL N. cbn [den]. cbv zeta. assert (C : clamp g = g) by (unfold clamp; cbv zeta; destruct (Rle_dec g 0); [lra|]; destruct (Rlt_dec _ _); lra). rewrite C. destruct (Rlt_dec 0 (dpdd (state_at T g))) as [_|B]; [|lra].
  replace (1 - press T g / press T g) with 0 by (field; exact N). rewrite Rabs_R0. assert (E : close g 0 = true). { unfold close. destruct (Rlt_dec 0 (1 / 10 ^ 8)) as [_|B]; [reflexivity|lra]. } rewrite E. reflexivity.
Qed.
Lemma search_first : forall T g, 0 < g <= 19 / 10 -> 0 < dpdd (state_at T g) -> press T g <> 0 -> denHGK (press T g) g T = mkFound g g 1 true.
Proof. intros T g. exact (den_first 30 T g). Qed.
Lemma rec_at : forall w T P d, record_of w T P d d = dim T P d (state_at T d) w. Proof. reflexivity. Qed.

(** compressed liquid: state 0 is the record of one density, and that density solves the equation *)
Lemma liquid : forall w T P Psat ps dll, T < tz -> ps < P -> let o := HGKeqn w T P Psat ps dll in
  (exists n : nat, f_count (denHGK P dll T) = n /\ (11 <= n <= 31)%nat) \/
  (s0_w o = dim T P (s0_d o) (state_at T (s0_d o)) w /\ 0 < s0_d o <= 19 / 10 /\ 0 < dpdd (state_at T (s0_d o)) /\ Rabs (1 - press T (s0_d o) / P) < 1 / 10 ^ 6).
Proof.
  intros w T P Psat ps dll HT HP. cbv zeta. destruct (search P dll T) as (C1 & C2 & C3).
  assert (G2 : guess2 T dll = dll) by (unfold guess2; destruct (Rlt_dec T tz); [reflexivity|lra]). assert (G3 : guess3 T P ps dll = dll) by (unfold guess3; cbv zeta; destruct (Rlt_dec T tz); [|lra]; destruct (Rlt_dec ps P); [reflexivity|lra]).
  unfold HGKeqn. cbv zeta. rewrite G2, G3. destruct (f_ok (denHGK P dll T)) eqn:E.
  - right. destruct (C3 eq_refl) as (D1 & D2 & D3 & D4 & _). destruct (_ && _)%bool; cbn [s0_w s0_d]; (split; [rewrite <- D1; apply rec_at|split; [exact D2|split; [exact D3|exact D4]]]).
  - left. exists (f_count (denHGK P dll T)). split; [reflexivity|]. specialize (C2 eq_refl). lia.
Qed.
(** below saturation, or above the critical temperature: state 1 is *)
Lemma vapour : forall w T P Psat ps dll, (P * 10 <= Psat \/ 647126 / 1000 <= T) -> let o := HGKeqn w T P Psat ps dll in
  (exists n : nat, f_count (denHGK P (guess3 T P ps dll) T) = n /\ (11 <= n <= 31)%nat) \/
  (s1_w o = dim T P (s1_d o) (state_at T (s1_d o)) w /\ 0 < s1_d o <= 19 / 10 /\ 0 < dpdd (state_at T (s1_d o)) /\ Rabs (1 - press T (s1_d o) / P) < 1 / 10 ^ 6).
Proof.
  intros w T P Psat ps dll HB. cbv zeta. destruct (search P (guess3 T P ps dll) T) as (C1 & C2 & C3).
  unfold HGKeqn. cbv zeta. assert (B : ((if Rlt_dec Psat (P * 10) then true else false) && (if Rlt_dec T (647126 / 1000) then true else false))%bool = false).
  { destruct (Rlt_dec Psat (P * 10)); [|reflexivity]. destruct (Rlt_dec T (647126 / 1000)); [|reflexivity]. destruct HB; lra. }
  rewrite B. cbn [s1_w s1_d]. destruct (f_ok (denHGK P (guess3 T P ps dll) T)) eqn:E.
  - right. destruct (C3 eq_refl) as (D1 & D2 & D3 & D4 & _). split; [rewrite <- D1; apply rec_at|split; [exact D2|split; [exact D3|exact D4]]].
  - left. exists (f_count (denHGK P (guess3 T P ps dll) T)). split; [reflexivity|]. specialize (C2 eq_refl). lia.
Qed.
(** state 1 above saturation: the enthalpy mixes two densities *)
Lemma tr_back : forall x, x / (un_fh * cal_to_J) * un_fh * cal_to_J = x. Proof. intro x. unfold un_fh, cal_to_J. field. Qed.
Lemma h_u : forall w T P d e, 0 < T -> d <> 0 -> e <> 0 -> let o := therm_out (record_of w T P d e) e in
  o_H o - o_U o - (tr_H w - tr_U w) = molar * (press T e / e + q0 (resid T e) * (1 / d - 1 / e)).
Proof.
  intros w T P d e HT Hd He. cbv zeta. assert (G := gas_p). unfold therm_out, record_of, dim, thm, tpset. cbv zeta. cbn [o_H o_U w_H w_U hd ud tr_H tr_U]. unfold press, molar.
  set (B := base (bb T) e T). set (q := q0 (resid T e)). set (z := zb B). set (u := ub B + ur (resid T e) + ui (ideal T) - uref / T).
  replace (((u + (z + q / (gascon * T) / d)) * (gascon * T) * un_fh + tr_H w / (un_fh * cal_to_J) * un_fh) * cal_to_J) with ((u + (z + q / (gascon * T) / d)) * (gascon * T) * un_fh * cal_to_J + tr_H w) by (rewrite <- (tr_back (tr_H w)) at 1; ring).
  replace ((u * (gascon * T) * un_fh + tr_U w / (un_fh * cal_to_J) * un_fh) * cal_to_J) with (u * (gascon * T) * un_fh * cal_to_J + tr_U w) by (rewrite <- (tr_back (tr_U w)) at 1; ring).
  field. repeat split; lra || assumption.
Qed.
Lemma mixed : forall w T P Psat ps dll, 0 < T -> Psat < P * 10 -> T < 647126 / 1000 -> let o := HGKeqn w T P Psat ps dll in
  f_ok (denHGK P (guess3 T P ps dll) T) = true -> f_ok (denHGK P 0 T) = true ->
  let t1 := therm_out (s1_w o) (s1_d o) in
  o_H t1 - o_U t1 - (tr_H w - tr_U w) = molar * (press T (s1_d o) / s1_d o + q0 (resid T (s1_d o)) * (1 / s0_d o - 1 / s1_d o)).
Proof.
  intros w T P Psat ps dll HT HP HC. cbv zeta. intros E0 E3. destruct (search P (guess3 T P ps dll) T) as (_ & _ & A). destruct (search P 0 T) as (_ & _ & B). specialize (A E0). specialize (B E3). destruct A as (A1 & A2 & _). destruct B as (B1 & B2 & _).
  unfold HGKeqn. cbv zeta. destruct (Rlt_dec Psat (P * 10)) as [_|N]; [|lra]. destruct (Rlt_dec T (647126 / 1000)) as [_|N]; [|lra]. cbn [andb s1_w s1_d s0_d]. rewrite <- B1. apply (h_u w T P); lra.
Qed.
(** Euler relations of the record *)
Lemma euler : forall w T P d e, let o := therm_out (record_of w T P d e) e in
  o_G o = o_H o - T * o_S o + (tr_G w - tr_H w + Ttr * tr_S w) /\ o_A o = o_U o - T * o_S o + (tr_A w - tr_U w + Ttr * tr_S w).
Proof.
  intros w T P d e. cbv zeta. unfold therm_out, record_of, dim, tpset. cbv zeta. cbn [o_G o_H o_S o_A o_U w_G w_H w_S w_A w_U tr_S tr_G tr_H tr_A tr_U]. set (f := thm _ _ _ _ _). clearbody f.
  generalize (sd f) (hd f) (ud f). intros s h u. assert (N : un_fh <> 0) by (unfold un_fh; lra). assert (N2 : cal_to_J <> 0) by (unfold cal_to_J; lra). split; field; (split; assumption).
Qed.
Lemma search_300 : exists g, 0 < g /\ f_ok (denHGK (press 300 g) g 300) = true.
Proof.
  assert (HT : 0 < 300) by lra. assert (L := l_D 300 HT). destruct (n_pos _ _ L ltac:(assert (G := gas_p); lra)) as [e1 [H1 A]]. destruct (low 300 off_300) as [e2 [H2 B]]. destruct (two_e _ _ _ _ H1 H2 A B) as [E Q].
  set (e := Rmin (Rmin e1 e2) 1). assert (E' : 0 < e <= 1 /\ e <= Rmin e1 e2) by (unfold e; repeat split; [apply Rmin_glb_lt; lra|apply Rmin_r|apply Rmin_l]). destruct (Q (e / 2) ltac:(lra)) as [X [Y Z]]. exists (e / 2). split; [lra|].
  rewrite search_first; [reflexivity|lra|exact Z|]. destruct (tot 300 (e / 2) Y) as (_ & _ & F & _). rewrite <- F. assert (0 < e / 2 * (e / 2 * hD (Htot 300 (e / 2)))) by (apply Rmult_lt_0_compat; lra). lra.
Qed.
