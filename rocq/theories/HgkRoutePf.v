(** Requests to the water of Haar, Gallagher and Kell.  *)
From Coq Require Import List Bool Arith Reals Lra Lia Psatz.
From Verif Require Import GemsModel GemsRun HgkSat HgkPs HgkTrans HgkTransSpec HgkTransPf HgkRoute.
Open Scope R_scope.

Lemma le_t : forall a b, a <= b -> le a b = true. Proof. intros a b H. unfold le. destruct (Rle_dec a b); [reflexivity|lra]. Qed.
Lemma le_f : forall a b, b < a -> le a b = false. Proof. intros a b H. unfold le. destruct (Rle_dec a b); [lra|reflexivity]. Qed.
Lemma le_i : forall a b, le a b = true -> a <= b. Proof. intros a b. unfold le. destruct (Rle_dec a b); [trivial|discriminate]. Qed.
Lemma gt_i : forall a b, gt a b = false -> a <= b. Proof. intros a b. unfold gt. destruct (Rlt_dec b a); [discriminate|intros _; lra]. Qed.
Lemma set_sat : forall Tk P, fst (set_P PsHGK Tk P) = true -> snd (set_P PsHGK Tk P) = PsHGK Tk * 10.
Proof. intros Tk P. unfold set_P. cbv zeta. destruct (if Req_EM_T _ 0 then _ else _); [reflexivity|discriminate]. Qed.
Lemma set_one : forall Tk P, fst (set_P PsHGK Tk P) = false -> snd (set_P PsHGK Tk P) = P /\ low_bar <= P.
Proof.
  intros Tk P. unfold set_P. cbv zeta. destruct (Rlt_dec P low_bar) as [L|L].
  - destruct (Req_EM_T (Rabs 0) 0) as [_|N]; [discriminate|exfalso; apply N, Rabs_R0].
  - destruct (Req_EM_T (Rabs P) 0); [discriminate|]. destruct (Rlt_dec _ _); [discriminate|]. intros _. cbn [fst snd]. split; [reflexivity|lra].
Qed.
Lemma set_low : forall Tk P, P < low_bar -> fst (set_P PsHGK Tk P) = true.
Proof. intros Tk P H. unfold set_P. cbv zeta. destruct (Rlt_dec P low_bar) as [_|L]; [|lra]. destruct (Req_EM_T (Rabs 0) 0) as [_|N]; [reflexivity|exfalso; apply N, Rabs_R0]. Qed.
Lemma set_far : forall Tk P, low_bar <= P -> 1 / 10 ^ 14 <= Rabs (P - (if Rle_dec Tk Tc then PsHGK Tk * 10 else 0)) -> set_P PsHGK Tk P = (false, P).
Proof.
  intros Tk P L H. unfold set_P. cbv zeta. destruct (Rlt_dec P low_bar) as [N|_]; [lra|]. assert (P0 : 0 < P) by (unfold low_bar in L; lra). rewrite !(Rabs_pos_eq P) by lra. destruct (Req_EM_T P 0) as [Z|_]; [lra|].
  unfold Tc in H. destruct (Rle_dec Tk (647067 / 1000)) as [A|A]; [rewrite (Rabs_pos_eq (PsHGK Tk * 10)) by (assert (Q := ps_pos Tk); lra)|rewrite Rabs_R0]; (destruct (Rlt_dec _ _) as [B|_]; [lra|reflexivity]).
Qed.

(** *** Saturation is refused outside the two-phase range *)
Lemma sat_iff : forall pf T P, P < low_bar ->
  (T < 0 \/ Tc - 27315 / 100 + 1 / 10 ^ 7 < T -> route pf T P = None) /\
  (0 <= T <= Tc - 27315 / 100 -> exists l, route pf T P = Some (true, lift_0 T + 27315 / 100, PsHGK (T + 27315 / 100) * 10, l) /\ (l = true <-> 643 <= T + 27315 / 100)).
Proof.
  intros pf T P H. assert (F := set_low (T + 27315 / 100) P H). assert (V := set_sat _ _ F). unfold route. cbv zeta. rewrite F, V. cbn [valid]. split; intro R0.
  - assert (E : lift_0 T = T). { unfold lift_0. destruct R0 as [A|A]; [rewrite (le_f 0 T) by lra; rewrite andb_false_r; reflexivity|]. rewrite (gt_f (1 / 100) T) by (unfold Tc in A; lra). reflexivity. }
    rewrite E. unfold Ttr, FPTOL. destruct R0 as [A|A]; [rewrite (le_f (27316 / 100 - 27315 / 100)) by lra; reflexivity|]. rewrite (le_f (T - 1 / 10 ^ 7)) by lra. rewrite andb_false_r. reflexivity.
  - assert (E : 1 / 100 <= lift_0 T /\ lift_0 T <= Tc - 27315 / 100 /\ (lift_0 T = T \/ (T < 1 / 100 /\ lift_0 T = 1 / 100))). { unfold lift_0, Tc in *. destruct (gt (1 / 100) T && le 0 T) eqn:G; [apply andb_true_iff in G; destruct G as [G1 _]; unfold gt in G1; destruct (Rlt_dec T (1 / 100)); [|discriminate]; repeat split; lra|]. apply andb_false_iff in G. destruct G as [G|G]; [apply gt_i in G; repeat split; lra|rewrite le_t in G by lra; discriminate]. }
    destruct E as (E1 & E2 & E3). unfold Ttr, FPTOL. rewrite !le_t by lra. cbn [andb]. eexists. split; [reflexivity|]. unfold crtreg. split; intro Q; [apply le_i in Q|apply le_t]; destruct E3 as [E3|[E3 E4]]; lra.
Qed.
(** *** One phase *)
Lemma one_not_ice : forall pf T P isat Tk P' l, route pf T P = Some (isat, Tk, P', l) -> isat = false ->
  P' = P /\ Tk = lift_0 T + 27315 / 100 /\ low_bar <= P <= 30000 + 1 / 10 ^ 7 /\ -20 - 1 / 10 ^ 7 <= T <= 2250 + 1 / 10 ^ 7 /\
  (P < 20741 / 10 -> 20741 / 10 - 138180804975562958 / 10 ^ 15 * (lift_0 T + 15) <= P + 1 / 10 ^ 7) /\ (20741 / 10 <= P -> P - 1 / 10 ^ 7 <= 20741 / 10 + 174536875 / 10 ^ 6 * (lift_0 T + 15)).
Proof.
  intros pf T P isat Tk P' l H Z. unfold route in H. cbv zeta in H. destruct (valid _ _ _) eqn:V; [|discriminate]. injection H as H1 H2 H3 H4. rewrite Z in H1. destruct (set_one _ _ H1) as [S1 S2]. rewrite H1 in V. rewrite S1 in *. cbn [valid] in V. unfold valTP in V.
  destruct (_ || _ || _ || _) eqn:O in V; [discriminate|]. apply orb_false_iff in O. destruct O as [O O4]. apply orb_false_iff in O. destruct O as [O O3]. apply orb_false_iff in O. destruct O as [O1 O2]. apply gt_i in O1, O2, O3, O4. unfold FPTOL, Pli13, Tli13, Ptripl, sPli1, sPli37 in *.
  assert (L : lift_0 T = T \/ (0 <= T < 1 / 100)). { unfold lift_0. destruct (gt (1 / 100) T) eqn:G1; [|left; reflexivity]. destruct (le 0 T) eqn:G2; [|left; reflexivity]. right. apply le_i in G2. unfold gt in G1. destruct (Rlt_dec T (1 / 100)); [lra|discriminate]. }
  split; [symmetry; exact H3|]. split; [symmetry; exact H2|]. split; [lra|]. split; [destruct L as [L|L]; [rewrite L in *; lra|lra]|]. set (y := lift_0 T) in *. clearbody y. unfold low_bar in S2.
  destruct (Rle_dec (20741 / 10) P) as [A|A]; [split; intro B; [lra|]; apply le_i in V; lra|]. destruct (Rle_dec _ P) as [B|B]; [split; intro C; [|lra]; apply le_i in V; lra|exfalso; apply B; lra].
Qed.
Lemma one_accepted : forall T P, 1 / 100 <= T <= 2250 -> low_bar <= P <= 4693 -> valTP T P = true.
Proof.
  intros T P HT HP. unfold low_bar in HP. unfold valTP, FPTOL, Pli13, Tli13, Ptripl, sPli1, sPli37. rewrite !gt_f by lra. cbn [orb]. destruct (Rle_dec (20741 / 10) P) as [A|A]; [apply le_t; lra|]. destruct (Rle_dec _ P) as [B|B]; [apply le_t; lra|exfalso; apply B; lra].
Qed.
Lemma one_high : forall T P, 150 <= T <= 2250 -> 5001 <= P <= 30000 -> valTP T P = true.
Proof.
  intros T P HT HP. unfold valTP, FPTOL, Pli13, Tli13, Ptripl, sPli1, sPli37. rewrite !gt_f by lra. cbn [orb]. destruct (Rle_dec (20741 / 10) P) as [A|A]; [apply le_t; lra|lra].
Qed.
(** accepted states without dielectric constant, viscosity, conductivity *)
Lemma blind : forall pf T P, 150 <= T <= 2250 -> 5001 <= P <= 30000 -> exists l, route pf T P = Some (false, T + 27315 / 100, P, l) /\
  (forall D b al da, born92 (T + 27315 / 100) P D b al da = mkBorn 0 0 0 0 0) /\ (forall rho b, viscos (T + 27315 / 100) P rho b = 0) /\ (forall rho al b, thcond (T + 27315 / 100) P rho al b = 0).
Proof.
  intros pf T P HT HP. assert (S0 : set_P PsHGK (T + 27315 / 100) P = (false, P)).
  { apply set_far; [unfold low_bar; lra|]. assert (B : (if Rle_dec (T + 27315 / 100) Tc then PsHGK (T + 27315 / 100) * 10 else 0) <= 221). { destruct (Rle_dec _ Tc) as [A|A]; [|lra]. unfold Tc in A. assert (Q := ps_up (T + 27315 / 100) (64725 / 100) ltac:(lra) ltac:(lra)). rewrite ps_crit in Q. lra. }
    rewrite Rabs_pos_eq; lra. }
  assert (E : lift_0 T = T) by (unfold lift_0; rewrite gt_f by lra; reflexivity). unfold route. cbv zeta. rewrite S0. cbn [fst snd]. rewrite E. cbn [valid]. rewrite one_high by assumption. eexists. split; [reflexivity|]. split; [|split].
  - intros D b al da. unfold born92. destruct (Rlt_dec _ (T + 27315 / 100 - 27315 / 100)); [reflexivity|]. destruct (Rlt_dec _ P) as [_|N]; [reflexivity|lra].
  - intros rho b. unfold viscos. rewrite visc_b; [reflexivity|]. left. lra.
  - intros rho al b. unfold thcond. rewrite cond_b; [reflexivity|]. left. lra.
Qed.

(** *** Near the critical point *)
Section records.
Context {A : Type} (zero : A).
Lemma near_super : forall T r d, Tc < T -> reads false 0 (after zero false T (One r d)) = Some (r, d / 1000) /\ reads false 1 (after zero false T (One r d)) = Some (r, d / 1000).
Proof. intros T r d H. unfold after. destruct (Rle_dec T Tc); [lra|]. split; reflexivity. Qed.
Lemma near_sub : forall T r d, T <= Tc -> reads false 0 (after zero false T (One r d)) = Some (r, 0) /\ reads false 1 (after zero false T (One r d)) = Some (zero, d / 1000).
Proof. intros T r d H. unfold after. destruct (Rle_dec T Tc); [|lra]. split; reflexivity. Qed.
Lemma near_sat : forall T l v dl dv, T <= Tc -> reads true 0 (after zero true T (Two l v dl dv)) = Some (l, dl / 1000) /\ reads true 1 (after zero true T (Two l v dl dv)) = Some (v, dv / 1000).
Proof. intros T l v dl dv H. unfold after. destruct (Rle_dec T Tc); [|lra]. split; reflexivity. Qed.
End records.
Lemma vol_0 : out_rho 0 = 0 /\ out_vol 0 = None. Proof. unfold out_rho, out_vol. split; [ring|]. destruct (Req_EM_T 0 0); [reflexivity|contradiction]. Qed.
Lemma vol_n : forall d, d <> 0 -> out_rho (d / 1000) = d /\ out_vol (d / 1000) = Some (1 / (d / 1000) * H2OMolarMass * (1 / 10)).
Proof. intros d H. unfold out_rho, out_vol. split; [field|]. destruct (Req_EM_T (d / 1000) 0) as [E|_]; [exfalso; lra|reflexivity]. Qed.
(** requests that get there: between 372.15 and 373.917 degrees, a band of pressures around the saturation curve *)
Lemma band : forall pf T P, 6453 / 10 <= T + 27315 / 100 <= Tc -> 210 + (9 / 5) * (T + 27315 / 100 - 643) <= P <= 2158 / 10 + 38 / 10 * (T + 27315 / 100 - 6453 / 10) -> 1 / 10 ^ 14 <= Rabs (P - PsHGK (T + 27315 / 100) * 10) ->
  route pf T P = Some (false, T + 27315 / 100, P, true).
Proof.
  intros pf T P HT HP HS. unfold Tc in HT. assert (S0 : set_P PsHGK (T + 27315 / 100) P = (false, P)) by (apply set_far; [unfold low_bar; lra|destruct (Rle_dec _ Tc) as [_|N]; [exact HS|unfold Tc in N; lra]]). clear HS.
  assert (E : lift_0 T = T) by (unfold lift_0; rewrite gt_f by lra; reflexivity). unfold route. cbv zeta. rewrite S0. cbn [fst snd]. rewrite E. cbn [valid]. rewrite one_accepted by (unfold low_bar; lra). f_equal. f_equal.
  unfold crtreg. rewrite !gt_f by lra. cbn [orb]. rewrite !le_t by lra. reflexivity.
Qed.
Lemma band_case : 6453 / 10 <= 37335 / 100 + 27315 / 100 <= Tc /\ 210 + (9 / 5) * (37335 / 100 + 27315 / 100 - 643) <= 2203 / 10 <= 2158 / 10 + 38 / 10 * (37335 / 100 + 27315 / 100 - 6453 / 10) /\ exists P, 219 <= P <= 2203 / 10 /\ 1 / 10 ^ 14 <= Rabs (P - PsHGK (37335 / 100 + 27315 / 100) * 10).
Proof.
  unfold Tc. split; [lra|]. split; [lra|]. generalize (PsHGK (37335 / 100 + 27315 / 100)). intro p. destruct (Rle_dec (p * 10) (2195 / 10)) as [A|A]; [exists 220; split; [lra|]; rewrite Rabs_pos_eq; lra|exists 219; split; [lra|]; rewrite Rabs_left1; lra].
Qed.
Lemma zero_volume : forall (A : Type) (zero r : A) pf T P d, d <> 0 -> 6453 / 10 <= T + 27315 / 100 <= Tc -> 210 + (9 / 5) * (T + 27315 / 100 - 643) <= P <= 2158 / 10 + 38 / 10 * (T + 27315 / 100 - 6453 / 10) -> 1 / 10 ^ 14 <= Rabs (P - PsHGK (T + 27315 / 100) * 10) ->
  route pf T P = Some (false, T + 27315 / 100, P, true) /\
  (exists d0, reads false 0 (after zero false (T + 27315 / 100) (One r d)) = Some (r, d0) /\ out_rho d0 = 0 /\ out_vol d0 = None) /\
  (exists d1, reads false 1 (after zero false (T + 27315 / 100) (One r d)) = Some (zero, d1) /\ out_rho d1 = d).
Proof.
  intros A zero r pf T P d Hd H1 H2 H3. split; [apply band; assumption|]. destruct (near_sub zero (T + 27315 / 100) r d (proj2 H1)) as [E0 E1]. split; [exists 0; split; [exact E0|exact vol_0]|exists (d / 1000); split; [exact E1|apply vol_n, Hd]].
Qed.
Lemma both_volumes : forall (A : Type) (zero r : A) T d, d <> 0 -> Tc < T -> forall state, (state <= 1)%nat -> exists x, reads false state (after zero false T (One r d)) = Some (r, x) /\ out_rho x = d /\ out_vol x <> None.
Proof.
  intros A zero r T d Hd HT state Hs. destruct (near_super zero T r d HT) as [E0 E1]. exists (d / 1000). destruct (vol_n d Hd) as [V1 V2]. split; [destruct state as [|[|n]]; [exact E0|exact E1|lia]|]. split; [exact V1|rewrite V2; discriminate].
Qed.
Lemma sat_volumes : forall (A : Type) (zero l v : A) T dl dv, dl <> 0 -> dv <> 0 -> T <= Tc -> exists x y, reads true 0 (after zero true T (Two l v dl dv)) = Some (l, x) /\ reads true 1 (after zero true T (Two l v dl dv)) = Some (v, y) /\ out_rho x = dl /\ out_rho y = dv.
Proof.
  intros A zero l v T dl dv H1 H2 HT. destruct (near_sat zero T l v dl dv HT) as [E0 E1]. exists (dl / 1000), (dv / 1000). repeat split; [exact E0|exact E1|apply vol_n, H1|apply vol_n, H2].
Qed.
Lemma limits_case : exists r, route (fun _ => 0) 300 6000 = Some r /\ fst (fst (fst r)) = false.
Proof. destruct (blind (fun _ => 0) 300 6000 ltac:(lra) ltac:(lra)) as (l & E & _). eexists. split; [exact E|reflexivity]. Qed.
