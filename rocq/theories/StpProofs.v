(** Slopes of the Sterner-Pitzer fluids along an exact density. *)
From Coq Require Import List Bool Reals Lra.
From Coquelicot Require Import Coquelicot.
From Verif Require Import RDeriv RDiff2 WaterModel WaterSpec HelmModel HelmJet HelmProofs GasModel StpModel StpJet.
Import ListNotations.
Open Scope R_scope.

Lemma Rg_pos : 0 < Rg. Proof. unfold Rg; lra. Qed.
Section W.
Variable w : cftab.
(** an entry of the table, as a function *)
Definition ent (f : ptable -> R) (t d : R) : R := match helmholtz w t d with Some h => f h | None => 0 end.
Lemma helm_some : forall t d h, helmholtz w t d = Some h <-> (pden (C w t) d <> 0 /\ a1 (C w t) <> 0 /\ a7 (C w t) <> 0 /\ a9 (C w t) <> 0) /\ h = table w t d.
Proof.
  intros t d h. unfold helmholtz, some_zero, divisors. fold (C w t). fold (C1 w t). fold (C2 w t). cbn [existsb].
  destruct (Req_EM_T (pden (C w t) d) 0); [split; [discriminate|intros ((A & _) & _); contradiction]|].
  destruct (Req_EM_T (a1 (C w t)) 0); [split; [discriminate|intros ((_ & A & _) & _); contradiction]|].
  destruct (Req_EM_T (a7 (C w t)) 0); [split; [discriminate|intros ((_ & _ & A & _) & _); contradiction]|].
  destruct (Req_EM_T (a9 (C w t)) 0); [split; [discriminate|intros ((_ & _ & _ & A) & _); contradiction]|].
  cbn [orb]. split; [intros E; injection E as <-; split; [repeat split; assumption|reflexivity]|intros [_ ->]; reflexivity].
Qed.
Lemma helm_U : forall t d h, 0 < t -> helmholtz w t d = Some h -> U w t d /\ h = table w t d.
Proof. intros t d h Ht E. apply helm_some in E. destruct E as [(A & B & D & F) ->]. split; [|reflexivity]. repeat split; assumption. Qed.
Lemma U_helm : forall t d, U w t d -> helmholtz w t d = Some (table w t d).
Proof. intros t d (_ & H). apply helm_some. split; [exact H|reflexivity]. Qed.
Lemma near_some : forall t d h, 0 < t -> helmholtz w t d = Some h -> locally_2d (fun u v => helmholtz w u v = Some (table w u v)) t d.
Proof. intros t d h Ht E. destruct (helm_U _ _ _ Ht E) as [H _]. destruct (U_open w t d H) as [e He]. exists e. intros u v Hu Hv. apply U_helm, He; assumption. Qed.
Lemma ent_ext : forall t d h (f : helm -> R) (g : ptable -> R) a b, 0 < t -> helmholtz w t d = Some h -> (forall u v, U w u v -> f (Full w u v) = g (table w u v)) -> diff2 (fun u v => f (Full w u v)) t d a b -> diff2 (ent g) t d a b.
Proof.
  intros t d h f g a b Ht E Hfg D. destruct (helm_U _ _ _ Ht E) as [H _]. destruct (U_open w t d H) as [e He]. apply (e_ext_loc (fun u v => f (Full w u v))); [|exact D]. exists e. intros u v Hu Hv. unfold ent. rewrite (U_helm _ _ (He u v Hu Hv)). apply Hfg, He; assumption.
Qed.
Lemma stp_table : forall t d h, 0 < t -> helmholtz w t d = Some h ->
  diff2 (ent p_0) t d (p_T h) (p_D h) /\ diff2 (ent p_T) t d (p_TT h) (p_DT h) /\ diff2 (ent p_D) t d (p_DT h) (p_DD h) /\
  diff2 (ent p_DT) t d (p_DTT h) (p_DDT h) /\ diff2 (ent p_DD) t d (p_DDT h) (p_DDD h) /\ is_derive (fun v => ent p_TT t v) d (p_DTT h).
Proof.
  intros t d h Ht E. destruct (helm_U _ _ _ Ht E) as [HU Eh]. assert (J := Full_jet w t d HU). unfold helm1, helm2, helm3 in J. cbv beta in J. destruct J as (J0 & (JT & JD) & (JTT & JTD & JDD)).
  destruct (Full_eq w t d HU) as (_ & Q1 & Q2 & Q3 & Q4 & Q5 & Q6 & Q7 & Q8). rewrite <- Eh in *. rewrite Q1, Q2 in J0. rewrite Q3, Q4 in JT. rewrite Q4, Q5 in JD. rewrite Q6, Q7 in JTD. rewrite Q7, Q8 in JDD.
  split; [|split; [|split; [|split; [|split]]]].
  - apply (ent_ext t d h h0 p_0 _ _ Ht E); [intros u v K; apply (Full_eq w u v K)|exact J0].
  - apply (ent_ext t d h hT p_T _ _ Ht E); [intros u v K; apply (Full_eq w u v K)|exact JT].
  - apply (ent_ext t d h hD p_D _ _ Ht E); [intros u v K; apply (Full_eq w u v K)|exact JD].
  - apply (ent_ext t d h hTD p_DT _ _ Ht E); [intros u v K; apply (Full_eq w u v K)|exact JTD].
  - apply (ent_ext t d h hDD p_DD _ _ Ht E); [intros u v K; apply (Full_eq w u v K)|exact JDD].
  - rewrite Q6 in JTT. refine (e_2 (ent p_TT) t d _ _ (ent_ext t d h hTT p_TT _ _ Ht E _ JTT)). intros u v K; apply (Full_eq w u v K).
Qed.
(** the pressure and its slope from the table *)
Lemma press_some : forall t d q g, stp_pressure w t d = Some (q, g) <-> pden (C w t) d <> 0 /\ q = pred (C w t) d * (Rg * t) /\ g = dpred (C w t) d * (Rg * t).
Proof.
  intros t d q g. unfold stp_pressure. fold (C w t). destruct (Req_EM_T (pden (C w t) d) 0); [split; [discriminate|intros [A _]; contradiction]|].
  split; [intros E; injection E as <- <-; auto|intros (_ & -> & ->); reflexivity].
Qed.
Lemma pred_phi : forall c d, pden c d <> 0 -> pred c d = d * (1 + d * phi_D c d) /\ dpred c d = 1 + 2 * d * phi_D c d + d ^ 2 * phi_DD c d.
Proof. intros c d N. unfold pred, dpred, phi_D, phi_DD. generalize (pnum c d) (pnum2 c d). generalize dependent (pden c d). intros D N n m. split; field; exact N. Qed.
Lemma press_phi : forall t d q g h, 0 < t -> helmholtz w t d = Some h -> stp_pressure w t d = Some (q, g) ->
  q = d * Rg * t * (1 + d * p_D h) /\ g = Rg * t * (1 + 2 * d * p_D h + d ^ 2 * p_DD h).
Proof.
  intros t d q g h Ht E Q. destruct (helm_U _ _ _ Ht E) as [HU ->]. apply press_some in Q. destruct Q as (N & -> & ->). destruct (pred_phi (C w t) d N) as [-> ->]. unfold table, phi_of. cbn [p_D p_DD]. split; ring.
Qed.
Lemma press_slope : forall t d q g, stp_pressure w t d = Some (q, g) -> is_derive (fun x => match stp_pressure w t x with Some (y, _) => y | None => 0 end) d g.
Proof.
  intros t d q g Q. apply press_some in Q. destruct Q as (N & _ & ->).
  assert (Dd : is_derive (fun x : R => pden (C w t) x) d (pnum (C w t) d)).
  { unfold pden, pnum. eapply d_eq; [apply d_plus; [apply d_plus; [apply d_plus; [apply d_plus; [apply d_const|apply d_scal, d_id]|apply d_scal, sqr_d]|apply d_scal, cub_d]|apply d_scal, qua_d]|cbv beta; ring]. }
  assert (Dn : is_derive (fun x : R => pnum (C w t) x) d (pnum2 (C w t) d)).
  { unfold pnum, pnum2. eapply d_eq; [apply d_plus; [apply d_plus; [apply d_plus; [apply d_const|apply d_scal, d_id]|apply d_scal, sqr_d]|apply d_scal, cub_d]|cbv beta; ring]. }
  assert (De : forall k, is_derive (fun x : R => exp (- k * x)) d (- k * exp (- k * d))).
  { intros k. eapply d_eq; [apply d_exp, d_scal, d_id|cbv beta; ring]. }
  apply (is_derive_ext_loc (fun x => pred (C w t) x * (Rg * t))).
  - assert (L : locally d (fun x => pden (C w t) x <> 0)). { assert (CC := ex_derive_continuous (fun x : R => pden (C w t) x) d (ex_intro _ _ Dd)). exact (CC (fun y => y <> 0) (open_neq 0 _ N)). }
    revert L. apply filter_imp. intros x Nx. assert (E : stp_pressure w t x = Some (pred (C w t) x * (Rg * t), dpred (C w t) x * (Rg * t))) by (apply press_some; auto). now rewrite E.
  - unfold pred. eapply d_eq; [apply d_mult; [apply d_plus; [apply d_plus; [apply d_minus; [apply d_plus; [apply d_id|apply d_scal, sqr_d]|apply d_mult; [apply sqr_d|apply d_div; [exact Dn|apply (d_pow _ 2 _ _ Dd)|apply pow_nonzero, N]]]|apply d_mult; [apply d_scal, sqr_d|apply De]]|apply d_mult; [apply d_scal, sqr_d|apply De]]|apply d_const]|].
    cbv beta. unfold dpred. generalize (exp (- a7 (C w t) * d)) (exp (- a9 (C w t) * d)). generalize (pnum (C w t) d) (pnum2 (C w t) d). generalize dependent (pden (C w t) d). intros D N n m E7 E9. cbn [INR Nat.pred pow]. field. exact N.
Qed.
End W.
