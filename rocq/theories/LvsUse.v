(** Lemmas: the statements of P_Lvs put together from the lemmas on paths. *)
From Coq Require Import Reals Lra Psatz.
From Coquelicot Require Import Coquelicot.
From Verif Require Import RDeriv LvsModel LvsSpec LvsPf LvsTherm LvsDal LvsTab LvsWit.
Open Scope R_scope.

(** the slope of the pressure along a path, from its derivative *)
Lemma slope_is : forall c T D r th x T' D' r' th' P', lvs_constants c -> path c T D r th x T' D' r' th' -> is_derive (fun y => Pof c (T y) (r y) (th y)) x P' -> P' = Pp c T D r th x T' r' th'.
Proof. intros c T D r th x T' D' r' th' P' K Hp h. exact (d_unique _ _ _ _ h (P_d c T D r th x T' D' r' th' K Hp)). Qed.
Lemma mechanical : forall c T D r th x T' D' r' th', lvs_constants c -> path c T D r th x T' D' r' th' -> regular c (D x) (r x) (th x) ->
  let w := thmLVS c (T x) (D x) (r x) (th x) in
  exists P', is_derive (fun y => Pof c (T y) (r y) (th y)) x P' /\ P' = h_alpha w / h_beta w * T' + dPdD c (T x) (D x) (r x) (th x) * D' /\ D' = - h_alpha w * D x * T' + h_beta w * D x * P'.
Proof.
  intros c T D r th x T' D' r' th' K Hp Rg w. exists (Pp c T D r th x T' r' th'). split; [exact (P_d c T D r th x T' D' r' th' K Hp)|].
  split; [exact (P_total c T D r th x T' D' r' th' K Hp Rg)|exact (alpha_total c T D r th x T' D' r' th' K Hp Rg)].
Qed.
Lemma energies : forall c T D r th x T' D' r' th' P', lvs_constants c -> path c T D r th x T' D' r' th' -> regular c (D x) (r x) (th x) -> is_derive (fun y => Pof c (T y) (r y) (th y)) x P' ->
  let w y := thmLVS c (T y) (D y) (r y) (th y) in let P := Pof c (T x) (r x) (th x) in
  is_derive (fun y => h_A (w y)) x (- h_S (w x) * T' + 1000 * P / D x ^ 2 * D') /\
  is_derive (fun y => h_G (w y)) x (- h_S (w x) * T' + 1000 / D x * P') /\
  is_derive (fun y => h_U (w y)) x (h_Cv (w x) * T' + (1000 * P - 1000 * T x * (h_alpha (w x) / h_beta (w x))) / D x ^ 2 * D') /\
  is_derive (fun y => h_H (w y)) x (h_Cp (w x) * T' + 1000 / D x * (1 - T x * h_alpha (w x)) * P') /\
  is_derive (fun y => h_S (w y)) x (h_Cv (w x) / T x * T' - 1000 * (h_alpha (w x) / h_beta (w x)) / D x ^ 2 * D').
Proof.
  intros c T D r th x T' D' r' th' P' K Hp Rg h w P. rewrite (slope_is c T D r th x T' D' r' th' P' K Hp h).
  split; [exact (A_d c T D r th x T' D' r' th' K Hp Rg)|]. split; [exact (G_d c T D r th x T' D' r' th' K Hp Rg)|]. split; [exact (U_d c T D r th x T' D' r' th' K Hp Rg)|]. split; [exact (H_d c T D r th x T' D' r' th' K Hp Rg)|exact (S_d c T D r th x T' D' r' th' K Hp Rg)].
Qed.
Lemma heats : forall c T D r th, lvs_constants c -> solves c T D r th -> regular c D r th ->
  let w := thmLVS c T D r th in
  h_Cp w = h_Cv w + 1000 * T * h_alpha w ^ 2 / (D * h_beta w) /\ h_A w = h_U w - T * h_S w /\ h_G w = h_H w - T * h_S w /\ h_H w = h_U w + 1000 * Pof c T r th / D /\ h_beta w * (D * dPdD c T D r th) = 1.
Proof.
  intros c T D r th K Hs Rg w. destruct (path_exists c T D r th 0 0 0 K Hs) as (Tf & Df & rf & tf & T' & D' & Hp & A & B & C & E & _).
  assert (Rg' : regular c (Df 0) (rf 0) (tf 0)) by (rewrite B, C, E; exact Rg).
  pose proof (Cp_eq c Tf Df rf tf 0 T' D' 0 0 K Hp Rg') as Q. cbv beta in Q. rewrite A, B, C, E in Q. split; [exact Q|]. split; [reflexivity|]. split; [reflexivity|].
  destruct Rg as [_ [M Dp]]. destruct Hs as [Tp _]. split.
  - pose proof (H_eq c Tf Df rf tf K 0) as Z. cbv beta in Z. rewrite A, B, C, E in Z. apply Z; [lra|exact Tp].
  - unfold w, thmLVS. cbn [h_beta]. unfold dPdD. rewrite (Kd c K). pose proof (Pcn c K). pose proof (Tcn c K). pose proof (rc0 c K). field. repeat split; try assumption; lra.
Qed.
(** the speed of sound *)
Lemma sound : forall c T D r th, lvs_constants c -> solves c T D r th -> regular c D r th -> let w := thmLVS c T D r th in
  h_Cv w <> 0 -> 0 <= h_Cp w / h_Cv w * dPdD c T D r th -> h_speed w ^ 2 = 1000000 * (h_Cp w / h_Cv w * dPdD c T D r th).
Proof.
  intros c T D r th K Hs [_ [M Dp]] w Cv. unfold w in *. set (ra := h_Cp (thmLVS c T D r th) / h_Cv (thmLVS c T D r th)).
  assert (E : exists q, h_speed (thmLVS c T D r th) = 1000 * sqrt (q * dPdD c T D r th) /\ ra = q).
  { eexists. split; [unfold thmLVS; cbn [h_speed]; reflexivity|]. unfold ra. unfold thmLVS in *. cbn [h_Cp h_Cv] in *. assert (can : forall u a v, a <> 0 -> v <> 0 -> u * v / (a * v) = u / a) by (intros; field; split; assumption).
    assert (Sn : l_Scon c / D <> 0) by (rewrite (KS c K); pose proof (Pcn c K); pose proof (Tcn c K); unfold Rdiv; repeat apply Rmult_integral_contrapositive_currified; try lra; try assumption; apply Rinv_neq_0_compat; lra || assumption).
    match type of Cv with ?a * ?b <> 0 => assert (a <> 0) by (intros z; apply Cv; rewrite z; ring) end.
    rewrite can by assumption. reflexivity. }
  destruct E as [q [E1 E2]]. intros h. rewrite E1. rewrite E2 in *. rewrite Rpow_mult_distr, <- (Rsqr_pow2 (sqrt _)), Rsqr_sqrt by exact h. ring.
Qed.
Lemma dal : forall c T D r th x T' D' r' th', lvs_constants c -> path c T D r th x T' D' r' th' -> regular c (D x) (r x) (th x) -> is_derive (fun y => Pof c (T y) (r y) (th y)) x 0 ->
  let a y := h_alpha (thmLVS c (T y) (D y) (r y) (th y)) in let P := Pof c (T x) (r x) (th x) in
  is_derive a x ((dalLVS c (D x) (T x) P (a x) (r x) (th x) - excess c (D x) (T x) P (a x) (r x) (th x)) * T').
Proof. intros c T D r th x T' D' r' th' K Hp Rg iso. exact (alpha_slope c T D r th x T' D' r' th' K Hp Rg iso). Qed.
Lemma dal_refuted : exists c T D r th x D' r' th', lvs_constants c /\ path c T D r th x 1 D' r' th' /\ regular c (D x) (r x) (th x) /\ (650 < T x < 660 /\ 300 < D x < 323 /\ Rabs (th x) < 1) /\ is_derive (fun y => Pof c (T y) (r y) (th y)) x 0 /\
  exists s, is_derive (fun y => h_alpha (thmLVS c (T y) (D y) (r y) (th y))) x s /\ s < dalLVS c (D x) (T x) (Pof c (T x) (r x) (th x)) (h_alpha (thmLVS c (T x) (D x) (r x) (th x))) (r x) (th x).
Proof.
  destruct (isobar_exists co_exact (T_of co_exact (1 / 100) 0) (D_of co_exact (1 / 100) 0) (1 / 100) 0 0 exact_constants st reg) as (T & D & r & th & D' & r' & th' & Hp & A & B & C & E & iso).
  assert (Rg' : regular co_exact (D 0) (r 0) (th 0)) by (rewrite B, C, E; exact reg).
  exists co_exact, T, D, r, th, 0, D', r', th'. split; [exact exact_constants|]. split; [exact Hp|]. split; [exact Rg'|]. split.
  - rewrite A, B, E, T1v, Rabs_R0. split; [lra|]. split; [|lra]. pose proof rhob as h. replace (l_rc co_exact) with (322778 / 1000) in h by reflexivity. lra.
  - split; [exact iso|]. eexists. split; [exact (dal co_exact T D r th 0 1 D' r' th' exact_constants Hp Rg' iso)|]. cbv beta. rewrite !A, !B, !C, !E. pose proof excess_pos as X. unfold alf in X. lra.
Qed.
(** what is meant stands exactly where nothing is misplaced *)
Lemma dal_iff : forall c T D r th x D' r' th', lvs_constants c -> path c T D r th x 1 D' r' th' -> regular c (D x) (r x) (th x) -> is_derive (fun y => Pof c (T y) (r y) (th y)) x 0 ->
  let a y := h_alpha (thmLVS c (T y) (D y) (r y) (th y)) in let P := Pof c (T x) (r x) (th x) in
  is_derive a x (dalLVS c (D x) (T x) P (a x) (r x) (th x)) <-> excess c (D x) (T x) P (a x) (r x) (th x) = 0.
Proof.
  intros c T D r th x D' r' th' K Hp Rg iso a P. pose proof (dal c T D r th x 1 D' r' th' K Hp Rg iso) as d. cbv zeta in d. fold a in d. fold P in d. split; intros h.
  - pose proof (d_unique _ _ _ _ d h). unfold a, P in *. lra.
  - eapply d_eq; [exact d|]. unfold a, P in *. rewrite h. ring.
Qed.
(** in the whole range |theta| <= 1 the determinant is not 0 *)
Lemma gx_pos : forall t, Rabs t <= 1 -> 0 < gx co_exact t.
Proof. intros t h. unfold gx, ter. ex. assert (0 <= t * t <= 1) by (apply Rabs_le_between in h; nra). nra. Qed.
