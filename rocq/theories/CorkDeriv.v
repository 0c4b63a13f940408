(** Slopes of the residual functions of the compensated Redlich-Kwong fluids. *)
From Coq Require Import List Bool Reals Lra Lia String Ascii.
From Coquelicot Require Import Coquelicot.
From Verif Require Import RDeriv GasModel GasSpec GasCubic GasProofs GasDeriv GasMore GasPhase CorkModel CorkSpec CorkCubic CorkProofs.
Open Scope R_scope.

(** smooth volume along a temperature and along a pressure *)
Lemma vf_T : forall (e : R -> abpar) b ph (c d : R -> R) ce p0 T p, 0 < b -> (forall t, e_b (e t) = b) -> 0 < T -> 0 < p -> ex_derive (fun t => e_a (e t)) T -> mrk_regular (e_a (e T)) b T p ->
  ph = vapour \/ (e_a (e T) <> 0 /\ volume_fugacity PI ph (mkCork (e T) (c T) (d T) ce p0) T p <> None) ->
  exists u : R -> R, ex_derive u T /\ locally T (fun t => 0 < t /\ b < u t /\ eos_rk (att (e_a (e t)) t) b t (u t) = 1000 * p /\
    volume_fugacity PI ph (mkCork (e t) (c t) (d t) ce p0) t p = Some (u t + vir_v p0 (c t) (d t) ce p, mrk_lng (e_a (e t)) b t p (u t) + vir_g p0 (c t) (d t) ce p / (RR * t))).
Proof.
  intros e b ph c d ce p0 T p Hb Eb HT Hp [da Da] Hr Hph. assert (Hs := s_pos T HT).
  assert (Ds : is_derive (fun t : R => sqrt t) T (1 / (2 * sqrt T))) by (apply (d_sqrt (fun t => t)); [apply d_id|exact HT]).
  assert (D2 : exists l, is_derive (fun t => mrk_cb t p) T l). { eexists. unfold mrk_cb, Rdiv. apply d_scal_r, d_scal, d_id. }
  assert (D1 : exists l, is_derive (fun t => mrk_cc (e_a (e t)) b t p) T l). { eexists. unfold mrk_cc. unfold Rdiv at 1. apply d_scal_r, d_scal. apply d_minus; [apply d_plus; [apply d_scal, d_id|apply d_const]|]. apply (d_div (fun t => e_a (e t)) (fun t => sqrt t)); [exact Da|exact Ds|lra]. }
  assert (D0 : exists l, is_derive (fun t => mrk_cd (e_a (e t)) b t p) T l). { eexists. unfold mrk_cd. apply (d_div (fun t => -1 * e_a (e t) * b) (fun t => sqrt t * p)); [apply d_scal_r, d_scal; exact Da|apply d_scal_r; exact Ds|apply Rgt_not_eq, Rmult_lt_0_compat; lra]. }
  destruct D2 as [l2 D2], D1 as [l1 D1], D0 as [l0 D0].
  destruct (chosen_smooth ph _ _ _ T l2 l1 l0 D2 D1 D0 Hr) as (u & Du & Lu).
  { destruct Hph as [E|[E _]]; [left; split; [exact E|]; exists b; split; [exact Hb|]; exact (poly_at_b _ b T p Hb HT Hp)|right; unfold mrk_cd]. apply Rmult_integral_contrapositive_currified; [apply Rmult_integral_contrapositive_currified; [|lra]; lra|]. apply Rinv_neq_0_compat, Rgt_not_eq, Rmult_lt_0_compat; lra. }
  assert (Hu : b < u T).
  { destruct (locally_singleton _ _ Lu) as [_ (r & Er & Eu)]. cbv beta in Er. rewrite <- Eu. destruct Hph as [E|[_ E]].
    - subst ph. destruct (regular_some _ _ _ Hr) as (z1 & z2 & z3 & E' & S). rewrite Er in E'. injection E' as ->. assert (B := above_root _ _ _ _ _ _ b S (poly_at_b _ b T p Hb HT Hp)). assert (M := vapour_max z1 z2 z3 ltac:(lra)). cbn [chosen_root]. lra.
    - apply Rnot_le_lt. intros N. apply E. apply (vf_none ph _ T p r); cbn [k_ab]; rewrite ?Eb; assumption. }
  exists u. split; [exact Du|]. generalize (near_both _ _ _ (near_gt 0 T HT) (near_both _ _ _ (near_cont u T b Du Hu) Lu)). apply filter_imp. intros t (Ht & Hut & Hne & r & Er & Eu).
  split; [exact Ht|]. split; [exact Hut|]. split.
  - apply (eos_poly _ b t p Hb Ht Hp _ Hut). assert (S := cork_solved _ _ _ _ Hne Er). destruct r as [[z1 z2] z3]. destruct (solved_zero _ _ _ _ _ _ S) as (R1 & R2 & R3). unfold mrk_poly. rewrite <- Eu. destruct (chosen_in ph z1 z2 z3) as [I|[I|I]]; rewrite I; assumption.
  - rewrite <- Eu. rewrite <- (Eb t). apply (vf_some ph (mkCork (e t) (c t) (d t) ce p0) t p r); cbn [k_ab]; rewrite ?Eb; try assumption. now rewrite Eu.
Qed.
Lemma vf_P : forall k ph T P, let a := e_a (k_ab k) in let b := e_b (k_ab k) in 0 < b -> 0 < T -> 0 < P -> mrk_regular a b T (P / 1000) ->
  ph = vapour \/ (a <> 0 /\ volume_fugacity PI ph k T (P / 1000) <> None) ->
  exists u : R -> R, ex_derive u P /\ locally P (fun q => 0 < q /\ b < u q /\ eos_rk (att a T) b T (u q) = q /\
    volume_fugacity PI ph k T (q / 1000) = Some (u q + vir_v (k_p0 k) (k_c k) (k_d k) (k_e k) (q / 1000), mrk_lng a b T (q / 1000) (u q) + vir_g (k_p0 k) (k_c k) (k_d k) (k_e k) (q / 1000) / (RR * T))).
Proof.
  intros k ph T P a b Hb HT HP Hr Hph. assert (Hs := s_pos T HT). assert (Hp : 0 < P / 1000) by lra.
  assert (Dq : is_derive (fun q : R => q / 1000) P (1 / 1000)) by (unfold Rdiv; apply d_scal_r, d_id).
  assert (D2 : exists l, is_derive (fun q => mrk_cb T (q / 1000)) P l). { eexists. unfold mrk_cb. apply (d_div (fun _ => -1 * RR * T) (fun q => q / 1000)); [apply d_const|exact Dq|lra]. }
  assert (D1 : exists l, is_derive (fun q => mrk_cc a b T (q / 1000)) P l). { eexists. unfold mrk_cc. apply (d_div (fun q => -1 * (b * RR * T + b ^ 2 * (q / 1000) - a / sqrt T)) (fun q => q / 1000)); [|exact Dq|lra]. apply d_scal, d_minus; [apply d_plus; [apply d_const|apply d_scal; exact Dq]|apply d_const]. }
  assert (D0 : exists l, is_derive (fun q => mrk_cd a b T (q / 1000)) P l). { eexists. unfold mrk_cd. apply (d_div (fun q => -1 * a * b) (fun q => sqrt T * (q / 1000))); [apply d_const|apply d_scal; exact Dq|apply Rgt_not_eq, Rmult_lt_0_compat; lra]. }
  destruct D2 as [l2 D2], D1 as [l1 D1], D0 as [l0 D0].
  destruct (chosen_smooth ph _ _ _ P l2 l1 l0 D2 D1 D0 Hr) as (u & Du & Lu).
  { destruct Hph as [E|[E _]]; [left; split; [exact E|]; exists b; split; [exact Hb|]; exact (poly_at_b _ b T _ Hb HT Hp)|right; unfold mrk_cd]. apply Rmult_integral_contrapositive_currified; [apply Rmult_integral_contrapositive_currified; [|lra]; lra|]. apply Rinv_neq_0_compat, Rgt_not_eq, Rmult_lt_0_compat; lra. }
  assert (Hu : b < u P).
  { destruct (locally_singleton _ _ Lu) as [_ (r & Er & Eu)]. cbv beta in Er. rewrite <- Eu. destruct Hph as [E|[_ E]].
    - subst ph. destruct (regular_some _ _ _ Hr) as (z1 & z2 & z3 & E' & S). rewrite Er in E'. injection E' as ->. assert (B := above_root _ _ _ _ _ _ b S (poly_at_b _ b T _ Hb HT Hp)). assert (M := vapour_max z1 z2 z3 ltac:(lra)). cbn [chosen_root]. lra.
    - apply Rnot_le_lt. intros N. apply E. apply (vf_none ph _ T (P / 1000) r); assumption. }
  exists u. split; [exact Du|]. generalize (near_both _ _ _ (near_gt 0 P HP) (near_both _ _ _ (near_cont u P b Du Hu) Lu)). apply filter_imp. intros t (Ht & Hut & Hne & r & Er & Eu). assert (Hp' : 0 < t / 1000) by lra.
  split; [exact Ht|]. split; [exact Hut|]. split.
  - enough (X : eos_rk (att a T) b T (u t) = 1000 * (t / 1000)) by (rewrite X; field). apply (eos_poly _ b T (t / 1000) Hb HT Hp' _ Hut). assert (S := cork_solved _ _ _ _ Hne Er). destruct r as [[z1 z2] z3]. destruct (solved_zero _ _ _ _ _ _ S) as (R1 & R2 & R3). unfold mrk_poly. rewrite <- Eu. destruct (chosen_in ph z1 z2 z3) as [I|[I|I]]; rewrite I; assumption.
  - rewrite <- Eu. apply (vf_some ph k T (t / 1000) r); try assumption. now rewrite Eu.
Qed.

(** what the code makes of it *)
Definition mf (ph : phase) (k : corkpar) (T p : R) : option fug := match volume_fugacity PI ph k T p with Some (v, g) => Some (mrk_fug (k_ab k) T p v g) | None => None end.

(** dG/dP = V - R T / P, at any pressure *)
Lemma ck_P : forall k ph T P, let a := e_a (k_ab k) in let b := e_b (k_ab k) in 0 < b -> 0 < T -> 0 < P -> mrk_regular a b T (P / 1000) ->
  ph = vapour \/ (a <> 0 /\ volume_fugacity PI ph k T (P / 1000) <> None) ->
  exists F : R -> fug, locally P (fun q => mf ph k T (q / 1000) = Some (F q)) /\ is_derive (fun q => f_g (F q)) P (f_v (F P) - Rgas * T / P).
Proof.
  intros k ph T P a b Hb HT HP Hr Hph. destruct (vf_P k ph T P Hb HT HP Hr Hph) as (u & Du & Lu). fold a b in Lu.
  exists (fun q => mrk_fug (k_ab k) T (q / 1000) (u q + vir_v (k_p0 k) (k_c k) (k_d k) (k_e k) (q / 1000)) (mrk_lng a b T (q / 1000) (u q) + vir_g (k_p0 k) (k_c k) (k_d k) (k_e k) (q / 1000) / (RR * T))). split.
  - generalize Lu. apply filter_imp. intros q (_ & _ & _ & E). unfold mf. now rewrite E.
  - cbn [mrk_fug f_g f_v]. destruct (locally_singleton _ _ Lu) as (_ & Hu & E & _). destruct Du as [u1 Du]. assert (Q := RT_kpos T HT).
    apply is_derive_ext_loc with (fun q => gres_rk (att a T) b T q (u q) + 1000 * vir_g (k_p0 k) (k_c k) (k_d k) (k_e k) (q / 1000)).
    + generalize Lu. apply filter_imp. intros q (Hq & Huq & _). assert (Hq' : 0 < q / 1000) by lra. replace q with (1000 * (q / 1000)) at 1 by field. rewrite <- (lng_gres a b T (q / 1000) Hb HT (u q) Huq). rewrite RR_Rg', <- RR_Rg. match goal with |- ?x = ?y => change (@eq R x y) end. field. generalize RR_pos. lra.
    + eapply d_eq; [apply d_plus; [exact (gres_rk_P b T P Hb HT HP (att a T) u u1 Hu Du E)|apply d_scal, (d_comp (vir_g _ _ _ _) (fun q => q / 1000)); [apply vir_d|unfold Rdiv; apply d_scal_r, d_id]]|]. cbv beta. field. lra.
Qed.

(** dG/dT = -S and dH/dT = Cp where the pressure correction is not in use *)
Lemma mrk_dpdt : forall e T v, 0 < e_b e -> 0 < T -> e_b e < v -> 1000 * p_t (mrk_tab e T (1 / v)) = Rgas / (v - e_b e) - datt (e_a e) (e_da e) T / (v * (v + e_b e)).
Proof.
  intros e T v Hb HT Hv. assert (S := s_pos T HT). unfold mrk_tab, datt. cbn [p_t]. rewrite <- RR_Rg. replace (1 / (1 / v)) with v by (field; lra). field. repeat split; lra.
Qed.
Lemma mrk_dpdv : forall e T v, 0 < e_b e -> 0 < T -> e_b e < v -> mrk_pv e T v = - Rgas * T / (v - e_b e) ^ 2 + att (e_a e) T * (2 * v + e_b e) / (v * (v + e_b e)) ^ 2.
Proof. intros e T v Hb HT Hv. assert (S := s_pos T HT). unfold mrk_pv, att. rewrite <- RR_Rg. field. repeat split; lra. Qed.
Lemma mrk_cv_at : forall e T v, 0 < e_b e -> 0 < T -> e_b e < v ->
  mrk_cv e T v = T * (1000 * (e_d2a e / sqrt T - e_da e / (T * sqrt T) + 3 / 4 * e_a e / (T ^ 2 * sqrt T))) / e_b e * ln ((v + e_b e) / v).
Proof.
  intros e T v Hb HT Hv. assert (S := s_pos T HT). assert (G := RR_pos). unfold mrk_cv. rewrite RR_Rg'. replace (ln (v / (v + e_b e))) with (- ln ((v + e_b e) / v)).
  - assert (E : T = sqrt T * sqrt T) by (symmetry; apply sqrt_sqrt; lra). generalize dependent (sqrt T). intros q Hq E. rewrite E. field. repeat split; lra.
  - rewrite <- ln_Rinv by (apply Rdiv_lt_0_compat; lra). f_equal. field. lra.
Qed.
Lemma att_d : forall (a : R -> R) T da, 0 < T -> is_derive a T da -> is_derive (fun t => att (a t) t) T (datt (a T) da T).
Proof.
  intros a T da HT D. assert (S := s_pos T HT). unfold att. eapply d_eq; [apply (d_div (fun t => 1000 * a t) (fun t => sqrt t)); [apply d_scal; exact D|apply (d_sqrt (fun t => t)); [apply d_id|exact HT]|lra]|]. cbv beta. unfold datt.
  assert (E : T = sqrt T * sqrt T) by (symmetry; apply sqrt_sqrt; lra). generalize (a T). intros x. generalize dependent (sqrt T). intros q Hq E. rewrite E. field. lra.
Qed.
Lemma datt_d : forall (a da : R -> R) T d2a, 0 < T -> is_derive a T (da T) -> is_derive da T d2a ->
  is_derive (fun t => datt (a t) (da t) t) T (1000 * (d2a / sqrt T - da T / (T * sqrt T) + 3 / 4 * a T / (T ^ 2 * sqrt T))).
Proof.
  intros a da T d2a HT D D2. assert (S := s_pos T HT). assert (Ds : is_derive (fun t : R => sqrt t) T (1 / (2 * sqrt T))) by (apply (d_sqrt (fun t => t)); [apply d_id|exact HT]).
  unfold datt. eapply d_eq.
  - apply d_scal, d_minus; [apply (d_div da (fun t => sqrt t)); [exact D2|exact Ds|lra]|apply (d_div a (fun t => 2 * (t * sqrt t))); [exact D|apply d_scal, d_mult; [apply d_id|exact Ds]|apply Rgt_not_eq; repeat apply Rmult_lt_0_compat; lra]].
  - cbv beta. assert (E : T = sqrt T * sqrt T) by (symmetry; apply sqrt_sqrt; lra). generalize (a T) (da T). intros x y. generalize dependent (sqrt T). intros q Hq Ds E. rewrite E. field. lra.
Qed.
Lemma mrk_dpoly : forall a b T p v, 0 < b -> 0 < T -> 0 < p -> b < v -> mrk_regular a b T p -> eos_rk (att a T) b T v = 1000 * p -> - Rgas * T / (v - b) ^ 2 + att a T * (2 * v + b) / (v * (v + b)) ^ 2 <> 0.
Proof.
  intros a b T p v Hb HT Hp Hv Hr E Z. assert (S := s_pos T HT). assert (E' := E). apply (eos_poly a b T p Hb HT Hp v Hv) in E'. apply (proj1 Hr). symmetry. apply (double_root _ _ _ v E').
  assert (X : dpoly (mrk_cb T p) (mrk_cc a b T p) v = - (v * (v + b) * (v - b) / (1000 * p)) * (- Rgas * T / (v - b) ^ 2 + att a T * (2 * v + b) / (v * (v + b)) ^ 2) + (3 * v ^ 2 - b ^ 2) / (1000 * p) * (1000 * p - eos_rk (att a T) b T v)).
  { unfold dpoly, mrk_cb, mrk_cc, eos_rk, att. rewrite <- RR_Rg. field. repeat split; lra. }
  rewrite X, Z, E. ring.
Qed.
Lemma vir_low : forall p0 c d e p, p <= p0 -> vir_v p0 c d e p = 0 /\ vir_g p0 c d e p = 0.
Proof. intros p0 c d e p H. unfold vir_v, vir_g. destruct (Rlt_dec p0 p); [lra|]. split; reflexivity. Qed.
Lemma ck_T : forall (e : R -> abpar) b ph (c d : R -> R) ce p0 T p, 0 < b -> (forall t, e_b (e t) = b) -> 0 < T -> 0 < p -> p <= p0 ->
  locally T (fun t => is_derive (fun t => e_a (e t)) t (e_da (e t))) -> is_derive (fun t => e_da (e t)) T (e_d2a (e T)) -> mrk_regular (e_a (e T)) b T p ->
  ph = vapour \/ (e_a (e T) <> 0 /\ volume_fugacity PI ph (mkCork (e T) (c T) (d T) ce p0) T p <> None) ->
  exists F : R -> fug, locally T (fun t => mf ph (mkCork (e t) (c t) (d t) ce p0) t p = Some (F t)) /\ is_derive (fun t => f_g (F t)) T (- f_s (F T)) /\ is_derive (fun t => f_h (F t)) T (f_c (F T)).
Proof.
  intros e b ph c d ce p0 T p Hb Eb HT Hp Hp0 La D2 Hr Hph. assert (Da := locally_singleton _ _ La). cbv beta in Da.
  destruct (vf_T e b ph c d ce p0 T p Hb Eb HT Hp (ex_intro _ _ Da) Hr Hph) as (u & Eu & Lu). destruct (Eu : exists u1 : R, is_derive u T u1) as [u1 Du]. destruct (locally_singleton _ _ Lu) as (_ & Hu & E & _).
  exists (fun t => mrk_fug (e t) t p (u t) (mrk_lng (e_a (e t)) b t p (u t))). split; [|split].
  - generalize Lu. apply filter_imp. intros t (_ & _ & _ & Et). unfold mf. rewrite Et. destruct (vir_low p0 (c t) (d t) ce p Hp0) as [-> ->]. cbn [k_ab]. unfold Rdiv. now rewrite Rmult_0_l, !Rplus_0_r.
  - cbn [mrk_fug f_g f_s]. apply is_derive_ext_loc with (fun t => gres_rk (att (e_a (e t)) t) b t (1000 * p) (u t)).
    + generalize Lu. apply filter_imp. intros t (Ht & Hut & _). rewrite <- (lng_gres _ b t p Hb Ht _ Hut). rewrite Rgas_Rg. reflexivity.
    + eapply d_eq; [apply (gres_rk_T b T (1000 * p) Hb HT ltac:(lra) (fun t => att (e_a (e t)) t) (datt (e_a (e T)) (e_da (e T)) T) u u1 Hu); [exact (att_d (fun t => e_a (e t)) T _ HT Da)|exact Du|exact E]|].
      cbv beta. rewrite <- (lng_gres _ b T p Hb HT _ Hu), <- (h_hres _ b T p Hb HT (e_da (e T)) (e_d2a (e T)) _ Hu), Rgas_Rg. unfold mrk_h. cbn [e_a e_b e_da]. rewrite (Eb T). reflexivity.
  - cbn [mrk_fug f_h f_c]. apply is_derive_ext_loc with (fun t => hres_rk (att (e_a (e t)) t) (datt (e_a (e t)) (e_da (e t)) t) b t (1000 * p) (u t)).
    + generalize Lu. apply filter_imp. intros t (Ht & Hut & _). rewrite <- (h_hres _ b t p Hb Ht (e_da (e t)) (e_d2a (e t)) _ Hut). unfold mrk_h. cbn [e_a e_b e_da]. now rewrite (Eb t).
    + assert (At := att_d (fun t => e_a (e t)) T _ HT Da). assert (Br := rk_branch b T Hb (fun t => att (e_a (e t)) t) _ u u1 Hu At Du). cbv beta in Br.
      assert (Bc : is_derive (fun t => eos_rk (att (e_a (e t)) t) b t (u t)) T 0). { apply is_derive_ext_loc with (fun _ => 1000 * p); [generalize Lu; apply filter_imp; intros t (_ & _ & Et & _); symmetry; exact Et|apply d_const]. }
      assert (Bz := d_unique _ _ _ _ Br Bc). assert (Nz := mrk_dpoly _ b T p (u T) Hb HT Hp Hu Hr E).
      assert (At2 := datt_d (fun t => e_a (e t)) (fun t => e_da (e t)) T _ HT Da D2). cbv beta in At2.
      eapply d_eq; [exact (hres_rk_T b T (1000 * p) Hb (fun t => att (e_a (e t)) t) (fun t => datt (e_a (e t)) (e_da (e t)) t) _ u u1 Hu At At2 Du E)|].
      cbv beta. unfold mrk_c. cbv zeta. rewrite (mrk_cv_at (e T) T (u T)) by (rewrite ?Eb; assumption). rewrite (mrk_dpdv (e T) T (u T)) by (rewrite ?Eb; assumption). rewrite (Rmult_comm (p_t _) 1000), (mrk_dpdt (e T) T (u T)) by (rewrite ?Eb; assumption). rewrite (Eb T), <- Rgas_Rg.
      revert Bz Nz. generalize (- Rgas * T / (u T - b) ^ 2 + att (e_a (e T)) T * (2 * u T + b) / (u T * (u T + b)) ^ 2) (Rgas / (u T - b) - datt (e_a (e T)) (e_da (e T)) T / (u T * (u T + b))). intros y x Bz Nz. change (x + y * u1 = 0) in Bz. replace u1 with (- x / y) by (apply Rmult_eq_reg_r with y; [|exact Nz]; transitivity (- x); [field; exact Nz|lra]). assert (S := s_pos T HT). field. repeat split; try exact Nz; lra.
Qed.
(** one function of two arguments *)
Lemma join : forall (pure : R -> R -> option fug) T P (F1 F2 : R -> fug), locally T (fun t => pure t P = Some (F1 t)) -> locally P (fun q => pure T q = Some (F2 q)) ->
  forall g2 : fug -> R, is_derive (fun q => f_g (F2 q)) P (g2 (F2 P)) -> is_derive (fun t => f_g (F1 t)) T (- f_s (F1 T)) -> is_derive (fun t => f_h (F1 t)) T (f_c (F1 T)) ->
  exists F : R -> R -> fug, locally T (fun t => pure t P = Some (F t P)) /\ locally P (fun q => pure T q = Some (F T q)) /\
    is_derive (fun q => f_g (F T q)) P (g2 (F T P)) /\ is_derive (fun t => f_g (F t P)) T (- f_s (F T P)) /\ is_derive (fun t => f_h (F t P)) T (f_c (F T P)).
Proof.
  intros pure T P F1 F2 L1 L2 g2 D2 D1 Dh. set (F := fun t q => match pure t q with Some f => f | None => F1 T end).
  assert (E1 := locally_singleton _ _ L1). assert (E2 := locally_singleton _ _ L2). cbv beta in E1, E2.
  assert (K1 : locally T (fun t => F t P = F1 t)) by (generalize L1; apply filter_imp; intros t Et; unfold F; now rewrite Et).
  assert (K2 : locally P (fun q => F T q = F2 q)) by (generalize L2; apply filter_imp; intros q Eq; unfold F; now rewrite Eq).
  assert (X1 : F T P = F1 T) by (unfold F; now rewrite E1). assert (X2 : F T P = F2 P) by (unfold F; now rewrite E2).
  exists F. split; [|split; [|split; [|split]]].
  - generalize L1. apply filter_imp. intros t Et. unfold F. now rewrite Et.
  - generalize L2. apply filter_imp. intros t Et. unfold F. now rewrite Et.
  - rewrite X2. apply is_derive_ext_loc with (fun q => f_g (F2 q)); [generalize K2; apply filter_imp; intros q Eq; now rewrite Eq|exact D2].
  - rewrite X1. apply is_derive_ext_loc with (fun q => f_g (F1 q)); [generalize K1; apply filter_imp; intros q Eq; now rewrite Eq|exact D1].
  - rewrite X1. apply is_derive_ext_loc with (fun q => f_h (F1 q)); [generalize K1; apply filter_imp; intros q Eq; now rewrite Eq|exact Dh].
Qed.
