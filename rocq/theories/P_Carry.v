(** Property theorems: the derivatives that results of minerals and gases carry (C85). *)
From Coq Require Import Bool Reals Lra.
From Coquelicot Require Import Coquelicot.
From Verif Require Import RDeriv ThermoScalarModel MineralModel MineralSpec MineralProofs MineralMore CarryModel CarrySpec CarryPf CarryMin CarryLan CarryUse.
Open Scope R_scope.

(** Given properties that carry their derivatives, and away from the reference point, every property after Berman's correction carries the derivatives of the reported values, U and A too. *)
Theorem C85_berman : forall b vst T P, read_value vst (b_V b) -> forall r f, carries5 r f T P -> neqb (P / 100000 - b_P b) 0 || neqb (T - b_T b) 0 = true ->
  carries7 (bermanTS b vst T P r) (fun t p => berman b t (p / 100000) (f t p)) T P.
Proof. exact berman_carries. Qed.
Print Assumptions C85_berman.
Example C85_berman_example : let b := mkBer (3 / 100000) 0 0 (-2 / 1000000) (1 / 1000000000) 2 300 1 in let z := ts_assign 0 in let r := mkTP z z z z z z z in
  read_value (ts_assign 2) (b_V b) /\ carries5 r (fun _ _ => mkMP 0 0 0 0 0 0 0) 700 500000000 /\ neqb (500000000 / 100000 - b_P b) 0 || neqb (700 - b_T b) 0 = true /\ ddt (tV (bermanTS b (ts_assign 2) 700 500000000 r)) <> 0.
Proof.
  cbv zeta. set (b := mkBer (3 / 100000) 0 0 (-2 / 1000000) (1 / 1000000000) 2 300 1). set (r := mkTP _ _ _ _ _ _ _).
  assert (V : read_value (ts_assign 2) (b_V b)) by (repeat split). assert (C : carries5 r (fun _ _ => mkMP 0 0 0 0 0 0 0) 700 500000000) by (repeat split; cbn; apply (c_assign 0 700 500000000)).
  assert (N : neqb (500000000 / 100000 - b_P b) 0 || neqb (700 - b_T b) 0 = true) by (unfold neqb, b; cbn [b_P b_T]; destruct (Req_EM_T (500000000 / 100000 - 1) 0); [lra|reflexivity]).
  split; [exact V|]. split; [exact C|]. split; [exact N|]. destruct (C85_berman b _ _ _ V _ _ C N) as [[_ [_ [_ [D _]]]] _]. apply proj2, proj1, is_derive_unique in D. intro Z. rewrite Z in D.
  assert (K : is_derive (fun t : R => ber_v b t (500000000 / 100000)) 700 (2 * (3 / 100000))) by (unfold ber_v, ber_VT, ber_VP, b; cbn [b_0 b_1 b_2 b_3 b_4 b_V b_T b_P]; auto_derive; [exact I|ring]).
  apply is_derive_unique in K. assert (2 * (3 / 100000) = 0); [|lra]. rewrite <- K, <- D. apply Derive_ext. intro t. symmetry. apply berman_V.
Qed.
(** At the reference point the branch is left out: the Gibbs energy carries no V and the volume no expansion. *)
Theorem C85_berman_reference_refuted : forall b vst r f, read_value vst (b_V b) -> carries5 r f (b_T b) (100000 * b_P b) -> let T := b_T b in let P := 100000 * b_P b in let o := bermanTS b vst T P r in
  ddp (tG o) = ddp (tG r) /\ is_derive (fun p : R => mG (berman b T (p / 100000) (f T p))) P (ddp (tG r) + b_V b * (1 + b_1 b * ts2 b) / 100000) /\
  ddt (tV o) = 0 /\ is_derive (fun t : R => mV (berman b t (P / 100000) (f t P))) T (b_V b * (b_0 b + b_2 b * ts2 b)).
Proof. exact berman_reference. Qed.
Print Assumptions C85_berman_reference_refuted.
(** Murnaghan. *)
Theorem C85_murnaghan : forall m vst T P, read_value vst (u_V m) -> 0 < T -> u_k m <> 0 -> 1 - c15 * (T - u_T m) <> 0 -> 0 < w4 (kap m T) (P / 100000) ->
  forall r f, carries5 r f T P -> mur_on m T (P / 100000) = true -> carries7 (murnaghanTS m vst T P r) (fun t p => murnaghan m t (p / 100000) (f t p)) T P.
Proof. exact murnaghan_carries. Qed.
Print Assumptions C85_murnaghan.
Theorem C85_murnaghan_constant : forall m vst T P r f, read_value vst (u_V m) -> carries5 r f T P ->
  Rabs (u_V m) <= / 1000000000 \/ Rabs (u_a m) <= / 1000000000 \/ Rabs (u_k m) <= / 1000000000 -> carries7 (murnaghanTS m vst T P r) (fun t p => murnaghan m t (p / 100000) (f t p)) T P.
Proof. exact murnaghan_constant_carries. Qed.
Print Assumptions C85_murnaghan_constant.
Example C85_murnaghan_example : let m := mkMur 2 1000 (3 / 100000) 300 1 in let z := ts_assign 0 in let o := murnaghanTS m (ts_assign 2) 500 200000000 (mkTP z z z z z z z) in
  ddt (tG o) = - val (tS o) /\ ddp (tG o) = val (tV o) / 100000 /\ 500 * ddt (tS o) = val (tC o).
Proof.
  cbv zeta. set (m := mkMur 2 1000 (3 / 100000) 300 1). assert (E : 200000000 / 100000 = 2000) by lra.
  assert (Hon : mur_on m 500 2000 = true).
  { unfold mur_on, m. cbn [u_P u_T u_V u_a u_k]. rewrite !andb_true_iff. repeat split; unfold neqb, gtb;
    [destruct (Req_EM_T (2000 - 1) 0); [lra|reflexivity]| | |]; rewrite Rabs_right by lra; destruct (Rlt_dec _ _) as [|N]; try reflexivity; exfalso; apply N;
    apply Rmult_lt_reg_l with 1000000000; try lra; rewrite Rinv_r; lra. }
  assert (Hk : kap m 500 = 970) by (unfold kap, m, c15; cbn [u_k u_T]; lra). assert (W : 0 < w4 (kap m 500) 2000) by (rewrite Hk; unfold w4; lra). assert (B : 1 - c15 * (500 - u_T m) <> 0) by (unfold c15, m; cbn [u_T]; lra).
  apply (carried_relations _ (fun t p => murnaghan m t p (zero_mp t p)) 500 200000000); [|lra|rewrite E; apply murnaghan_consistent; [lra|exact Hon|exact B|exact W|apply zero_consistent]].
  apply C85_murnaghan; [repeat split|lra|unfold m; cbn; lra|exact B|rewrite E; exact W| |rewrite E; exact Hon]. repeat split; cbn; apply (c_assign 0 500 200000000).
Qed.
(** Landau, away from the temperature of the transition. *)
Theorem C85_landau : forall l T P, 0 < T -> T <> tcr l (P / 100000) -> l_k l <> 0 -> 1 - c15 * (T - l_T l) <> 0 -> 0 < w4 (lkT l T) (P / 100000) ->
  forall r f, carries5 r f T P -> carries7 (landauTS l T P r) (fun t p => landau l t (p / 100000) (f t p)) T P.
Proof. exact landau_carries. Qed.
Print Assumptions C85_landau.
Example C85_landau_example : let l := mkLan 500 5 0 1000 0 300 in 400 < tcr l (100000000 / 100000) /\ l_k l <> 0 /\ 1 - c15 * (400 - l_T l) <> 0 /\ 0 < w4 (lkT l 400) (100000000 / 100000).
Proof. cbv zeta. unfold tcr, w4, lkT, c15, C_to_K. cbn [l_V l_Tc l_k l_T]. destruct (Req_EM_T 0 0); [|lra]. repeat split; lra. Qed.
(** A constant volume, as applyPressure applies it. *)
Theorem C85_constant_volume : forall pr T P r G H S0 V C, carries (tG r) G T P -> carries (tH r) H T P -> carries (tS r) S0 T P -> carries (tV r) V T P -> carries (tC r) C T P ->
  carries7 (applyPressureTS pr T P r) (fun t p => with_UA (G t p + V t p * (p / 100000 - pr / 100000)) (H t p + V t p * (p / 100000 - pr / 100000)) (S0 t p) (V t p) (C t p) t (p / 100000)) T P.
Proof. exact apply_carries. Qed.
Print Assumptions C85_constant_volume.
(** Where the reported values obey S = -dG/dT, V = dG/dP and Cp = T dS/dT (C41), the numbers of one result do too; the pressure derivative is per Pa. *)
Theorem C85_relations : forall r (f : R -> R -> mprop) T P, carries7 r (fun t p => f t (p / 100000)) T P -> 0 < T -> consistent f T (P / 100000) ->
  ddt (tG r) = - val (tS r) /\ ddp (tG r) = val (tV r) / 100000 /\ T * ddt (tS r) = val (tC r).
Proof. exact carried_relations. Qed.
Print Assumptions C85_relations.
(** Fluids: the fugacity cancels, the Gibbs energy carries what it had. *)
Theorem C85_gas_gibbs : forall Rc phi h s v T P r G, 0 < phi -> P <> 0 -> carries (tG r) G T P -> carries (tG (gasTS Rc phi h s v T P r)) G T P.
Proof. exact gas_gibbs. Qed.
Print Assumptions C85_gas_gibbs.
Example C85_gas_gibbs_example : 0 < 2 / 3 /\ 100000 <> 0 /\ carries (tG (gasTS 8 (2 / 3) (-5) (-1) 2 500 100000 (let t := TK 500 in mkTP t t t t t t t))) (fun t p => t) 500 100000.
Proof. split; [lra|]. split; [lra|]. apply C85_gas_gibbs; [lra|lra|]. apply (c_T 500 100000). Qed.
(** The residual enthalpy is added as a plain number: its temperature derivative is missing in the carried one wherever it is not zero. *)
Theorem C85_gas_enthalpy_refuted : forall Rc (phi h s v : R -> R -> R) T P r f dh, carries (tH r) (fun t p => mH (f t p)) T P -> is_derive (fun t : R => h t P) T dh -> dh <> 0 ->
  val (tH (gasTS Rc (phi T P) (h T P) (s T P) (v T P) T P r)) = mH (f T P) + h T P /\
  ~ is_derive (fun t : R => mH (f t P) + h t P) T (ddt (tH (gasTS Rc (phi T P) (h T P) (s T P) (v T P) T P r))).
Proof. exact gas_not_carried. Qed.
Print Assumptions C85_gas_enthalpy_refuted.
(** The volume is assigned as a plain number: it carries no compressibility. *)
Theorem C85_gas_volume_refuted : forall Rc (phi h s v : R -> R -> R) T P r dv, is_derive (fun p : R => v T p) P dv -> dv <> 0 ->
  val (tV (gasTS Rc (phi T P) (h T P) (s T P) (v T P) T P r)) = v T P /\ ~ is_derive (fun p : R => v T p) P (ddp (tV (gasTS Rc (phi T P) (h T P) (s T P) (v T P) T P r))).
Proof. exact gas_volume_not_carried. Qed.
Print Assumptions C85_gas_volume_refuted.
Example C85_gas_volume_example : is_derive (fun p : R => 8 * 500 / p) 100000 (- (8 * 500 / 100000 ^ 2)) /\ - (8 * 500 / 100000 ^ 2) <> 0.
Proof. split; [auto_derive; [lra|field]|lra]. Qed.
