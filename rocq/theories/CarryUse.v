(** What carried derivatives are good for; the witnesses. *)
From Coq Require Import Bool Reals Lra Lia.
From Coquelicot Require Import Coquelicot.
From Verif Require Import RDeriv ThermoScalarModel ThermoScalarSpec ThermoScalarProofs MineralModel MineralSpec MineralProofs MineralMore CarryModel CarrySpec CarryPf CarryMin CarryLan.
Open Scope R_scope.
Theorem carried_relations : forall r (f : R -> R -> mprop) T P, carries7 r (fun t p => f t (p / 100000)) T P -> 0 < T -> consistent f T (P / 100000) ->
  ddt (tG r) = - val (tS r) /\ ddp (tG r) = val (tV r) / 100000 /\ T * ddt (tS r) = val (tC r).
Proof.
  intros r f T P [[A [_ [C [D E]]]] _] HT [H1 [H2 [_ H4]]]. unfold cons_S, cons_V, cons_C in *.
  assert (E1 := is_derive_unique _ _ _ (proj1 (proj2 A))). assert (E2 := is_derive_unique _ _ _ (proj2 (proj2 A))). assert (E3 := is_derive_unique _ _ _ (proj1 (proj2 C))).
  cbv beta in E1, E2, E3.
  split; [rewrite (proj1 C); rewrite <- E1; apply (is_derive_unique _ _ _ H1)|]. split.
  - rewrite (proj1 D), <- E2. apply is_derive_unique.
    assert (B : is_derive (fun p : R => p / 100000) P (/ 100000)) by (auto_derive; [exact I|field]).
    assert (K := is_derive_comp (fun q : R => mG (f T q)) (fun p : R => p / 100000) P _ _ H2 B). cbv beta in K.
    eapply d_eq; [exact K|]. unfold scal; cbn; unfold mult; cbn. field.
  - assert (E4 := is_derive_unique _ _ _ H4). cbv beta in E4. rewrite (proj1 E), <- E3. transitivity (T * (mCp (f T (P / 100000)) / T)); [f_equal; exact E4|field; lra].
Qed.

(** *** Berman at the reference point of the phase: the branch is not taken, so nothing of the correction is in the derivatives *)
Section Ref.
Variables (b : berpar) (vst : TS) (r : tprop) (f : R -> R -> mprop).
Let T := b_T b. Let P := 100000 * b_P b.
Hypothesis Hv : read_value vst (b_V b).
Hypothesis Hr : carries5 r f T P.
Lemma ref_branch : bermanTS b vst T P r = mkTP (tG r) (tH r) (tS r) vst (tC r) (tU r) (tA r).
Proof.
  unfold bermanTS. replace (neqb (val (dP_ b P)) 0 || neqb (val (dT_ b T)) 0) with false; [reflexivity|]. symmetry. unfold neqb, P, T. cbn.
  destruct (Req_EM_T (100000 * b_P b * (1 / 100000) - b_P b) 0) as [|N]; [|exfalso; apply N; field]. destruct (Req_EM_T (b_T b - b_T b) 0) as [|N]; [reflexivity|exfalso; apply N; ring].
Qed.
Lemma berman_G : forall t p q, mG (berman b t p q) = mG q + ber_g b t p.
Proof.
  intros t p q. unfold berman, neqb. destruct (Req_EM_T (p - b_P b) 0) as [E|E]; [|reflexivity]. destruct (Req_EM_T (t - b_T b) 0) as [E2|E2]; [|reflexivity]. cbn [negb orb mG]. unfold ber_g, ber_VP. rewrite E. field.
Qed.
Lemma berman_V : forall t p q, mV (berman b t p q) = ber_v b t p.
Proof.
  intros t p q. unfold berman, neqb. destruct (Req_EM_T (p - b_P b) 0) as [E|E]; [|reflexivity]. destruct (Req_EM_T (t - b_T b) 0) as [E2|E2]; [|reflexivity]. cbn [negb orb mV]. unfold ber_v, ber_VP, ber_VT. rewrite E, E2. ring.
Qed.
Lemma refP : P / 100000 = b_P b. Proof. unfold P. field. Qed.
Theorem berman_reference : let o := bermanTS b vst T P r in
  ddp (tG o) = ddp (tG r) /\ is_derive (fun p : R => mG (berman b T (p / 100000) (f T p))) P (ddp (tG r) + b_V b * (1 + b_1 b * ts2 b) / 100000) /\
  ddt (tV o) = 0 /\ is_derive (fun t : R => mV (berman b t (P / 100000) (f t P))) T (b_V b * (b_0 b + b_2 b * ts2 b)).
Proof.
  cbv zeta. rewrite ref_branch. cbn [tG tV]. split; [reflexivity|]. split; [|split; [apply Hv|]].
  - apply (is_derive_ext (fun p : R => mG (f T p) + ber_g b T (p / 100000))); [intro p; symmetry; apply berman_G|].
    eapply d_eq; [apply (d_plus (fun p : R => mG (f T p)) (fun p : R => ber_g b T (p / 100000))); [exact (proj2 (proj2 (proj1 Hr)))|]|reflexivity].
    unfold ber_g, ber_VP. auto_derive; [exact I|]. replace (P * / 100000) with (b_P b) by (rewrite <- refP; unfold Rdiv; ring). unfold T. field.
  - apply (is_derive_ext (fun t : R => ber_v b t (P / 100000))); [intro t; symmetry; apply berman_V|]. unfold ber_v, ber_VT, ber_VP. auto_derive; [exact I|]. unfold T. ring.
Qed.
End Ref.
