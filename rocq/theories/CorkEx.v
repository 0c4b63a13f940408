(** Concrete states of water for the examples of P_Cork. *)
From Coq Require Import List Bool Reals Lra Lia String Ascii.
From Coquelicot Require Import Coquelicot.
From Verif Require Import RDeriv GasModel GasSpec GasCubic GasProofs GasDeriv GasMore GasPhase CorkModel CorkSpec CorkCubic CorkProofs CorkDeriv CorkInst CorkWit CorkLiq CorkSat.
Open Scope R_scope.

Lemma vapour_slopes_ex : exists F : R -> R -> fug, locally 400 (fun t => cork_pure PI "H2O" 647 220 t 1 = Some (F t 1)) /\ is_derive (fun t => f_h (F t 1)) 400 (f_c (F 400 1)).
Proof.
  assert (E : h2o_vap 400 = h2o_gas 400) by (unfold h2o_vap; destruct (Rlt_dec 400 673); [reflexivity|lra]).
  assert (Hr : mrk_regular (e_a (h2o_vap 400)) b_h2o 400 (1 / 1000)) by (rewrite E, gas_a; exact gas_reg).
  destruct (h2o_vapour_slopes 647 220 400 1 ltac:(lra) ltac:(lra) ltac:(lra) ltac:(lra) ltac:(unfold h2o_psat; lra) Hr) as (F & H1 & _ & _ & _ & H2). exists F. split; assumption.
Qed.
Lemma con625 : e_a (h2o_con 625) <> 0.
Proof. rewrite liq625, liq_a. unfold a_h2o_liq. apply Rgt_not_eq. lra. Qed.
Lemma liquid_work_ex : exists F : R -> fug, locally 1000 (fun q => cork_pure PI "H2O" 647 220 625 q = Some (F q)) /\ is_derive (fun q => f_g (F q)) 1000 (f_v (F 1000) - Rgas * 625 / 1000).
Proof.
  destruct (h2o625 647 220 1000 (or_intror eq_refl)) as (f & E). assert (S := psat625).
  exact (h2o_liquid_work 647 220 625 1000 f ltac:(lra) ltac:(lra) ltac:(lra) ltac:(lra) con625 liq625_reg1 E).
Qed.
Lemma saturation_ex : exists F : R -> fug, locally (1000 * h2o_psat 625) (fun q => cork_pure PI "H2O" 647 220 625 q = Some (F q)) /\ continuous (fun q => f_g (F q)) (1000 * h2o_psat 625).
Proof.
  destruct (h2o625 647 220 (1000 * h2o_psat 625) (or_introl eq_refl)) as (f & E). assert (S := psat625).
  exact (h2o_saturation 647 220 625 f ltac:(lra) ltac:(lra) ltac:(lra) con625 gas625_reg liq625_reg E).
Qed.
Lemma h2o_dense_both : forall Tc Pc T P, 0 < T -> T < 673 -> 1000 * h2o_psat T <= P -> 0 < P -> let a := a_h2o_liq T in let b := b_h2o in mrk_regular a b T (P / 1000) -> 0 < a ->
  12 * att a T * b < 2 * Rgas * T * b ^ 2 + 3 * P * b ^ 3 -> cork_pure PI "H2O" Tc Pc T P = None /\ exists u, b < u /\ eos_rk (att a T) b T u = P.
Proof.
  intros Tc Pc T P HT H673 Hs HP a b Hr Ha Hd. split; [exact (h2o_dense_none Tc Pc T P HT H673 Hs HP Hr Ha Hd)|].
  assert (Eb : e_b (h2o_liq T) = b_h2o) by apply cubic_b. assert (Ea := liq_a T). assert (Pb := b_h2o_pos).
  assert (Hr' : mrk_regular (e_a (k_ab (h2o_par (h2o_liq T)))) (e_b (k_ab (h2o_par (h2o_liq T)))) T (P / 1000)) by (cbn [h2o_par k_ab]; rewrite Ea, Eb; exact Hr).
  destruct (vapour_ok (h2o_par (h2o_liq T)) T (P / 1000) ltac:(cbn [h2o_par k_ab]; rewrite Eb; exact Pb) HT ltac:(lra) Hr') as (u & H1 & H2 & _). cbn [h2o_par k_ab] in H1, H2. rewrite Ea, Eb in *. exists u. split; [exact H1|]. replace P with (1000 * (P / 1000)) at 1 by field. exact H2.
Qed.
