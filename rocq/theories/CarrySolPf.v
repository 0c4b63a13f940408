(** Proofs: HKF species carry their derivatives; the g function of the Reaktoro code. *)
From Coq Require Import Bool Reals Lra Lia.
From Coquelicot Require Import Coquelicot.
From Verif Require Import RDeriv ThermoScalarModel ThermoScalarSpec ThermoScalarProofs MineralModel CarryModel CarrySpec CarryPf GasMore GasPhase SoluteModel SoluteSpec SoluteProofs SoluteG SoluteG2 CarryReacPf CarrySolute CarrySoluteSpec.
Open Scope R_scope.
Lemma c_powts : forall x y f g T P, carries x f T P -> carries y g T P -> 0 < f T P -> carries (ts_pow x y) (fun t p => Rpower (f t p) (g t p)) T P.
Proof.
  intros x y f g T P H K N. apply (by_expr (XPow (leaf x f) (leaf y g))); [exact (conj (leaf_dom _ _ _ _ H) (conj (leaf_dom _ _ _ _ K) N))|cbn [teval]; now rewrite (leaf_eval _ _ _ _ H), (leaf_eval _ _ _ _ K)|reflexivity].
Qed.
Lemma c_exp : forall x f T P, carries x f T P -> carries (ts_exp x) (fun t p => exp (f t p)) T P.
Proof. intros x f T P H. apply (by_expr (XExp (leaf x f))); [exact (leaf_dom _ _ _ _ H)|cbn [teval]; now rewrite (leaf_eval _ _ _ _ H)|reflexivity]. Qed.
Lemma c_ipmuld : forall c x f T P, carries x f T P -> carries (ip_mul_d x c) (fun t p => f t p * c) T P.
Proof.
  intros c x f T P H. destruct (c_muld c x f T P H) as [A [B C]].
  assert (E1 : ddt (ip_mul_d x c) = ddt (ts_mul_d x c)) by (unfold ip_mul_d, ts_mul_d, d_mul_ts, ctor5; destruct (is0 (val x)); cbn; ring).
  assert (E2 : ddp (ip_mul_d x c) = ddp (ts_mul_d x c)) by (unfold ip_mul_d, ts_mul_d, d_mul_ts, ctor5; destruct (is0 (val x)); cbn; ring).
  split; [cbn; now rewrite (proj1 H)|]. rewrite E1, E2. now split.
Qed.
Ltac pown k := eapply (c_pown k); [lia|cbn [INR]; lra|].
Ltac cs3 := repeat first [cstep | match goal with
  | |- carries (ts_pow_d _ 2) (fun _ _ => _ ^ 2) _ _ => pown 2%nat
  | |- carries (ts_pow_d _ 3) (fun _ _ => _ ^ 3) _ _ => pown 3%nat
  | |- carries (ts_pow_d _ 4) (fun _ _ => _ ^ 4) _ _ => pown 4%nat
  | |- carries (ts_pow_d _ 14) (fun _ _ => _ ^ 14) _ _ => pown 14%nat
  | |- carries (ts_pow_d _ 15) (fun _ _ => _ ^ 15) _ _ => pown 15%nat
  | |- carries (ts_pow_d _ 16) (fun _ _ => _ ^ 16) _ _ => pown 16%nat
  | |- carries (ts_pow_d _ _) (fun _ _ => Rpower _ _) _ _ => eapply c_pow
  | |- carries (ts_pow _ _) _ _ _ => eapply c_powts
  | |- carries (ip_mul_d _ _) _ _ _ => eapply c_ipmuld
  | |- carries (ts_exp _) _ _ _ => eapply c_exp
  end].

(** *** HKF *)
Section Hkf.
Variables (T P : R) (rG rHh rS : TS) (h : hkf) (e : elT) (E : R -> R -> elec) (b : bornT) (B : R -> R -> born).
Hypothesis RG : read_value rG (hG h).
Hypothesis RH : read_value rHh (hH h).
Hypothesis RS : read_value rS (hS h).
Hypothesis CE : carriesEl e E T P.
Hypothesis CB : carriesBorn b B T P.
Hypothesis HT : theta < T.
Hypothesis HP : 0 < psi + P / 100000.
Lemma T0 : 0 < T. Proof. pose proof th_pos. lra. Qed.
Lemma tm : 0 < T - theta. Proof. lra. Qed.
Ltac open := destruct CE as [E1 [E2 [E3 E4]]]; destruct CB as [B1 [B2 [B3 B4]]]; pose proof (c_read rG _ T P RG) as G1; pose proof (c_read rHh _ T P RH) as G2; pose proof (c_read rS _ T P RS) as G3;
  pose proof T0; pose proof tm; pose proof th_pos; pose proof tr_pos; pose proof trp; pose proof cal_pos; pose proof pref_pos.
Ltac side := first [assumption | lra | nra | apply pow_nonzero; lra | apply Rdiv_lt_0_compat; [|lra]; first [lra|apply Rmult_lt_0_compat; [apply Rdiv_lt_0_compat; lra|lra]]
  | apply Rmult_integral_contrapositive_currified; lra | apply Rdiv_lt_0_compat; [apply Rmult_lt_0_compat; lra|apply Rmult_lt_0_compat; lra] | apply Rdiv_lt_0_compat; [apply Rdiv_lt_0_compat; [apply Rmult_lt_0_compat; lra|lra]|lra]].
Lemma c_a34 : carries (a34 P h) (fun t p => h3 h * (p / 100000 - Pr) + h4 h * logP (p / 100000)) T P.
Proof. open. unfold a34, lgP, logP, psP. cs3; side. Qed.
Lemma c_lgP : carries (lgP P) (fun t p => logP (p / 100000)) T P.
Proof. open. unfold lgP, logP, psP. cs3; side. Qed.
Lemma c_rec2 : carries (rec2 T) (fun t p => 1 / (t - theta) - 1 / (Tr - theta)) T P.
Proof. open. unfold rec2, tmth. cs3; side. Qed.
Lemma reak_carries : carries7 (hkf_reakTS T P rG rHh rS h e b) (fun t p => hkf_reak h t (p / 100000) (E t p) (B t p)) T P.
Proof.
  open. pose proof c_a34 as K1. pose proof c_rec2 as K2. pose proof c_lgP as K3.
  unfold carries7, carries5, hkf_reakTS, closeTS, hkf_reak, psP, tmth. cbv zeta. cbn [tG tH tS tV tC tU tA mG mH mS mV mCp mU mA].
  split; [split; [|split; [|split; [|split]]]|split]; cs3; side.
Qed.
Lemma gems_carries : carries7 (hkf_gemsTS T P rG rHh rS h e b) (fun t p => hkf_gems h t (p / 100000) (E t p) (B t p)) T P.
Proof.
  open. pose proof c_a34 as K1. pose proof c_rec2 as K2. pose proof c_lgP as K3.
  unfold carries7, carries5, hkf_gemsTS, closeTS, hkf_gems, psP, tmth. cbv zeta. cbn [tG tH tS tV tC tU tA mG mH mS mV mCp mU mA].
  split; [split; [|split; [|split; [|split]]]|split]; cs3; side.
Qed.
End Hkf.
