(** Lemmas: paths of states exist in every direction; the table of constants and the exact values it rounds. *)
From Coq Require Import Reals Lra.
From Coquelicot Require Import Coquelicot.
From Verif Require Import RDeriv LvsModel LvsSpec LvsPf LvsTherm LvsDal.
Open Scope R_scope.

(** the state that belongs to r and theta *)
Definition T_of (c : lvs) (r th : R) : R := l_Tc c / (1 - f2 c r th).
Definition D_of (c : lvs) (r th : R) : R := l_rc c * rhow c (T_of c r th) r th.
Lemma of_solves : forall c r th, 0 < l_Tc c -> 0 < r -> f2 c r th < 1 -> solves c (T_of c r th) (D_of c r th) r th.
Proof.
  intros c r th Tc r0 h. unfold solves. split; [unfold T_of; apply Rdiv_lt_0_compat; lra|]. split; [exact r0|]. split; [|reflexivity].
  unfold dTw, Tw, T_of. unfold f2 at 1. replace (- l_Tc c / (l_Tc c / (1 - (r * (1 - l_b2 c * (th * th)) - l_c c * amu_ c r th)))) with (- (1 - f2 c r th)).
  - unfold f2. ring.
  - fold (f2 c r th). field. lra.
Qed.
Lemma solves_f2 : forall c T D r th, 0 < l_Tc c -> solves c T D r th -> f2 c r th < 1 /\ T = T_of c r th /\ D = D_of c r th.
Proof.
  intros c T D r th Tc [T0 [r0 [E Dd]]]. assert (F : f2 c r th = 1 - l_Tc c / T) by (unfold f2; rewrite <- E; unfold dTw, Tw, Rdiv; ring).
  assert (0 < l_Tc c / T) by (apply Rdiv_lt_0_compat; assumption). assert (Tq : T = T_of c r th) by (unfold T_of; rewrite F; field; lra).
  split; [lra|]. split; [exact Tq|]. unfold D_of. rewrite <- Tq. exact Dd.
Qed.
Section Path.
Variables (c : lvs) (T0 D0 r0 th0 r' th' x : R).
Hypothesis K : lvs_constants c.
Hypothesis S0 : solves c T0 D0 r0 th0.
Let r y := r0 + r' * (y - x).
Let th y := th0 + th' * (y - x).
Let T y := T_of c (r y) (th y).
Let D y := D_of c (r y) (th y).
Lemma Tcp : 0 < l_Tc c. Proof. destruct K as [_ [_ [[_ [X _]] _]]]. exact X. Qed.
Lemma at_x : r x = r0 /\ th x = th0 /\ T x = T0 /\ D x = D0.
Proof.
  assert (A : r x = r0) by (unfold r; ring). assert (B : th x = th0) by (unfold th; ring). unfold T, D. rewrite A, B.
  destruct (solves_f2 c T0 D0 r0 th0 Tcp S0) as [_ [E1 E2]]. split; [reflexivity|]. split; [reflexivity|]. split; congruence.
Qed.
Lemma rp0 : 0 < r0. Proof. exact (proj1 (proj2 S0)). Qed.
Let w1 := ar1 c r0 th0 * r' + a01 c r0 th0 * th'.
Let w2 := ar2 c r0 th0 * r' + a02 c r0 th0 * th'.
Lemma f2_y : is_derive (fun y => f2 c (r y) (th y)) x w2.
Proof. exact (f2_direct c r0 th0 rp0 r th x r' th' (proj1 at_x) (proj1 (proj2 at_x)) (lin r0 r' x) (lin th0 th' x)). Qed.
Lemma f1_y : is_derive (fun y => f1 c (r y) (th y)) x w1.
Proof. exact (f1_direct c r0 th0 rp0 r th x r' th' (proj1 at_x) (proj1 (proj2 at_x)) (lin r0 r' x) (lin th0 th' x)). Qed.
Lemma f2n : 1 - f2 c (r x) (th x) <> 0.
Proof. destruct at_x as [A [B _]]. rewrite A, B. pose proof (proj1 (solves_f2 c T0 D0 r0 th0 Tcp S0)). lra. Qed.
Lemma T_y : is_derive T x (T0 ^ 2 / l_Tc c * w2).
Proof.
  unfold T, T_of. pose proof f2n as N. eapply d_eq; [apply d_div; [apply d_const|apply d_minus; [apply d_const|exact f2_y]|exact N]|]. cbv beta. destruct at_x as [A [B [C _]]]. rewrite <- C. unfold T, T_of. rewrite A, B in *. pose proof Tcp. field. split; lra.
Qed.
Lemma D_y : is_derive D x (l_rc c * (w1 + l_p11 c * w2)).
Proof.
  apply is_derive_ext_loc with (fun y => l_rc c * (f1 c (r y) (th y) + (1 + l_p11 c * f2 c (r y) (th y)))).
  - assert (L : locally x (fun y : R => 1 - f2 c (r y) (th y) <> 0)).
    { assert (C : ex_derive (fun y => 1 - f2 c (r y) (th y)) x) by (eexists; apply d_minus; [apply d_const|exact f2_y]).
      apply (ex_derive_continuous _ x C (fun z => z <> 0)). exists (mkposreal _ (Rabs_pos_lt _ f2n)). intros z Hz E. subst z. unfold ball in Hz; cbn in Hz. unfold AbsRing_ball, abs, minus, plus, opp in Hz; cbn in Hz. rewrite Rplus_0_l, Rabs_Ropp in Hz. lra. }
    revert L. apply filter_imp. intros y N. unfold D, D_of, rhow, dTw, Tw, T_of, f1. asR. pose proof Tcp. field. split; first [exact N|lra].
  - eapply d_eq; [apply d_scal; apply d_plus; [exact f1_y|apply d_plus; [apply d_const|apply d_scal; exact f2_y]]|]. cbv beta. ring.
Qed.
Lemma the_path : path c T D r th x (T0 ^ 2 / l_Tc c * w2) (l_rc c * (w1 + l_p11 c * w2)) r' th'.
Proof.
  split; [|exact (conj T_y (conj D_y (conj (lin r0 r' x) (lin th0 th' x))))].
  assert (L : locally x (fun y : R => 0 < r y /\ f2 c (r y) (th y) < 1)).
  { apply filter_and.
    - apply (ex_derive_continuous r x (ex_intro _ _ (lin r0 r' x)) (fun z => 0 < z)). apply open_gt. rewrite (proj1 at_x). exact rp0.
    - apply (ex_derive_continuous (fun y => f2 c (r y) (th y)) x (ex_intro _ _ f2_y) (fun z => z < 1)). apply open_lt. destruct at_x as [A [B _]]. rewrite A, B. exact (proj1 (solves_f2 c T0 D0 r0 th0 Tcp S0)). }
  revert L. apply filter_imp. intros y [A B]. exact (of_solves c (r y) (th y) Tcp A B).
Qed.
Lemma path_exists : exists T D r th T' D', path c T D r th x T' D' r' th' /\ T x = T0 /\ D x = D0 /\ r x = r0 /\ th x = th0 /\
  T' = T0 ^ 2 / l_Tc c * (ar2 c r0 th0 * r' + a02 c r0 th0 * th') /\ D' = l_rc c * ((ar1 c r0 th0 * r' + a01 c r0 th0 * th') + l_p11 c * (ar2 c r0 th0 * r' + a02 c r0 th0 * th')).
Proof. exists T, D, r, th. eexists. eexists. split; [exact the_path|]. destruct at_x as [A [B [C E]]]. repeat (split; [assumption|]). split; reflexivity. Qed.
End Path.
(** an isobaric direction, with the temperature as parameter *)
Lemma isobar_exists : forall c T0 D0 r0 th0 x, lvs_constants c -> solves c T0 D0 r0 th0 -> regular c D0 r0 th0 ->
  exists T D r th D' r' th', path c T D r th x 1 D' r' th' /\ T x = T0 /\ D x = D0 /\ r x = r0 /\ th x = th0 /\ is_derive (fun y => Pof c (T y) (r y) (th y)) x 0.
Proof.
  intros c T0 D0 r0 th0 x K S0 Rg. set (al := h_alpha (thmLVS c T0 D0 r0 th0)).
  destruct (solve c r0 th0 K (proj1 (proj2 S0)) (proj1 Rg) (proj1 (proj2 Rg)) D0 T0 al) as [Z1 Z2].
  destruct (path_exists c T0 D0 r0 th0 (drdT c D0 T0 al r0 th0) (d0dT c D0 T0 al r0 th0) x K S0) as (T & D & r & th & T' & D' & Hp & A & B & C & E & ET & ED).
  rewrite Z2 in ET. rewrite Z1, Z2 in ED. assert (T0p := proj1 S0). assert (Tc := Tcp c K). pose proof (rc0 c K) as rcn.
  assert (T1 : T' = 1) by (rewrite ET; unfold e_b2; field; split; lra).
  assert (D1 : D' = - al * D0) by (rewrite ED; unfold e_b1, e_b2; field; split; [lra|exact rcn]).
  exists T, D, r, th, D', (drdT c D0 T0 al r0 th0), (d0dT c D0 T0 al r0 th0). rewrite T1 in Hp. split; [exact Hp|]. repeat (split; [assumption|]).
  assert (Rg' : regular c (D x) (r x) (th x)) by (rewrite B, C, E; exact Rg).
  eapply d_eq; [exact (P_d c T D r th x _ _ _ _ K Hp)|]. rewrite (P_total c T D r th x _ _ _ _ K Hp Rg'). unfold dPdT_. rewrite A, B, C, E, D1. fold al. unfold thmLVS. cbn [h_beta]. unfold dPdD. rewrite (Kd c K).
  pose proof (proj1 (proj2 Rg)). pose proof (proj2 (proj2 Rg)). pose proof (Pcn c K). field. repeat split; try assumption; lra.
Qed.

(** *** the table with its defining relations solved exactly *)
Definition ex_p4 (al : R) : R := (2 * (325 / 1000) * (482 / 100) - 3) / (2 * al).
Definition ex_s2 (al : R) : R := (-3 - 4 * ex_p4 al) / (2 * (13757 / 10000)).
Definition ex_p2 (al : R) : R := (325 / 1000 * (482 / 100) + ex_s2 al - 1 / 2) / (1 - al).
Definition ex_s0 (al : R) : R := (1 / 2 - ex_p2 al) / (13757 / 10000).
Definition ex_p0 (al : R) : R := ex_s0 al / (2 - al).
Definition al0 : R := 1085 / 10000.
Definition al1 : R := - 3915 / 10000.
Definition co_exact : lvs := mkLvs
  (- 17762 / 1000000) (5238 / 1000) (- 254915 / 10000) (68445 / 10000) (325 / 1000) (14403 / 10000) (13757 / 10000) (236666 / 10000) (482 / 100) (2942 / 10000) (- 112326 / 10000) (- 226547 / 10000) (- 178876 / 10000) (- 49332 / 10000)
  (ex_s0 al0) (ex_s2 al0) (ex_s0 al1) (ex_s2 al1)
  0.491775937675717720291497417773 al0 (ex_p0 al0) (ex_p2 al0) (ex_p4 al0) (1 / 2) al1 (825 / 1000)
  (ex_p0 al1) (ex_p2 al1) (ex_p4 al1)
  (647067 / 1000) (322778 / 1000) (22046 / 1000) (22046 / 647067) 22046 (1000 * (22046 / 647067)) (22046 / 647067 / (322778 / 1000) ^ 2).
Lemma exact_constants : lvs_constants co_exact.
Proof.
  unfold lvs_constants, one_potential, co_exact. cbn -[ex_p4 ex_s2 ex_p2 ex_s0 ex_p0 al0 al1 pow l_p11].
  unfold ex_p0, ex_s0, ex_p2, ex_s2, ex_p4, al0, al1. repeat match goal with |- _ /\ _ => split end; try lra; field.
Qed.
Definition fields (c : lvs) : list R := (l_c c :: l_P3 c :: l_P2 c :: l_P1 c :: l_b c :: l_k0 c :: l_b2 c :: l_a c :: l_del c :: l_k1 c :: l_mc c :: l_m1 c :: l_m2 c :: l_m3 c :: l_s00 c :: l_s20 c :: l_s01 c :: l_s21 c ::
  l_p11 c :: l_al c :: l_p00 c :: l_p20 c :: l_p40 c :: l_D1 c :: l_ali c :: l_bi c :: l_p01 c :: l_p21 c :: l_p41 c :: l_Tc c :: l_rc c :: l_Pc c :: l_Pcon c :: l_Ucon c :: l_Scon c :: l_dPcon c :: nil)%list.
Lemma table_close : List.Forall2 (fun a b => Rabs (a - b) <= Rabs b / 10 ^ 14) (fields co_) (fields co_exact).
Proof.
  unfold fields, co_, co_exact. cbn [l_c l_P3 l_P2 l_P1 l_b l_k0 l_b2 l_a l_del l_k1 l_mc l_m1 l_m2 l_m3 l_s00 l_s20 l_s01 l_s21 l_p11 l_al l_p00 l_p20 l_p40 l_D1 l_ali l_bi l_p01 l_p21 l_p41 l_Tc l_rc l_Pc l_Pcon l_Ucon l_Scon l_dPcon].
  unfold ex_p0, ex_s0, ex_p2, ex_s2, ex_p4, al0, al1.
  repeat (apply List.Forall2_cons; [unfold Rabs; destruct (Rcase_abs _); destruct (Rcase_abs _); lra|]). apply List.Forall2_nil.
Qed.
