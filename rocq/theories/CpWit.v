(** Concrete data for the examples and counterexamples about the heat-capacity integration. *)
From Coq Require Import List Bool Reals Lra Lia.
From Coquelicot Require Import Coquelicot.
From Verif Require Import RDeriv CpModel CpSpec CpProofs.
Import ListNotations.
Open Scope R_scope.

(** three intervals, two transitions, all coefficients in use except the last *)
Definition l3 : list (R * R) := [(200, 400); (400, 800); (800, 1600)].
Definition d3 : cpdat := mkCp (rows l3) [[1; 2; 3; 4; 5; 6; 7; 8; 9; 0]; [9; 8; 7; 6; 5; 4; 3; 2; 1; 0]; [1; 0; 1; 0; 1; 0; 1; 0; 1; 0]]
  [[400; 2; 800]; [800; 3; 2400; 1]] (29815 / 100) (-100) (-90) 50.
Lemma d3_rec : cp_rec d3 l3.
Proof.
  split.
  - reflexivity.
  - cbn. repeat split; lra.
  - intros p [<-|[<-|[<-|[]]]]; cbn; lra.
  - cbn. lra.
  - reflexivity.
  - exists 10%nat. repeat constructor.
  - unfold trans_ok. cbn. repeat constructor; do 3 eexists; (split; [reflexivity|]); cbn; lra.
Qed.
Lemma d3_a9 : forall c, In c (coeffs d3) -> a_ c 9 = 0.
Proof. intros c [<-|[<-|[<-|[]]]]; reflexivity. Qed.
Lemma d3_inside : inside l3 1 500.
Proof. exists (400, 800). split; [reflexivity|]. left. cbn. lra. Qed.

(** one interval, and a coefficient for sqrt T *)
Definition l9 : list (R * R) := [(1, 100)].
Definition d9 : cpdat := mkCp (rows l9) [[0; 0; 0; 0; 0; 0; 0; 0; 0; 1]] [] 4 0 0 0.
Lemma d9_rec : cp_rec d9 l9.
Proof.
  split.
  - reflexivity.
  - cbn. repeat split; lra.
  - intros p [<-|[]]; cbn; lra.
  - cbn. lra.
  - reflexivity.
  - exists 10%nat. repeat constructor.
  - unfold trans_ok. constructor.
Qed.
Lemma sqrt9 : sqrt 9 = 3. Proof. replace 9 with (3 * 3) by ring. apply sqrt_square. lra. Qed.
Lemma sqrt_coefficient : exists d l T, cp_rec d l /\ inside l 0 T /\ 0 < T /\
  (exists q, empCp d T = COk q) /\ ~ exists q, locally T (fun t => empCp d t = COk (q t)) /\ is_derive (fun t : R => pH (q t)) T (pCp (q T)).
Proof.
  exists d9, l9, 9. assert (I : inside l9 0 9) by (exists (1, 100); split; [reflexivity|]; left; cbn; lra).
  split; [exact d9_rec|]. split; [exact I|]. split; [lra|]. split; [eexists; exact (emp_qk d9 l9 d9_rec 0 9 (inside_chosen _ _ _ I))|].
  intros (q & L & D). pose proof (chosen_near l9 0 9 I) as N.
  assert (E : locally 9 (fun t => q t = qk d9 l9 0 t)).
  { generalize (filter_and _ _ L N). apply filter_imp. intros t [H1 H2]. pose proof (emp_qk d9 l9 d9_rec 0 t H2) as H3. rewrite H1 in H3. now injection H3. }
  pose proof (locally_singleton _ _ E) as E9. cbv beta in E9. rewrite E9 in D.
  assert (D' : is_derive (fun t : R => pH (qk d9 l9 0 t)) 9 (pCp (qk d9 l9 0 9))).
  { apply (is_derive_ext_loc (fun t : R => pH (q t))); [|exact D]. revert E. apply filter_imp. intros t ->. reflexivity. }
  destruct (qk_derive d9 l9 0 9 d9_rec ltac:(cbn; lia) ltac:(lra)) as (DH & _).
  pose proof (d_unique _ _ _ _ D' DH) as U. rewrite Cp_true_poly in U by lra. unfold cp_poly, qk in U. cbn [pCp] in U. unfold Cpf in U.
  rewrite !nth_overlay in U by lia. cbn [coeffs d9 nth] in U. rewrite sqrt9 in U. cbn [pow] in U. lra.
Qed.

(** the second record has fewer coefficients than the first: what is left of the first is used for H, S and G *)
Definition ls : list (R * R) := [(1, 10); (10, 100)].
Definition ds : cpdat := mkCp (rows ls) [[1; 1]; [1]] [[10; 0; 0]] 1 0 0 0.
Definition zr (a b : R) : list R := [a; b; 0; 0; 0; 0; 0; 0; 0; 0; 0; 0; 0; 0; 0; 0].
Lemma ds_eq : forall T, 10 <= T < 100 -> exists g s v, empCp ds T = COk (mkP g ((Hint (zr 1 1) 1 10) + 0 + 0 + Hint (zr 1 1) 10 T) s (Cpf (zr 1 0) T) v).
Proof.
  intros T H. assert (S : select_k (ints ds) T = COk (Some 1%nat)) by (apply (select_in ls 1 (10, 100) T); [cbn; repeat split; lra|reflexivity|cbn; lra]).
  unfold empCp. cbn [coeffs ds]. rewrite S. cbn [cbind idx nth_error]. unfold cploop. cbn [seq fold_left]. cbn [cbind].
  unfold cpstep at 2. cbn [Nat.eqb cbind idx ints ds rows ls map nth_error coeffs cTr ac st1 sS sG sH sV ft fst snd].
  unfold cpstep. cbn [Nat.eqb cbind idx ints ds rows ls map nth_error coeffs cTr trans ft fst snd].
  rewrite Rleb_t by lra. cbn [cbind]. unfold transition. cbn [ac ft sS sG sH sV length Nat.ltb Nat.leb a_ nth cS cG cH ds].
  do 3 eexists. f_equal. change (overlay [1] zeros) with (zr 1 0). change (overlay [1; 1] (zr 1 0)) with (zr 1 1). change (overlay [1] (zr 1 1)) with (zr 1 1).
  f_equal; try reflexivity. ring.
Qed.
Lemma stale_coefficients : exists d l T, contiguous l /\ ints d = rows l /\ length (coeffs d) = length l /\ trans_ok l (trans d) /\ inside l 1 T /\ 0 < T /\
  (forall c, In c (coeffs d) -> a_ c 9 = 0) /\ (exists q, empCp d T = COk q) /\
  ~ exists q, locally T (fun t => empCp d t = COk (q t)) /\ is_derive (fun t : R => pH (q t)) T (pCp (q T)).
Proof.
  exists ds, ls, 50. split; [cbn; repeat split; lra|]. split; [reflexivity|]. split; [reflexivity|].
  split; [repeat constructor; do 3 eexists; (split; [reflexivity|]); cbn; lra|]. split; [exists (10, 100); split; [reflexivity|]; left; cbn; lra|].
  split; [lra|]. split; [intros c [<-|[<-|[]]]; reflexivity|]. split; [destruct (ds_eq 50 ltac:(lra)) as (g & s & v & E); eexists; exact E|].
  intros (q & L & D).
  assert (N : locally 50 (fun t => 10 < t < 100)).
  { apply (locally_open (fun t => 10 < t < 100)); [apply open_and; [apply open_gt|apply open_lt]|auto|lra]. }
  assert (E : locally 50 (fun t => pH (q t) = Hint (zr 1 1) 1 10 + 0 + 0 + Hint (zr 1 1) 10 t /\ pCp (q t) = Cpf (zr 1 0) t)).
  { generalize (filter_and _ _ L N). apply filter_imp. intros t [H1 H2]. destruct (ds_eq t ltac:(lra)) as (g & s & v & E). rewrite E in H1.
    injection H1 as <-. now split. }
  pose proof (locally_singleton _ _ E) as [_ EC]. rewrite EC in D.
  assert (D' : is_derive (fun t : R => Hint (zr 1 1) 1 10 + 0 + 0 + Hint (zr 1 1) 10 t) 50 (Cpf (zr 1 0) 50)).
  { apply (is_derive_ext_loc (fun t : R => pH (q t))); [|exact D]. revert E. apply filter_imp. intros t [-> _]. reflexivity. }
  assert (D2 : is_derive (fun t : R => Hint (zr 1 1) 1 10 + 0 + 0 + Hint (zr 1 1) 10 t) 50 (0 + Cp_true (zr 1 1) 50)).
  { apply d_plus; [apply d_const|]. apply Hint_derive; lra. }
  pose proof (d_unique _ _ _ _ D' D2) as U. unfold Cp_true, Cpf in U. cbn [a_ nth zr] in U. pose proof (sqrt_lt_R0 50 ltac:(lra)).
  unfold Rdiv in U. lra.
Qed.

(** a transition given by its entropy alone *)
Definition dt : cpdat := mkCp (rows ls) [[1]; [1]] [[10; 5]] 1 0 0 0.
Lemma short_transition : exists d l T q, contiguous l /\ ints d = rows l /\ length (coeffs d) = length l /\ rect (coeffs d) /\ chosen l 1 T /\ 0 < T /\
  empCp d T = COk q /\ pG q - (pH q - T * pS q) <> cG d - (cH d - cTr d * cS d).
Proof.
  exists dt, ls, 10. eexists. split; [cbn; repeat split; lra|]. split; [reflexivity|]. split; [reflexivity|]. split; [exists 1%nat; repeat constructor|].
  split; [exists (10, 100); split; [reflexivity|]; left; cbn; lra|]. split; [lra|].
  assert (S : select_k (ints dt) 10 = COk (Some 1%nat)) by (apply (select_in ls 1 (10, 100) 10); [cbn; repeat split; lra|reflexivity|cbn; lra]).
  split.
  - unfold empCp. cbn [coeffs dt]. rewrite S. cbn [cbind idx nth_error]. unfold cploop. cbn [seq fold_left]. cbn [cbind].
    unfold cpstep at 2. cbn [Nat.eqb cbind idx ints dt rows ls map nth_error coeffs cTr ac st1 sS sG sH sV ft fst snd].
    unfold cpstep. cbn [Nat.eqb cbind idx ints dt rows ls map nth_error coeffs cTr trans ft fst snd].
    rewrite Rleb_t by lra. cbn [cbind]. unfold transition. cbn [ac ft sS sG sH sV length Nat.ltb Nat.leb a_ nth cS cG cH dt]. reflexivity.
  - cbn [pG pH pS cG cH cTr cS dt]. rewrite Sint_0, Hint_0, Gint_0 by lra. rewrite Gint_id by lra.
    set (x := Sint _ _ _). set (y := Hint _ _ _). lra.
Qed.
(** a transition listed above the boundary of its interval is left out *)
Definition du : cpdat := mkCp (rows ls) [[1]; [1]] [[11; 5; 55]] 1 0 0 0.
Lemma late_transition : exists q, empCp du 20 = COk q /\ empCp (mkCp (rows ls) [[1]; [1]] [[11; 0; 0]] 1 0 0 0) 20 = COk q.
Proof.
  assert (S : select_k (rows ls) 20 = COk (Some 1%nat)) by (apply (select_in ls 1 (10, 100) 20); [cbn; repeat split; lra|reflexivity|cbn; lra]).
  eexists. split.
  - unfold empCp. cbn [coeffs du ints]. rewrite S. cbn [cbind idx nth_error]. unfold cploop. cbn [seq fold_left]. cbn [cbind].
    unfold cpstep at 2. cbn [Nat.eqb cbind idx ints du rows ls map nth_error coeffs cTr ac st1 sS sG sH sV ft fst snd].
    unfold cpstep. cbn [Nat.eqb cbind idx ints du rows ls map nth_error coeffs cTr trans ft fst snd].
    rewrite Rleb_f by lra. cbn [cbind]. reflexivity.
  - unfold empCp. cbn [coeffs ints]. rewrite S. cbn [cbind idx nth_error]. unfold cploop. cbn [seq fold_left]. cbn [cbind].
    unfold cpstep at 2. cbn [Nat.eqb cbind idx ints rows ls map nth_error coeffs cTr ac st1 sS sG sH sV ft fst snd].
    unfold cpstep. cbn [Nat.eqb cbind idx ints rows ls map nth_error coeffs cTr trans ft fst snd].
    rewrite Rleb_f by lra. cbn [cbind]. reflexivity.
Qed.
(** fewer transitions than inner boundaries *)
Definition l3d : cpdat := mkCp (rows l3) [[1]; [1]; [1]] [[400; 0; 0]] 300 0 0 0.
Lemma too_few : empCp l3d 900 = CUB.
Proof.
  assert (S : select_k (rows l3) 900 = COk (Some 2%nat)) by (apply (select_in l3 2 (800, 1600) 900); [cbn; repeat split; lra|reflexivity|cbn; lra]).
  unfold empCp. cbn [coeffs l3d ints]. rewrite S. cbn [cbind idx nth_error]. unfold cploop. cbn [seq fold_left]. cbn [cbind].
  unfold cpstep. cbn [Nat.eqb cbind idx ints l3d rows l3 map nth_error coeffs cTr trans ac st1 sS sG sH sV ft fst snd].
  rewrite (Rleb_t 400 400) by lra. reflexivity.
Qed.
