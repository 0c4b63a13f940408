(** Property theorems: copies (C50). *)
From Coq Require Import List Bool Arith String.
From Verif Require Import AliasModel AliasProofs AliasEngine AliasWit.
Import ListNotations.

(** Substances and databases (elements and reactions have the same operations): every program gives what it would give
    if each variable were a plain value; nothing is ever shared. *)
Theorem C50_values : forall (S : Type) (v0 : S) (h : list (dop S)),
  match drun h (mem0 v0), vrun h vals0 with
  | Some m, Some v => (forall x, see_s m x = vs v x) /\ (forall d, see_d m d = vd v d)
  | None, None => True
  | _, _ => False
  end.
Proof. exact @copies_are_values. Qed.
Print Assumptions C50_values.
Example C50_values_example : exists m, drun [SNew 0 3; DNew 0; DAdd 0 "a" 0; DCopy 1 0; DMut 1 "a" (fun _ => 9); SMut 0 (fun _ => 5); DSet 1 "b" 0; DNew 2; DAssign 2 1; DMut 1 "b" (fun _ => 8); DGet 1 1 "a"; SMut 1 (fun _ => 2)] (mem0 0) = Some m /\
  see_d m 0 = Some [("a"%string, 3)] /\ see_d m 1 = Some [("b"%string, 8); ("a"%string, 9)] /\ see_d m 2 = Some [("b"%string, 5); ("a"%string, 9)] /\ see_s m 0 = Some 5 /\ see_s m 1 = Some 2.
Proof. wit. Qed.

(** in particular: whatever is done to other variables, a substance or database stays as it is *)
Theorem C50_frame : forall (S : Type) (v0 : S) h1 h2 m1 m2,
  drun h1 (mem0 v0) = Some m1 -> drun h2 m1 = Some m2 ->
  (forall x, (forall o, In o h2 -> target_s o <> Some x) -> see_s m2 x = see_s m1 x) /\
  (forall d, (forall o, In o h2 -> target_d o <> Some d) -> see_d m2 d = see_d m1 d).
Proof. exact @copies_frame. Qed.
Print Assumptions C50_frame.
Example C50_frame_example : exists m1 m2, drun [SNew 0 3; DNew 0; DAdd 0 "a" 0; DCopy 1 0] (mem0 0) = Some m1 /\
  drun [DMut 1 "a" (fun _ => 9); SMut 0 (fun _ => 5); DSet 1 "a" 0] m1 = Some m2 /\ see_d m2 0 = see_d m1 0 /\ see_d m2 1 <> see_d m1 1.
Proof. apply run_to2. vm_compute. split; [reflexivity|discriminate]. Qed.

(** Engines that are built and never copied or assigned: whatever is done to the others (changes, calls, the end of their
    life), an engine answers as before. *)
Theorem C50_separate_engines_partial : forall (Data Pref Key Val : Type) (keq : Key -> Key -> bool) (calc : Data -> Pref -> Key -> comp Key Val) n i h1 h2 s1 s2 y k,
  (forall o, In o (h1 ++ h2) -> no_share o) -> (forall o, In o h2 -> etarget o <> y) ->
  erun keq calc n h1 (est0 i) = Some s1 -> erun keq calc n h2 s1 = Some s2 ->
  option_map fst (estep keq calc n (ECall y k) s2) = option_map fst (estep keq calc n (ECall y k) s1) /\
  option_map fst (estep keq calc n (EObj y k) s2) = option_map fst (estep keq calc n (EObj y k) s1).
Proof. exact @separate_engines. Qed.
Print Assumptions C50_separate_engines_partial.
Example C50_separate_engines_example : exists s1 s2, wrun [ENew 0 1 2; ENew 1 1 2; ECall 0 7] w0 = Some s1 /\
  wrun [EPref 1 (fun _ => 5); ECall 1 7; EKill 1] s1 = Some s2 /\ answer 0 7 s2 = Some (Some (OVal 712)) /\ answer 0 8 s2 = Some (Some (OVal 812)).
Proof. wit. Qed.

(** A copied engine answers every request by symbol exactly as its source does, after any history: what is set in the copy
    has no effect on these answers, what is set in the source has. *)
Theorem C50_copy_answers_as_source : forall (Data Pref Key Val : Type) (keq : Key -> Key -> bool) (calc : Data -> Pref -> Key -> comp Key Val) n i h1 h2 s1 s2 s3 r x y k, x <> y ->
  erun keq calc n h1 (est0 i) = Some s1 -> estep keq calc n (ECopy x y) s1 = Some (r, s2) -> erun keq calc n h2 s2 = Some s3 ->
  (forall o, In o h2 -> ~ rebinds o x /\ ~ rebinds o y) ->
  option_map fst (estep keq calc n (ECall x k) s3) = option_map fst (estep keq calc n (ECall y k) s3).
Proof. exact @copy_answers_as_source. Qed.
Print Assumptions C50_copy_answers_as_source.
(** so that the independence of copied engines is false, in each direction *)
Theorem C50_copy_own_change_refuted : exists s s', wrun [ENew 0 1 2; ECopy 1 0; EPref 1 (fun _ => 5); EData 1 (fun _ => 3)] w0 = Some s /\
  wrun [ENew 2 3 5] s = Some s' /\ answer 1 7 s' = Some (Some (OVal 712)) /\ answer_obj 1 7 s' = Some (Some (OVal 712)) /\ answer 2 7 s' = Some (Some (OVal 735)).
Proof. exact own_change_ignored. Qed.
Print Assumptions C50_copy_own_change_refuted.
Theorem C50_copy_source_change_refuted : exists s s', wrun [ENew 0 1 2; ECopy 1 0] w0 = Some s /\ wrun [EPref 0 (fun _ => 5)] s = Some s' /\
  answer 1 7 s = Some (Some (OVal 712)) /\ answer 1 7 s' = Some (Some (OVal 715)).
Proof. exact source_change_followed. Qed.
Print Assumptions C50_copy_source_change_refuted.
(** the copy outlives its source: both kinds of request run on memory that is gone *)
Theorem C50_copy_outlives_source_refuted : exists s, wrun [ENew 0 1 2; ECopy 1 0; EKill 0] w0 = Some s /\ answer 1 7 s = Some (Some OUB) /\ answer_obj 1 7 s = Some (Some OUB).
Proof. exact source_gone. Qed.
Print Assumptions C50_copy_outlives_source_refuted.
(** a request to the copy is remembered for the source *)
Theorem C50_copy_cache_refuted : exists s s', wrun [ENew 0 1 2; ECopy 1 0] w0 = Some s /\ wrun [ECall 1 7; EPref 0 (fun _ => 5)] s = Some s' /\
  answer 0 7 s' = Some (Some (OVal 712)) /\ (exists s2, wrun [EPref 0 (fun _ => 5)] s = Some s2 /\ answer 0 7 s2 = Some (Some (OVal 715))).
Proof. exact cache_shared. Qed.
Print Assumptions C50_copy_cache_refuted.
(** assignment makes two names of one engine *)
Theorem C50_assign_refuted : exists s s', wrun [ENew 0 1 2; ENew 1 3 4; EAssign 1 0] w0 = Some s /\ wrun [EPref 1 (fun _ => 5)] s = Some s' /\
  answer 0 7 s = Some (Some (OVal 712)) /\ answer 0 7 s' = Some (Some (OVal 715)).
Proof. exact assigned_shared. Qed.
Print Assumptions C50_assign_refuted.
(** As long as no data and no preference is changed, every answer of every engine, copied or assigned in any way, is the
    result of its own data and preferences. *)
Theorem C50_unchanged_engines_partial : forall (Data Pref Key Val : Type) (keq : Key -> Key -> bool) (calc : Data -> Pref -> Key -> comp Key Val),
  (forall k k', keq k k' = true <-> k = k') -> forall n i h s x a k v s',
  (forall o, In o h -> unchanging o) -> erun keq calc n h (est0 i) = Some s -> ev s x = Some a ->
  (estep keq calc n (ECall x k) s = Some (Some (OVal v), s') \/ estep keq calc n (EObj x k) s = Some (Some (OVal v), s')) ->
  den calc (e_data (eh s a)) (e_pref (eh s a)) (calc (e_data (eh s a)) (e_pref (eh s a)) k) v.
Proof. exact @unchanged_engines_right. Qed.
Print Assumptions C50_unchanged_engines_partial.
Example C50_unchanged_engines_example : exists s, wrun [ENew 0 1 2; ECopy 1 0; ENew 2 3 4; ECall 1 7; ECopy 3 1; EAssign 2 3; EKill 1; ECall 2 8] w0 = Some s /\
  answer 2 7 s = Some (Some (OVal 712)) /\ answer 3 9 s = Some (Some (OVal 912)) /\ den wcalc 1 2 (wcalc 1 2 9) 912.
Proof. assert (D : den wcalc 1 2 (wcalc 1 2 9) 912) by (apply (den_ask wcalc 1 2 0 _ 12); constructor). revert D. generalize (den wcalc 1 2 (wcalc 1 2 9) 912). intros Q D. apply run_to. vm_compute. repeat split. exact D. Qed.

(** An output shows the results its batch has now. *)
Theorem C50_output_current : forall (R : Type) h1 h2 s1 s2 s3 (i : R) o b f,
  brun h1 (bst0 i) = Some s1 -> bstep (BCalc o b f) s1 = Some s2 -> brun h2 s2 = Some s3 ->
  (forall x, In x h2 -> ~ o_rebinds x o /\ ~ b_rebinds x b) -> see_o s3 o = see_b s3 b /\ see_o s3 o <> None.
Proof. exact @output_shows_current. Qed.
Print Assumptions C50_output_current.
(** so it does not keep its own when the batch computes again *)
Theorem C50_output_refuted : exists s s', brun [BNew 0 0; BCalc 0 0 (fun _ => 11)] (bst0 0) = Some s /\ brun [BCalc 1 0 (fun _ => 22)] s = Some s' /\
  see_o s 0 = Some 11 /\ see_o s' 0 = Some 22.
Proof. exact output_overwritten. Qed.
Print Assumptions C50_output_refuted.
(** it keeps them while no batch is copied and its batch computes nothing *)
Theorem C50_output_partial : forall (R : Type) h1 h2 s1 s2 s3 (i : R) o b f,
  brun h1 (bst0 i) = Some s1 -> bstep (BCalc o b f) s1 = Some s2 -> brun h2 s2 = Some s3 ->
  (forall x, In x h1 -> match x with BCopy _ _ => False | _ => True end) ->
  (forall x, In x h2 -> quiet x b /\ ~ o_rebinds x o) -> see_o s3 o = see_o s2 o.
Proof. exact @output_stays. Qed.
Print Assumptions C50_output_partial.
Example C50_output_example : exists s s', brun [BNew 0 0; BNew 1 0; BCalc 0 0 (fun _ => 11)] (bst0 0) = Some s /\ brun [BCalc 1 1 (fun _ => 22); OCopy 2 0] s = Some s' /\
  see_o s' 0 = Some 11 /\ see_o s' 1 = Some 22 /\ see_o s' 2 = Some 11.
Proof. wit. Qed.
