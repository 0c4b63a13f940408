(** Small programs that show what is shared. *)
From Coq Require Import List Bool Arith String Lia.
From Verif Require Import AliasModel AliasProofs AliasEngine.
Import ListNotations.

(** data: a number read from the database; preference: the number of the solvent; request 0 is the solvent, request k > 0 a solute that asks for the solvent *)
Definition wcalc (d p k : nat) : comp nat nat := match k with 0 => Ret (10 * d + p) | _ => Ask 0 (fun v => Ret (100 * k + v)) end.
Definition wrun := erun Nat.eqb wcalc 3.
Definition wstep := estep Nat.eqb wcalc 3.
Definition w0 : est nat nat nat nat := est0 (mkImpl 0 0 0 0).
Definition answer (x : nat) (k : nat) (s : est nat nat nat nat) : option (option (outc nat)) := option_map fst (wstep (ECall x k) s).
Definition answer_obj (x : nat) (k : nat) (s : est nat nat nat nat) : option (option (outc nat)) := option_map fst (wstep (EObj x k) s).

Lemma run_to : forall (T : Type) (o : option T) (Q : T -> Prop), match o with Some s => Q s | None => False end -> exists s, o = Some s /\ Q s.
Proof. intros T [s|] Q H; [exists s; now split|contradiction]. Qed.
Lemma run_to2 : forall (T U : Type) (o : option T) (p : T -> option U) (Q : T -> U -> Prop),
  match o with Some s => match p s with Some s' => Q s s' | None => False end | None => False end -> exists s s', o = Some s /\ p s = Some s' /\ Q s s'.
Proof. intros T U [s|] p Q H; [|contradiction]. destruct (p s) as [s'|] eqn:E; [exists s, s'; now repeat split|contradiction]. Qed.
Ltac wit := first [apply run_to2|apply run_to]; vm_compute; repeat apply conj; reflexivity.
Lemma own_change_ignored : exists s s', wrun [ENew 0 1 2; ECopy 1 0; EPref 1 (fun _ => 5); EData 1 (fun _ => 3)] w0 = Some s /\
  wrun [ENew 2 3 5] s = Some s' /\ answer 1 7 s' = Some (Some (OVal 712)) /\ answer_obj 1 7 s' = Some (Some (OVal 712)) /\ answer 2 7 s' = Some (Some (OVal 735)).
Proof. wit. Qed.
Lemma source_change_followed : exists s s', wrun [ENew 0 1 2; ECopy 1 0] w0 = Some s /\ wrun [EPref 0 (fun _ => 5)] s = Some s' /\
  answer 1 7 s = Some (Some (OVal 712)) /\ answer 1 7 s' = Some (Some (OVal 715)).
Proof. wit. Qed.
Lemma source_gone : exists s, wrun [ENew 0 1 2; ECopy 1 0; EKill 0] w0 = Some s /\ answer 1 7 s = Some (Some OUB) /\ answer_obj 1 7 s = Some (Some OUB).
Proof. wit. Qed.
Lemma assigned_shared : exists s s', wrun [ENew 0 1 2; ENew 1 3 4; EAssign 1 0] w0 = Some s /\ wrun [EPref 1 (fun _ => 5)] s = Some s' /\
  answer 0 7 s = Some (Some (OVal 712)) /\ answer 0 7 s' = Some (Some (OVal 715)).
Proof. wit. Qed.
Lemma cache_shared : exists s s', wrun [ENew 0 1 2; ECopy 1 0] w0 = Some s /\ wrun [ECall 1 7; EPref 0 (fun _ => 5)] s = Some s' /\
  answer 0 7 s' = Some (Some (OVal 712)) /\ (exists s2, wrun [EPref 0 (fun _ => 5)] s = Some s2 /\ answer 0 7 s2 = Some (Some (OVal 715))).
Proof.
  apply run_to2.
  match goal with |- match ?a with _ => _ end => destruct a as [s|] eqn:E; [|vm_compute in E; discriminate E] end. vm_compute in E. injection E as <-.
  match goal with |- match ?a with _ => _ end => destruct a as [s|] eqn:E; [|vm_compute in E; discriminate E] end. vm_compute in E. injection E as <-.
  split; [vm_compute; reflexivity|]. apply run_to. vm_compute. reflexivity.
Qed.
Lemma output_overwritten : exists s s', brun [BNew 0 0; BCalc 0 0 (fun _ => 11)] (bst0 0) = Some s /\ brun [BCalc 1 0 (fun _ => 22)] s = Some s' /\
  see_o s 0 = Some 11 /\ see_o s' 0 = Some 22.
Proof. wit. Qed.
