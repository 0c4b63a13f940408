(** The volume of a reaction as a function of T and P: Reactions/Volume_function_of_T.cpp 7-92, its wrapper ThermoModelsReaction.cpp 191-200, and the place the
    engine calls the wrapper (EngineModel.reacP, ThermoEngine.cpp 728-738).  ThermoScalars with their derivatives; aC and aE (18-39), which nothing uses, are left out.  Definitions only.  *)
From Coq Require Import List Reals.
From Verif Require Import ThermoScalarModel EngineModel.
Import ListNotations.
Open Scope R_scope.

Section Vol.
(** TK, Pbar in bar; [Tst], [Pst], [Vst] as the record has them: referenceP is in Pa (11) *)
Variables (TK Pbar : TS) (Tst Pst : R) (Vst : TS).
Definition volP : TS := ts_mul Vst (ts_sub_d Pbar Pst).
Definition volT : TS := ts_mul Vst (ts_sub_d TK Tst).
(** 46-77: what the switch adds to the volume *)
Definition vol_add (i : nat) (a : R) (V : TS) : TS :=
  match i with
  | 0%nat => ip_add V (d_mul_ts a volT)
  | 1%nat => ip_add V (ts_mul (d_mul_ts a volT) (ts_sub_d TK Tst))
  | 2%nat => ip_add V (ts_mul (ts_mul (d_mul_ts a volT) (ts_sub_d TK Tst)) (ts_sub_d TK Tst))
  | 3%nat => ip_add V (d_mul_ts a volP)
  | 4%nat => ip_add V (ts_mul (d_mul_ts a volP) (ts_sub_d Pbar Pst))
  | _ => V
  end.
Fixpoint vol_loop (i : nat) (a : list R) (V : TS) : TS :=
  match a with [] => V | x :: l => vol_loop (Datatypes.S i) l (vol_add i x V) end.
(** 40-44, 81-85 *)
Definition vol_fT (a : list R) (t : TPR) : TPR :=
  let V := vol_loop 0 a (ip_add (rV t) volP) in
  let H := ip_add (rH t) volP in
  let ln := ip_sub (lnK t) (ts_div (ts_mul V (ts_sub_d Pbar Pst)) (d_mul_ts R_CONSTANT TK)) in
  let s := ts_div (ts_sub H (rG t)) TK in
  let u := ts_sub H (ts_mul Pbar V) in
  mkTPR ln (ts_div_d ln lg_to_ln) (rG t) (ts_sub u (ts_mul TK s)) u H s V (rCp t) (rCv t).
End Vol.
(** the call that is commented out, ThermoModelsReaction.cpp 193-194, 199; [T] in K, [P] in Pa *)
Definition vol_at (r : Reac) (Tref : R) (a : list R) (T P : R) (t : TPR) : TPR := vol_fT (Temperature T) (ip_div_d (Pressure P) 100000) Tref (r_refP r) (rV (r_ref r)) a t.
(** the wrapper as it is, 196-197 *)
Definition Reaction_Vol_fT (r : Reac) (T P : R) : option TPR := let _ := (r, T, P) in Some tpr_default.
