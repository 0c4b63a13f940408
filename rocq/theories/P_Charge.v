(** C111: charges taken from formulas *)
From Coq Require Import String List ZArith QArith Lia.
From Verif Require Import DatabaseModel Charge ChargePf.
Import ListNotations.
Open Scope string_scope.

(** the call returns exactly when every formula can be read; then each record has the charge of its
    formula and is otherwise as before, under the same key *)
Theorem C111_all : forall (A : Type) parse (m : smap (chsub A)),
  (returned parse m = true <-> (forall k s, In (k, s) m -> parse (cs_formula s) <> None)) /\
  (returned parse m = true ->
   Forall2 (fun p p' => fst p' = fst p /\ cs_symbol (snd p') = cs_symbol (snd p) /\
     cs_formula (snd p') = cs_formula (snd p) /\ cs_rest (snd p') = cs_rest (snd p) /\
     exists q, parse (cs_formula (snd p)) = Some q /\ cs_charge (snd p') = to_int q) m (after parse m)).
Proof. exact all_spec. Qed.
Print Assumptions C111_all.
Example C111_all_example : returned ex_parse ex_m = true /\
  after ex_parse ex_m = [("Ca+2", mkCS "Ca+2" "Ca+2" 2%Z 7%Z); ("Cl-", mkCS "Cl-" "Cl-" (-1)%Z 8%Z)].
Proof. split; reflexivity. Qed.

(** the charge the record gets is that of the formula when this is whole, and else the next whole
    number towards zero *)
Theorem C111_whole : forall q, (forall z, (inject_Z z == q)%Q -> to_int q = z) /\
  ((0 <= q)%Q -> (inject_Z (to_int q) <= q)%Q /\ (q < inject_Z (to_int q + 1))%Q) /\
  ((q <= 0)%Q -> (q <= inject_Z (to_int q))%Q /\ (inject_Z (to_int q - 1) < q)%Q).
Proof. exact to_int_spec. Qed.
Print Assumptions C111_whole.
Example C111_whole_example : to_int (-4 # 2) = (-2)%Z /\ to_int (-3 # 2) = (-1)%Z.
Proof. split; reflexivity. Qed.

(** a second call changes nothing *)
Theorem C111_again : forall (A : Type) parse (m : smap (chsub A)), returned parse m = true -> after parse (after parse m) = after parse m.
Proof. exact again. Qed.
Print Assumptions C111_again.
Example C111_again_example : returned ex_parse ex_half = true /\ after ex_parse ex_half <> ex_half.
Proof. split; [reflexivity|discriminate]. Qed.

(** ... but warns once more of each formula whose charge is not whole, as the record holds an int *)
Theorem C111_quiet_refuted : forall (A : Type) parse (m : smap (chsub A)), returned parse m = true ->
  forall sy c q, In (sy, c, q) (warns parse (after parse m)) <->
  (~ (inject_Z (to_int q) == q)%Q /\ c = to_int q /\ exists k s, In (k, s) m /\ cs_symbol s = sy /\ parse (cs_formula s) = Some q).
Proof. exact again_warns. Qed.
Print Assumptions C111_quiet_refuted.
Example C111_quiet_example : cs_charge (snd (hd ("", mkCS "" "" 0%Z 0%Z) (after ex_parse ex_half))) = 1%Z /\
  warns ex_parse (after ex_parse ex_half) = [("X", 1%Z, (3 # 2)%Q)].
Proof. split; reflexivity. Qed.

(** a formula that cannot be read ends the call with an exception: the records before it are changed,
    it and those after it are not *)
Theorem C111_atomic_refuted : forall (A : Type) parse m1 k (s : chsub A) m2,
  (forall k' s', In (k', s') m1 -> parse (cs_formula s') <> None) -> parse (cs_formula s) = None ->
  returned parse (m1 ++ (k, s) :: m2)%list = false /\
  exists r, after parse (m1 ++ (k, s) :: m2)%list = (r ++ (k, s) :: m2)%list /\
  Forall2 (fun p p' => fst p' = fst p /\ cs_symbol (snd p') = cs_symbol (snd p) /\
     cs_formula (snd p') = cs_formula (snd p) /\ cs_rest (snd p') = cs_rest (snd p) /\
     exists q, parse (cs_formula (snd p)) = Some q /\ cs_charge (snd p') = to_int q) m1 r.
Proof. exact stops. Qed.
Print Assumptions C111_atomic_refuted.
Example C111_atomic_example : returned ex_parse ex_bad = false /\ map (fun p => cs_charge (snd p)) ex_bad = [0; 3; 5]%Z /\
  map (fun p => cs_charge (snd p)) (after ex_parse ex_bad) = [2; 3; 5]%Z.
Proof. repeat split; reflexivity. Qed.

(** there is one warning for each record whose charge differs from that of its formula *)
Theorem C111_warnings : forall (A : Type) parse (m : smap (chsub A)), returned parse m = true ->
  forall sy c q, In (sy, c, q) (warns parse m) <->
  (c = to_int q /\ exists k s, In (k, s) m /\ cs_symbol s = sy /\ parse (cs_formula s) = Some q /\ ~ (inject_Z (cs_charge s) == q)%Q).
Proof. exact warn_spec. Qed.
Print Assumptions C111_warnings.
(** ... but what it calls the charge of the record is the new one: never that which was replaced *)
Theorem C111_old_charge_refuted : forall (A : Type) parse (m : smap (chsub A)), returned parse m = true ->
  forall sy c z, In (sy, c, inject_Z z) (warns parse m) -> c = z /\ exists k s, In (k, s) m /\ cs_symbol s = sy /\ cs_charge s <> c.
Proof. exact warn_wrong. Qed.
Print Assumptions C111_old_charge_refuted.
Example C111_warnings_example : warns ex_parse ex_m = [("Ca+2", 2%Z, inject_Z 2)] /\ map (fun p => cs_charge (snd p)) ex_m = [0; -1]%Z.
Proof. split; reflexivity. Qed.
