(** C112: the catalogue of methods *)
From Coq Require Import String List ZArith Reals.
From Verif Require Import UnitsModel JsonModel JsonSpec Catalog CatalogPf.
Import ListNotations.
Local Open Scope string_scope.

(** the catalogue is written for exactly those tables in which each offered method has an entry; it
    then has one line per method, in order *)
Theorem C112_total : forall par off, (exists L, catalogue par off = Some L) <-> (forall k n, In (k, n) off -> at_ k par <> None).
Proof. exact catalogue_total. Qed.
Print Assumptions C112_total.
Theorem C112_lines : forall par off L, catalogue par off = Some L ->
  Forall2 (fun kn j => exists ps, at_ (fst kn) par = Some ps /\ j = line (fst kn) (snd kn) ps) off L.
Proof. exact catalogue_lines. Qed.
Print Assumptions C112_lines.
(** this is so for the tables of the library: neither function throws *)
Theorem C112_no_exception : (exists L, catalogue par_s offered_s = Some L) /\ (exists L, catalogue par_r offered_r = Some L).
Proof. exact no_exception. Qed.
Print Assumptions C112_no_exception.
Example C112_total_example : catalogue par_s [(7, "general_equation_of_state")]%Z = None /\
  catalogue par_s [(2, "solute_hkf88_gems"); (34, "mv_constant")]%Z =
    Some [JObj [("method", JObj [("2", JStr "solute_hkf88_gems")]); ("eos_hkf_coeffs", JObj [("values", JArr [])])]; JObj [("method", JObj [("34", JStr "mv_constant")])]].
Proof. split; reflexivity. Qed.

(** any lines of the catalogue, in any order, are accepted by the readers as TPMethods and select the
    methods they name *)
Theorem C112_template : forall convert,
  (forall ls ks, Forall2 (fun j k => exists n ps, In (k, n) offered_s /\ at_ k par_s = Some ps /\ j = line k n ps) ls ks -> forall x s,
    exists x', methodsS convert ls x s = (set_meth (fun m => fold_left (fun m k => setM (s_method k) m) ks m) s, JOk x')) /\
  (forall ls ks, Forall2 (fun j k => exists n ps, In (k, n) offered_r /\ at_ k par_r = Some ps /\ j = line k n ps) ls ks -> forall x s,
    exists x', methodsR convert ls x s = (set_rmeth (fun m => fold_left (fun m k => setM (r_method k) m) ks m) s, JOk x')).
Proof. exact templates. Qed.
Print Assumptions C112_template.
Example C112_template_example : Forall2 (fun j k => exists n ps, In (k, n) offered_s /\ at_ k par_s = Some ps /\ j = line k n ps)
  [JObj [("method", JObj [("34", JStr "mv_constant")])]; JObj [("method", JObj [("2", JStr "solute_hkf88_gems")]); ("eos_hkf_coeffs", JObj [("values", JArr [])])]] [34; 2]%Z.
Proof.
  constructor; [|constructor; [|constructor]].
  - exists "mv_constant", [""]. unfold offered_s. cbn [In]. repeat split; tauto.
  - exists "solute_hkf88_gems", ["eos_hkf_coeffs"]. unfold offered_s. cbn [In]. repeat split; tauto.
Qed.

(** but a line used as it stands, with its empty list of values, takes away the coefficients that an
    earlier entry gave *)
Theorem C112_emptied_refuted : forall convert,
  (forall k n x, n <> "cp_ft_equation" -> thermoParamSubst convert (line k n ["eos_hkf_coeffs"]) n x =
    JOk (mkPS (p_ak x) (p_crit x) [] (p_int x) (p_cp x) (p_ph x) (p_landau x) (p_hp x) (p_exp x) (p_comp x))) /\
  (forall k n x, thermoParamReac convert (line k n ["logk_ft_coeffs"]) x = JOk (mkPR [] (q_cp x) (q_v x) (q_rb x) (q_fm x) (q_dm x))).
Proof. exact emptied_both. Qed.
Print Assumptions C112_emptied_refuted.
Example C112_emptied_example : at_ 3%Z par_s = Some ["eos_hkf_coeffs"] /\ at_ 6%Z par_r = Some ["logk_ft_coeffs"].
Proof. split; reflexivity. Qed.
