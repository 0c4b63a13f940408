(** What the heat-capacity integration should do. *)
From Coq Require Import List Reals.
From Coquelicot Require Import Coquelicot.
From Verif Require Import CpModel.
Import ListNotations.
Open Scope R_scope.

(** [q T] are the properties reported at T: H' = Cp, S' = Cp/T, G' = -S *)
Record cp_consistent (q : R -> cprop) (T : R) : Prop := mkCC {
  cc_H : is_derive (fun t : R => pH (q t)) T (pCp (q T));
  cc_S : is_derive (fun t : R => pS (q t)) T (pCp (q T) / T);
  cc_G : is_derive (fun t : R => pG (q t)) T (- pS (q T)) }.

(** intervals as pairs; contiguous and rising *)
Fixpoint contiguous (l : list (R * R)) : Prop :=
  match l with
  | [] => True
  | (lo, hi) :: l' => lo < hi /\ match l' with [] => True | (lo', _) :: _ => lo' = hi end /\ contiguous l'
  end.
Definition rows (l : list (R * R)) : list (list R) := map (fun p => [fst p; snd p]) l.
(** all coefficient vectors have one length *)
Definition rect (l : list (list R)) : Prop := exists n, List.Forall (fun c => length c = n) l.
(** one phase transition per inner boundary, at the boundary, with dH = T dS *)
Definition trans_ok (l : list (R * R)) (t : list (list R)) : Prop :=
  List.Forall2 (fun p r => exists dS, exists dH, exists rest, r = fst p :: dS :: dH :: rest /\ dH = fst p * dS) (tl l) t.

(** a well-formed record over the intervals [l] *)
Record cp_rec (d : cpdat) (l : list (R * R)) : Prop := mkRec {
  cr_ints : ints d = rows l;
  cr_cont : contiguous l;
  cr_pos : forall p, In p l -> 0 < fst p;
  cr_Tr : 0 < cTr d;
  cr_len : length (coeffs d) = length l;
  cr_rect : rect (coeffs d);
  cr_trans : trans_ok l (trans d) }.
(** interval [k] is the right one for T: T is in it, or below all intervals and it is the first, or
    above all and it is the last *)
Definition chosen (l : list (R * R)) (k : nat) (T : R) : Prop :=
  exists p, nth_error l k = Some p /\ (fst p <= T < snd p \/ (k = 0%nat /\ T < fst p) \/ (S k = length l /\ snd p < T)).
(** [chosen], away from the bounds *)
Definition inside (l : list (R * R)) (k : nat) (T : R) : Prop :=
  exists p, nth_error l k = Some p /\ (fst p < T < snd p \/ (k = 0%nat /\ T < fst p) \/ (S k = length l /\ snd p < T)).
(** the reported properties, with zeros where there are none *)
Definition val_of (r : cres cprop) : cprop := match r with COk q => q | _ => mkP 0 0 0 0 0 end.
(** the heat capacity function, with missing coefficients 0 *)
Definition cp_poly (c : list R) (T : R) : R :=
  nth 0 c 0 + nth 1 c 0 * T + nth 2 c 0 / T ^ 2 + nth 3 c 0 / sqrt T + nth 4 c 0 * T ^ 2 + nth 5 c 0 * T ^ 3 +
  nth 6 c 0 * T ^ 4 + nth 7 c 0 / T ^ 3 + nth 8 c 0 / T + nth 9 c 0 * sqrt T.
