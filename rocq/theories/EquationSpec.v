(** What the text of a reaction equation means, independent of the parser. *)
From Coq Require Import String Ascii List Bool Reals ZArith.
From Verif Require Import EquationModel.
Import ListNotations.
Open Scope list_scope.
Open Scope R_scope.

(** a species with its coefficient as written: digits, or digits . digits *)
Record term : Type := mkTerm { t_coef : option (text * option text); t_gap : text; t_sym : text }.
Definition coef_text (c : option (text * option text)) : text :=
  match c with
  | None => []
  | Some (d1, None) => d1
  | Some (d1, Some d2) => d1 ++ "."%char :: d2
  end.
Definition term_text (t : term) : text := coef_text (t_coef t) ++ t_gap t ++ t_sym t.
(** the number written with these digits *)
Fixpoint digits_value (s : text) : R :=
  match s with [] => 0 | c :: s' => INR (nat_of_ascii c - 48) * 10 ^ (length s') + digits_value s' end.
Definition coef_value (c : option (text * option text)) : R :=
  match c with
  | None => 1
  | Some (d1, None) => digits_value d1
  | Some (d1, Some d2) => digits_value d1 + digits_value d2 / 10 ^ (length d2)
  end.
Definition all (f : ascii -> bool) (s : text) : Prop := forall c, In c s -> f c = true.
(** an e or E followed by a number, possibly signed *)
Definition looks_exponent (s : text) : bool :=
  match s with
  | e :: c :: r => (ceq e "e" || ceq e "E") &&
      (is_digit c || ((ceq c "-" || ceq c "+") && match r with d :: _ => is_digit d | [] => false end))
  | _ => false
  end.
(** a symbol starts with a letter or bracket and has no white space and no "=" *)
Definition sym_ok (s : text) : Prop :=
  match s with [] => False | c :: _ => is_alpha c = true \/ c = "("%char end /\
  all (fun c => negb (is_ws c) && negb (ceq c "=")) s.
Definition term_ok (t : term) : Prop :=
  sym_ok (t_sym t) /\ all is_blank (t_gap t) /\
  match t_coef t with
  | None => t_gap t = []
  | Some (d1, d2) => d1 <> [] /\ all is_digit d1 /\ match d2 with Some d => all is_digit d | None => True end /\
      looks_exponent (t_sym t) = false /\ match t_sym t with c :: _ => c <> "x"%char /\ c <> "X"%char | [] => True end
  end.
(** one side: terms separated by + with white space on both sides of it *)
Definition sep := (text * text)%type.
Definition sep_ok (s : sep) : Prop := fst s <> [] /\ snd s <> [] /\ all is_ws (fst s) /\ all is_ws (snd s).
Definition sep_text (s : sep) : text := fst s ++ "+"%char :: snd s.
Record side : Type := mkSide { s_lead : text; s_first : term; s_more : list (sep * term); s_trail : text }.
Definition side_text (s : side) : text :=
  s_lead s ++ term_text (s_first s) ++ flat_map (fun p => sep_text (fst p) ++ term_text (snd p)) (s_more s) ++ s_trail s.
Definition side_terms (s : side) : list term := s_first s :: map snd (s_more s).
Definition side_ok (s : side) : Prop :=
  all is_blank (s_lead s) /\ all is_blank (s_trail s) /\ (forall t, In t (side_terms s) -> term_ok t) /\
  (forall p, In p (s_more s) -> sep_ok (fst p)).
Definition equation_text (l r : side) : text := side_text l ++ "="%char :: side_text r.

(** all occurrences of species with signed coefficients, left to right *)
Definition occurrences (l r : side) : list (string * R) :=
  map (fun t => (string_of_list_ascii (t_sym t), - coef_value (t_coef t))) (side_terms l) ++
  map (fun t => (string_of_list_ascii (t_sym t), coef_value (t_coef t))) (side_terms r).
(** what balance means: the sum over all occurrences *)
Definition net (x : string) (l : list (string * R)) : R :=
  fold_right (fun p a => (if String.eqb (fst p) x then snd p else 0) + a) 0 l.
Fixpoint last_of (x : string) (l : list (string * R)) (d : option R) : option R :=
  match l with [] => d | p :: l' => last_of x l' (if String.eqb (fst p) x then Some (snd p) else d) end.
Definition dval (d : dec) : R := IZR (fst d) * powerRZ 10 (snd d).

(** numbers in front of a species, in every form std::stod reads except hexadecimal, inf and nan:
    sign, digits, fraction, exponent with its own sign; or a sign alone *)
Record number : Type := mkNumber {
  n_sign : option bool;                          (* Some true: minus; Some false: plus *)
  n_mant : option (text * option text);          (* as in [t_coef] *)
  n_exp : option (bool * option bool * text) }.  (* capital E; sign; digits *)
Definition sign_text (s : option bool) : text := match s with None => [] | Some true => ["-"%char] | Some false => ["+"%char] end.
Definition exp_text (e : option (bool * option bool * text)) : text :=
  match e with None => [] | Some (u, s, d) => (if u then "E"%char else "e"%char) :: sign_text s ++ d end.
Definition number_text (n : number) : text := sign_text (n_sign n) ++ coef_text (n_mant n) ++ exp_text (n_exp n).
Definition sign_value (s : option bool) : R := match s with Some true => -1 | _ => 1 end.
Definition exp_value (e : option (bool * option bool * text)) : R :=
  match e with
  | None => 1
  | Some (_, Some true, d) => / Rpower 10 (digits_value d)
  | Some (_, _, d) => Rpower 10 (digits_value d)
  end.
Definition number_value (n : number) : R := sign_value (n_sign n) * coef_value (n_mant n) * exp_value (n_exp n).
Definition number_ok (n : number) (sym : text) : Prop :=
  match n_mant n with
  | None => n_exp n = None
  | Some (d1, d2) => d1 <> [] /\ all is_digit d1 /\ match d2 with Some d => all is_digit d | None => True end /\
      match n_exp n with
      | None => looks_exponent sym = false /\ match sym with c :: _ => c <> "x"%char /\ c <> "X"%char | [] => True end
      | Some (_, _, d) => d <> [] /\ all is_digit d
      end
  end.
