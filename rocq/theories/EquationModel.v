(** Model of Reaction::fromEquation (Reaction.cpp:67-146).  Definitions only.
    Texts are lists of characters. *)
From Coq Require Import String Ascii List Bool Arith ZArith NArith.
From Verif Require Import DatabaseModel.
Import ListNotations.

Definition text := list ascii.
Definition code (c : ascii) : nat := nat_of_ascii c.
(** isspace / the class \s in the C locale: tab, newline, vertical tab, form feed, return, space *)
Definition is_ws (c : ascii) : bool := (Nat.leb 9 (code c) && Nat.leb (code c) 13) || Nat.eqb (code c) 32.
(** the characters strip_all removes: space, newline, tab (Reaction.cpp:75-77, 93) *)
Definition is_blank (c : ascii) : bool := Nat.eqb (code c) 32 || Nat.eqb (code c) 10 || Nat.eqb (code c) 9.
(** isalpha in the C locale; bytes above 127 are not letters *)
Definition is_alpha (c : ascii) : bool :=
  (Nat.leb 65 (code c) && Nat.leb (code c) 90) || (Nat.leb 97 (code c) && Nat.leb (code c) 122).
Definition is_digit (c : ascii) : bool := Nat.leb 48 (code c) && Nat.leb (code c) 57.
Definition digit (c : ascii) : Z := Z.of_nat (code c - 48).
Definition ceq (a b : ascii) : bool := Ascii.eqb a b.

Fixpoint drop_while (f : ascii -> bool) (s : text) : text :=
  match s with c :: s' => if f c then drop_while f s' else s | [] => [] end.
Fixpoint take_while (f : ascii -> bool) (s : text) : text :=
  match s with c :: s' => if f c then c :: take_while f s' else [] | [] => [] end.

(** Reaction.cpp:67-78: trim, then remove every blank *)
Definition strip_all (s : text) : text :=
  filter (fun c => negb (is_blank c)) (rev (drop_while is_blank (rev (drop_while is_blank s)))).

(** a match of \s+\+\s+ at the head of the text: the rest behind it *)
Definition match_sep (s : text) : option text :=
  match s with
  | c :: _ => if is_ws c then
      match drop_while is_ws s with
      | p :: (q :: _ as r) => if ceq p "+" && is_ws q then Some (drop_while is_ws r) else None
      | _ => None
      end else None
  | [] => None
  end.
(** Reaction.cpp:81-98: std::sregex_token_iterator with -1; an empty last piece is left out,
    which is not observable since empty pieces are skipped.  [n] bounds the length. *)
Fixpoint split_sep (n : nat) (acc s : text) : list text :=
  match n with
  | O => [rev acc]
  | S k => match s with
           | [] => [rev acc]
           | c :: s' => match match_sep s with
                        | Some r => rev acc :: split_sep k [] r
                        | None => split_sep k (c :: acc) s'
                        end
           end
  end.
Definition regexp_split (s : text) : list text := map strip_all (split_sep (S (length s)) [] s).

(** a decimal number: mantissa and exponent of ten *)
Definition dec := (Z * Z)%type.
Definition dneg (d : dec) : dec := (- fst d, snd d)%Z.
Definition numeral (s : text) : Z := fold_left (fun a c => (10 * a + digit c)%Z) s 0%Z.
Inductive stodres : Type := Num (d : dec) (rest : text) | Invalid | NotModelled.
(** std::stod: leading space, sign, digits with point, exponent.  Hexadecimal numbers, inf and
    nan are outside the model ([NotModelled]); overflow is not considered. *)
Definition exponent (s : text) : Z * text :=
  match s with
  | e :: s1 =>
    if ceq e "e" || ceq e "E" then
      let '(sg, s2) := match s1 with
                       | c :: r => if ceq c "-" then ((-1)%Z, r) else if ceq c "+" then (1%Z, r) else (1%Z, s1)
                       | [] => (1%Z, s1) end in
      match take_while is_digit s2 with
      | [] => (0%Z, s)
      | ds => ((sg * numeral ds)%Z, drop_while is_digit s2)
      end
    else (0%Z, s)
  | [] => (0%Z, s)
  end.
Definition stod_unsigned (sg : Z) (s : text) : stodres :=
  let d1 := take_while is_digit s in
  let r1 := drop_while is_digit s in
  let '(d2, r2) := match r1 with
                   | c :: r => if ceq c "." then (take_while is_digit r, drop_while is_digit r) else ([], r1)
                   | [] => ([], r1) end in
  match (d1 ++ d2)%list with
  | [] => match s with c :: _ => if is_alpha c then NotModelled else Invalid | [] => Invalid end
  | ds => match s with
          | z :: x :: _ => if ceq z "0" && (ceq x "x" || ceq x "X") then NotModelled
                           else let '(e, r3) := exponent r2 in Num ((sg * numeral ds)%Z, (e - Z.of_nat (length d2))%Z) r3
          | _ => let '(e, r3) := exponent r2 in Num ((sg * numeral ds)%Z, (e - Z.of_nat (length d2))%Z) r3
          end
  end.
Definition stod (s : text) : stodres :=
  match drop_while is_ws s with
  | c :: r => if ceq c "-" then stod_unsigned (-1) r else if ceq c "+" then stod_unsigned 1 r else stod_unsigned 1 (c :: r)
  | [] => Invalid
  end.

(** Reaction.cpp:101-114 *)
Definition extractCoef (s : text) : stodres :=
  match s with
  | [] => Num (1%Z, 0%Z) s
  | c :: r =>
    if is_alpha c || ceq c "(" then Num (1%Z, 0%Z) s
    else match r with
         | c1 :: _ => if ceq c "+" && (is_alpha c1 || ceq c1 "(") then Num (1%Z, 0%Z) r
                      else if ceq c "-" && (is_alpha c1 || ceq c1 "(") then Num ((-1)%Z, 0%Z) r
                      else stod s
         | [] => stod s
         end
  end.

(** Reaction.cpp:130-136, 139-145: the loop over the pieces; [sg] turns the sign of reactants.
    [None]: stod throws or is outside the model *)
Fixpoint enter (sg : dec -> dec) (ps : list text) (m : smap dec) : option (smap dec) :=
  match ps with
  | [] => Some m
  | p :: ps' => match extractCoef p with
                | Num d [] => enter sg ps' m
                | Num d r => enter sg ps' (mset (string_of_list_ascii r) (sg d) m)
                | _ => None
                end
  end.
(** equation.find("="), substr *)
Fixpoint before_eq (s : text) : text := match s with [] => [] | c :: s' => if ceq c "=" then [] else c :: before_eq s' end.
Fixpoint after_eq (s : text) : option text := match s with [] => None | c :: s' => if ceq c "=" then Some s' else after_eq s' end.
(** Reaction.cpp:116-146.  Without "=" eqpos + 1 wraps to 0: the whole text is also the right
    side.  The map is not cleared first. *)
Definition fromEquation (s : text) (m : smap dec) : option (smap dec) :=
  let right := match after_eq s with Some r => r | None => s end in
  match enter dneg (regexp_split (before_eq s)) m with
  | Some m1 => enter (fun d => d) (regexp_split right) m1
  | None => None
  end.
