(** What the transport properties ought to be.  The tables are those of the code.  *)
From Coq Require Import List Reals.
From Verif Require Import HgkSat HgkTrans.
Import ListNotations.
Open Scope R_scope.

(** Watson, Basu and Sengers (1980) away from the critical point: the viscosity of the dilute gas times an exponential of a double sum
    over powers of 1/T - 1 and D - 1 *)
Definition poly3 (a : list R) (x : R) : R := sum_f_R0 (fun i => nth i a 0 * x ^ i) 3.
Definition gas (T : R) : R := 1 / 10 ^ 6 * sqrt T / poly3 va (1 / T).
Definition watson (Tk rho : R) : R :=
  let T := Tk / (64727 / 100) in let D := rho / (317763 / 1000) in
  gas T * exp (D * sum_f_R0 (fun i => sum_f_R0 (fun j => nth i (nth j vb nil) 0 * (1 / T - 1) ^ i * (D - 1) ^ j) 6) 5).
(** Sengers and others (1984), the part without the critical enhancement *)
Definition sengers (Tk rho : R) : R :=
  let T := Tk / (64727 / 100) in let D := rho / (317763 / 1000) in
  sqrt T / poly3 aL (1 / T) * exp (D * sum_f_R0 (fun i => sum_f_R0 (fun j => nth j (nth i bL nil) 0 * (1 / T - 1) ^ i * (D - 1) ^ j) 5) 4).
(** the enhancement of the viscosity is off *)
Definition ordinary (Tk : R) : Prop := Tk < 6453 / 10 \/ 6526 / 10 < Tk.
(** the limits of the two correlations, bar and kelvin *)
Definition visc_range (Tk P : R) : Prop := P <= 5000 /\ (Tk <= 42315 / 100 \/ P <= 3500) /\ (Tk <= 87315 / 100 \/ P <= 3000) /\ Tk <= 117315 / 100.
Definition cond_range (Tk P : R) : Prop := P <= 4000 /\ (Tk <= 39815 / 100 \/ P <= 2000) /\ (Tk <= 67315 / 100 \/ P <= 1500) /\ Tk <= 107315 / 100.
Definition visc_beyond (Tk P : R) : Prop := 500001 / 100 < P \/ (350001 / 100 < P /\ 42316 / 100 < Tk) \/ (300001 / 100 < P /\ 87316 / 100 < Tk) \/ 117316 / 100 < Tk.
Definition cond_beyond (Tk P : R) : Prop := 400001 / 100 < P \/ (200001 / 100 < P /\ 39816 / 100 < Tk) \/ (150001 / 100 < P /\ 67316 / 100 < Tk) \/ 107316 / 100 < Tk.
(** the rows without a power of 1/T - 1, and the sum of the others *)
Definition row0 (D : R) : R := sum_f_R0 (fun j => nth 0 (nth j vb []) 0 * (D - 1) ^ j) 6.
Definition lost (T D : R) : R := sum_f_R0 (fun i => sum_f_R0 (fun j => nth (S i) (nth j vb []) 0 * (1 / T - 1) ^ S i * (D - 1) ^ j) 6) 4.
Definition rowL (D : R) : R := sum_f_R0 (fun j => nth j (nth 0 bL []) 0 * (D - 1) ^ j) 5.
(** the enhancement of the conductivity, with those rows of the older viscosity *)
Definition crit_part (Tk rho alph beta : R) : R :=
  let T := Tk / (64727 / 100) in let D := rho / (317763 / 1000) in
  37711 / 10 ^ 12 / (gas T * exp (D * sum_f_R0 (fun j => nth j (nth 0 bu []) 0 * (D - 1) ^ j) 4)) * (T / D) ^ 2 * (64727 / 100 / 22115000 * alph / beta) ^ 2 *
  pw (22115000 / (317763 / 1000) ^ 2 * beta * rho ^ 2) (4678 / 10000) * pw D (5 / 10) * exp (- (1866 / 100) * (T - 1) ^ 2 - (D - 1) ^ 4).
