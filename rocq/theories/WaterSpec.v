(** What correctness of the water property functions means, independent of their formulas. *)
From Coq Require Import Reals.
From Coquelicot Require Import Coquelicot.
From Verif Require Import WaterModel.
Open Scope R_scope.

(** [differentiable_pt_lim f x y a b] (Coquelicot): f is differentiable at (x,y) with partial derivatives a and b *)
Notation diff2 := differentiable_pt_lim.

(** the stored derivatives of the Helmholtz energy are its derivatives: first order, second order, third order *)
Definition helm1 (H : R -> R -> helm) (T D : R) : Prop :=
  diff2 (fun t d => h0 (H t d)) T D (hT (H T D)) (hD (H T D)).
Definition helm2 (H : R -> R -> helm) (T D : R) : Prop :=
  diff2 (fun t d => hT (H t d)) T D (hTT (H T D)) (hTD (H T D)) /\ diff2 (fun t d => hD (H t d)) T D (hTD (H T D)) (hDD (H T D)).
Definition helm3 (H : R -> R -> helm) (T D : R) : Prop :=
  diff2 (fun t d => hTT (H t d)) T D (hTTT (H T D)) (hTTD (H T D)) /\ diff2 (fun t d => hTD (H t d)) T D (hTTD (H T D)) (hTDD (H T D)) /\
  diff2 (fun t d => hDD (H t d)) T D (hTDD (H T D)) (hDDD (H T D)).
(** third order except the third temperature derivative, which nothing reads *)
Definition helm3' (H : R -> R -> helm) (T D : R) : Prop :=
  is_derive (fun d : R => hTT (H T d)) D (hTTD (H T D)) /\ diff2 (fun t d => hTD (H t d)) T D (hTTD (H T D)) (hTDD (H T D)) /\
  diff2 (fun t d => hDD (H t d)) T D (hTDD (H T D)) (hDDD (H T D)).
(** third order without any derivative by temperature and twice by density *)
Definition helm3'' (H : R -> R -> helm) (T D : R) : Prop :=
  diff2 (fun t d => hTT (H t d)) T D (hTTT (H T D)) (hTTD (H T D)) /\ is_derive (fun t : R => hTD (H t D)) T (hTTD (H T D)) /\
  is_derive (fun d : R => hDD (H T d)) D (hDDD (H T D)).

(** [rho] is a continuous solution of P = rho^2 dA/drho around (T,P) *)
Definition density_of (H : R -> R -> helm) (rho : R -> R -> R) (T P : R) : Prop :=
  continuity_2d_pt rho T P /\ locally_2d (fun t p => rho t p * rho t p * hD (H t (rho t p)) = p) T P.
(** the state returned along that solution *)
Definition along (H : R -> R -> helm) (rho : R -> R -> R) (t p : R) : wstate := waterThermoState t p (rho t p) (H t (rho t p)).

(** Born functions against the dielectric constant, pressures in units of which [c] make a Pa-based derivative *)
Definition born_first (e : R -> R -> electro) (T P : R) : Prop :=
  diff2 (fun t p => e_ (e t p)) T P (e_T (e T P)) (e_P (e T P)) /\ diff2 (fun t p => b_Z (e t p)) T P (b_Y (e T P)) (b_Q (e T P)).
Definition born_second (e : R -> R -> electro) (T P : R) : Prop :=
  diff2 (fun t p => e_T (e t p)) T P (e_TT (e T P)) (e_TP (e T P)) /\ diff2 (fun t p => e_P (e t p)) T P (e_TP (e T P)) (e_PP (e T P)) /\
  diff2 (fun t p => b_Y (e t p)) T P (b_X (e T P)) (b_U (e T P)) /\ diff2 (fun t p => b_Q (e t p)) T P (b_U (e T P)) (b_N (e T P)).
(** density with first and second derivatives *)
Definition dens_first (w : R -> R -> wstate) (T P : R) : Prop := diff2 (fun t p => w_d (w t p)) T P (w_dT (w T P)) (w_dP (w T P)).
Definition dens_second (w : R -> R -> wstate) (T P : R) : Prop :=
  exists dTT, w_dTT (w T P) = Some dTT /\ diff2 (fun t p => w_dT (w t p)) T P dTT (w_dTP (w T P)) /\ diff2 (fun t p => w_dP (w t p)) T P (w_dTP (w T P)) (w_dPP (w T P)).
