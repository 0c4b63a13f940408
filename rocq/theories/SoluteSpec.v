(** What consistency of the functions entering a solute model means, independent of the models' formulas. *)
From Coq Require Import Reals.
From Coquelicot Require Import Coquelicot.
From Verif Require Import SoluteModel.
Open Scope R_scope.

(** The pressure is in bar, the stored pressure derivatives are per Pa: 1 bar is 100000 Pa. *)
(** water: the stored derivatives of the density are its derivatives *)
Definition water_ok (w : R -> R -> wet) (T P : R) : Prop :=
  is_derive (fun t : R => d_ (w t P)) T (d_T (w T P)) /\ is_derive (fun p : R => d_ (w T p)) P (100000 * d_P (w T P)) /\
  is_derive (fun t : R => d_T (w t P)) T (d_TT (w T P)) /\ is_derive (fun t : R => d_P (w t P)) T (d_TP (w T P)) /\
  is_derive (fun p : R => d_P (w T p)) P (100000 * d_PP (w T P)) /\ is_derive (fun p : R => d_T (w T p)) P (100000 * d_TP (w T P)).
(** Born functions *)
Definition born_ok (b : R -> R -> born) (T P : R) : Prop :=
  is_derive (fun t : R => bZ (b t P)) T (bY (b T P)) /\ is_derive (fun p : R => bZ (b T p)) P (100000 * bQ (b T P)) /\
  is_derive (fun t : R => bY (b t P)) T (bX (b T P)).
(** Born coefficient *)
Definition omega_ok (e : R -> R -> elec) (T P : R) : Prop :=
  is_derive (fun t : R => o_w (e t P)) T (o_T (e T P)) /\ is_derive (fun p : R => o_w (e T p)) P (100000 * o_P (e T P)) /\
  is_derive (fun t : R => o_T (e t P)) T (o_TT (e T P)).
(** g function: the derivatives used by the properties *)
Definition g_ok (g : R -> R -> gfun) (T P : R) : Prop :=
  is_derive (fun t : R => g_ (g t P)) T (g_T (g T P)) /\ is_derive (fun p : R => g_ (g T p)) P (100000 * g_P (g T P)) /\
  is_derive (fun t : R => g_T (g t P)) T (g_TT (g T P)).
(** and the mixed and second pressure derivatives *)
Definition g_ok2 (g : R -> R -> gfun) (T P : R) : Prop :=
  is_derive (fun t : R => g_P (g t P)) T (g_TP (g T P)) /\ is_derive (fun p : R => g_P (g T p)) P (100000 * g_PP (g T P)).
(** properties of water entering the Akinfiev-Diamond model: the Gibbs energies, entropies and heat capacities belong together,
    alpha = -(d rho/dT)/rho, beta = (d rho/dP)/rho, and the ideal gas part does not depend on the pressure *)
Definition ad_water_ok (w : R -> R -> adwater) (T P : R) : Prop :=
  is_derive (fun t : R => aw_G (w t P)) T (- aw_S (w T P)) /\ is_derive (fun t : R => aw_S (w t P)) T (aw_C (w T P) / T) /\
  is_derive (fun t : R => ai_G (w t P)) T (- ai_S (w T P)) /\ is_derive (fun t : R => ai_S (w t P)) T (ai_C (w T P) / T) /\
  is_derive (fun t : R => aw_rho (w t P)) T (- aw_al (w T P) * aw_rho (w T P)) /\ is_derive (fun q : R => aw_rho (w T q)) P (aw_be (w T P) * aw_rho (w T P)) /\
  is_derive (fun t : R => aw_al (w t P)) T (aw_daT (w T P)) /\ is_derive (fun q : R => ai_G (w T q)) P 0.
(** and the density models *)
Definition dens_ok (w : R -> R -> dwater) (T P : R) : Prop :=
  is_derive (fun t : R => w_rho (w t P)) T (- w_al (w T P) * w_rho (w T P)) /\ is_derive (fun q : R => w_rho (w T q)) P (w_be (w T P) * w_rho (w T P)) /\
  is_derive (fun t : R => w_al (w t P)) T (w_daT (w T P)).
