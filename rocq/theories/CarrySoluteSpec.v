(** Vocabulary: the solvent, the g function and the Born coefficient carry the derivatives of functions of T (K) and P (Pa). *)
From Coq Require Import Reals.
From Verif Require Import ThermoScalarModel MineralModel CarryModel CarrySpec SoluteModel CarrySolute.
Open Scope R_scope.
Definition carriesWet (w : wetT) (W : R -> R -> wet) (T P : R) : Prop :=
  let c x f := carries x (fun t p => f (W t p)) T P in
  c (xd w) d_ /\ c (xdT w) d_T /\ c (xdP w) d_P /\ c (xdTT w) d_TT /\ c (xdTP w) d_TP /\ c (xdPP w) d_PP.
(** the parts of the g function that the properties use *)
Definition carriesG (g : gts) (G : R -> R -> gfun) (T P : R) : Prop :=
  let c x f := carries x (fun t p => f (G t p)) T P in c (y_ g) g_ /\ c (y_T g) g_T /\ c (y_P g) g_P /\ c (y_TT g) g_TT.
Definition carriesEl (e : elT) (E : R -> R -> elec) (T P : R) : Prop :=
  let c x f := carries x (fun t p => f (E t p)) T P in c (u_w e) o_w /\ c (u_T e) o_T /\ c (u_P e) o_P /\ c (u_TT e) o_TT.
Definition carriesBorn (b : bornT) (B : R -> R -> born) (T P : R) : Prop :=
  let c x f := carries x (fun t p => f (B t p)) T P in c (vZ b) bZ /\ c (vY b) bY /\ c (vQ b) bQ /\ c (vX b) bX.
Definition carriesAdw (w : adwT) (W : R -> R -> adwater) (T P : R) : Prop :=
  let c x f := carries x (fun t p => f (W t p)) T P in
  c (q_G w) aw_G /\ c (q_S w) aw_S /\ c (q_C w) aw_C /\ c (n_G w) ai_G /\ c (n_S w) ai_S /\ c (n_C w) ai_C /\ c (q_rho w) aw_rho /\ c (q_al w) aw_al /\ c (q_be w) aw_be /\ c (q_daT w) aw_daT.
Definition carriesInc (i : incT) (I : R -> R -> adinc) (T P : R) : Prop :=
  let c x f := carries x (fun t p => f (I t p)) T P in c (j_G i) i_G /\ c (j_V i) i_V /\ c (j_S i) i_S /\ c (j_C i) i_C /\ c (j_H i) i_H.
Definition carriesDw (w : dwT) (W : R -> R -> dwater) (T P : R) : Prop :=
  let c x f := carries x (fun t p => f (W t p)) T P in c (m_rho w) w_rho /\ c (m_al w) w_al /\ c (m_be w) w_be /\ c (m_daT w) w_daT.
(** the g function that is returned *)
Definition g_of (o : option gfun) : gfun := match o with Some x => x | None => g_zero end.
