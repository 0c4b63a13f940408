(** Property theorems: aqueous species. HKF (C38), g function and Born coefficient (C39), Akinfiev-Diamond and the density models (C40). *)
From Coq Require Import List Bool Reals Lra.
From Coquelicot Require Import Coquelicot.
From Verif Require Import RDeriv MineralModel MineralSpec SoluteModel SoluteSpec SoluteProofs SoluteG SoluteG2 SoluteO SoluteHKF SoluteDens SoluteEx.
Open Scope R_scope.

(** both HKF codes, for any Born functions and Born coefficient with correct derivatives, at any T > 228 K and P > -2600 bar:
    S = -dG/dT, Cp = T dS/dT = dH/dT, and dG/dP is the reported volume up to the ratio of the two calories in the code *)
Theorem C38_derivatives_partial : forall code h e b T P, hkf_prop code -> theta < T -> 0 < psi + P -> omega_ok e T P -> born_ok b T P ->
  let f := fun t p => code h t p (e t p) (b t p) in cons_S f T P /\ cons_C f T P /\ is_derive (fun t : R => mH (f t P)) T (mCp (f T P)) /\ is_derive (fun p : R => mG (f T p)) P (mV (f T P) / (4184004 / 4184000)).
Proof. exact any_cons3. Qed.
Print Assumptions C38_derivatives_partial.
(** the volume is therefore never exactly dG/dP unless it is zero *)
Theorem C38_volume_refuted : forall code h e b T P, hkf_prop code -> theta < T -> 0 < psi + P -> omega_ok e T P -> born_ok b T P -> mV (code h T P (e T P) (b T P)) <> 0 ->
  ~ cons_V (fun t p => code h t p (e t p) (b t p)) T P.
Proof. exact V_wrong. Qed.
Print Assumptions C38_volume_refuted.
Example C38_volume_example : theta < 400 /\ 0 < psi + 300 /\ omega_ok e_ex 400 300 /\ born_ok b_ex 400 300 /\ mV (hkf_reak h_ex 400 300 (e_ex 400 300) (b_ex 400 300)) <> 0 /\
  ~ cons_V (fun t p => hkf_reak h_ex t p (e_ex t p) (b_ex t p)) 400 300.
Proof. exact vol_ex. Qed.
(** G - (H - T S) is the constant of the reference properties *)
Theorem C38_gap : forall code h e b T P, hkf_prop code -> theta < T -> let x := code h T P e b in mG x - (mH x - T * mS x) = hG h - (hH h - Tr * hS h).
Proof. exact any_gap. Qed.
Print Assumptions C38_gap.
(** U subtracts 41.84 times P V; A = U - T S holds *)
Theorem C38_internal_energy_refuted : forall code h e b T P, hkf_prop code -> let x := code h T P e b in (P * mV x <> 0 -> mU x <> mH x - P * mV x) /\ mU x = mH x - P * (4184 / 100 * mV x) /\ mA x = mU x - T * mS x.
Proof. exact U_wrong. Qed.
Print Assumptions C38_internal_energy_refuted.
Example C38_internal_energy_example : let x := hkf_gems h_ex 400 300 (e_ex 400 300) (b_ex 400 300) in mU x <> mH x - 300 * mV x.
Proof. exact u_ex. Qed.
(** at 25 C and 1 bar the reference properties come back when the solvent's Born functions have their reference values *)
Theorem C38_reference_reaktoro : forall h e b, o_w e = wr h -> o_T e = 0 -> bZ b = Zr1 -> bY b = Yr1 -> let x := hkf_reak h Tr Pr e b in mG x = hG h /\ mH x = hH h /\ mS x = hS h.
Proof. exact reak_ref. Qed.
Print Assumptions C38_reference_reaktoro.
Theorem C38_reference_gems : forall h e b, o_w e = wr h -> o_T e = 0 -> bZ b = Zr2 -> bY b = Yr2 -> let x := hkf_gems h Tr Pr e b in mG x = hG h /\ mH x = hH h /\ mS x = hS h.
Proof. exact gems_ref. Qed.
Print Assumptions C38_reference_gems.
Example C38_reference_example : let x := hkf_reak h_ex Tr Pr (omega_reak 1 false (wr h_ex) g_zero) (mkBorn Zr1 Yr1 0 0) in mG x = -261881 /\ mH x = -240300 /\ mS x = 58.
Proof. exact ref_ex. Qed.
(** from the same inputs the two codes give the same V and Cp; G and S differ by the two sets of reference values only *)
Theorem C38_two_codes : forall h e b T P, theta < T -> let x := hkf_reak h T P e b in let y := hkf_gems h T P e b in
  mG x - mG y = wr h * ((Zr1 - Zr2) + (Yr1 - Yr2) * (T - Tr)) * cal /\ mS x - mS y = - (wr h * (Yr1 - Yr2) * cal) /\ mV x = mV y /\ mCp x = mCp y.
Proof. exact codes_differ. Qed.
Print Assumptions C38_two_codes.
(** the whole chain density -> g -> omega -> properties, from the solvent functions alone *)
Theorem C38_chain_partial : forall h z hp w b T P, theta < T -> 0 < psi + P -> water_ok w T P -> born_ok b T P -> 0 < d_ (w T P) < 1000 -> d_T (w T P) <> 0 -> d_P (w T P) <> 0 ->
  re_ref z (wr h) + Rabs z * g_ (gval w T P) <> 0 -> rH + g_ (gval w T P) <> 0 ->
  let f := fun t p => hkf_reak h t p (omega_reak z hp (wr h) (gval w t p)) (b t p) in
  cons_S f T P /\ cons_C f T P /\ is_derive (fun t : R => mH (f t P)) T (mCp (f T P)) /\ is_derive (fun p : R => mG (f T p)) P (mV (f T P) / vfac).
Proof. exact chain. Qed.
Print Assumptions C38_chain_partial.
Example C38_chain_example : let f := fun t q => hkf_reak h_ex t q (omega_reak 1 false (wr h_ex) (gval w_ex t q)) (b_ex t q) in
  cons_S f 400 300 /\ cons_C f 400 300 /\ is_derive (fun t : R => mH (f t 300)) 400 (mCp (f 400 300)) /\ is_derive (fun p : R => mG (f 400 p)) 300 (mV (f 400 300) / vfac).
Proof. exact chain_ex. Qed.

(** functionG: wherever the density is below 1000 kg/m3 and its first derivatives are not zero, in both regions and on their
    boundary, a value is returned in a neighbourhood and all five stored derivatives are the derivatives *)
Theorem C39_functionG : forall w T P, water_ok w T P -> 0 < d_ (w T P) < 1000 -> d_T (w T P) <> 0 -> d_P (w T P) <> 0 ->
  locally T (fun t => functionG t P (w t P) = Some (gval w t P)) /\ locally P (fun p => functionG T p (w T p) = Some (gval w T p)) /\ g_ok (gval w) T P /\ g_ok2 (gval w) T P.
Proof. exact functionG_ok. Qed.
Print Assumptions C39_functionG.
Example C39_functionG_example : let w := w_ex in locally 400 (fun t => functionG t 300 (w t 300) = Some (gval w t 300)) /\ g_ok (gval w) 400 300 /\ g_ok2 (gval w) 400 300 /\ g_ (gval w 400 300) <= 0.
Proof. exact g_ex. Qed.
Example C39_functionG_example_region : let w := w_ex in region2 (500 - C_K) 300 = true /\ g_ok (gval w) 500 300.
Proof. exact g_ex_in. Qed.
(** the three tests of the code are one rectangle *)
Theorem C39_region : forall c P, region2 c P = true <-> 155 < c /\ P < 1000.
Proof. exact region2_in. Qed.
Print Assumptions C39_region.
(** above 1000 kg/m3 everything is zero *)
Theorem C39_functionG_dense : forall w T P, water_ok w T P -> 1000 < d_ (w T P) ->
  functionG T P (w T P) = Some g_zero /\ locally T (fun t => functionG t P (w t P) = Some (gval w t P)) /\ locally P (fun p => functionG T p (w T p) = Some (gval w T p)) /\ g_ok (gval w) T P /\ g_ok2 (gval w) T P.
Proof. exact functionG_dense. Qed.
Print Assumptions C39_functionG_dense.
(** a division by zero happens exactly at 1000 kg/m3 and where a first derivative of the density vanishes *)
Theorem C39_functionG_fails : forall T P w, d_ w <= 1000 -> functionG T P w = None <-> (d_ w = 1000 \/ d_T w = 0 \/ d_P w = 0).
Proof. exact functionG_fails. Qed.
Print Assumptions C39_functionG_fails.
(** such as the density maximum of water *)
Theorem C39_density_maximum_refuted : water_ok w_max 277 1 /\ 0 < d_ (w_max 277 1) < 1000 /\ functionG 277 1 (w_max 277 1) = None.
Proof. exact w_max_ex. Qed.
Print Assumptions C39_density_maximum_refuted.
(** gShok2 (density in g/cm3), off the boundary lines of region II *)
Theorem C39_gShok2_partial : forall (D al be daT : R -> R -> R) (T P : R),
  is_derive (fun t : R => D t P) T (- D T P * al T P) -> is_derive (fun p : R => D T p) P (100000 * (D T P * be T P)) -> is_derive (fun t : R => al t P) T (daT T P) ->
  D T P < 1 -> (T - C_K < 155 \/ 1000 < P \/ 155 < T - C_K /\ P < 1000) ->
  locally T (fun t => gShok2 (t - C_K) P (D t P) (al t P) (be t P) (daT t P) = Some (sval D al be daT t P)) /\
  locally P (fun p => gShok2 (T - C_K) p (D T p) (al T p) (be T p) (daT T p) = Some (sval D al be daT T p)) /\ g_ok (sval D al be daT) T P.
Proof. exact shok_ok. Qed.
Print Assumptions C39_gShok2_partial.
Example C39_gShok2_example : g_ok (sval (D_ex (9 / 10)) (fun _ _ => 1 / 1000) (fun _ _ => 1 / 10000000000) (fun _ _ => 0)) 400 300.
Proof. exact shok_ex. Qed.
(** above 1 g/cm3 its pressure derivative has the wrong sign *)
Theorem C39_gShok2_dense_refuted : forall (D al be daT : R -> R -> R) (T P : R), is_derive (fun p : R => D T p) P (100000 * (D T P * be T P)) -> 1 < D T P -> be T P <> 0 -> T - C_K < 155 -> ~ g_ok (sval D al be daT) T P.
Proof. exact shok_wrong. Qed.
Print Assumptions C39_gShok2_dense_refuted.
Theorem C39_gShok2_dense_sign : forall (D al be daT : R -> R -> R) (T P : R), is_derive (fun p : R => D T p) P (100000 * (D T P * be T P)) -> 1 < D T P -> be T P <> 0 -> T - C_K < 155 ->
  is_derive (fun p : R => g_ (sval D al be daT T p)) P (- (100000 * g_P (sval D al be daT T P))) /\ g_P (sval D al be daT T P) <> 0.
Proof. exact shok_dense. Qed.
Print Assumptions C39_gShok2_dense_sign.
Example C39_gShok2_dense_example : let F := sval (D_ex 2) (fun _ _ => 1 / 1000) (fun _ _ => 1 / 10000000000) (fun _ _ => 0) in 1 < D_ex 2 300 1000 /\ g_P (F 300 1000) <> 0 /\ ~ g_ok F 300 1000.
Proof. exact shok_dense_ex. Qed.
(** the Born coefficient: its derivatives are right for every g whose derivatives are; it is constant for neutral species and H+ *)
Theorem C39_omega : forall z w G T P, z <> 0 -> re_ref z w + Rabs z * g_ (G T P) <> 0 -> rH + g_ (G T P) <> 0 -> g_ok G T P -> omega_ok (fun t p => omega_reak z false w (G t p)) T P.
Proof. exact omega_T. Qed.
Print Assumptions C39_omega.
Theorem C39_omega_constant : forall z hp w G T P, z = 0 \/ hp = true -> omega_ok (fun t p => omega_reak z hp w (G t p)) T P.
Proof. exact omega_const. Qed.
Print Assumptions C39_omega_constant.
(** with g = 0 it is the reference value; the two codes compute the same *)
Theorem C39_omega_reference : forall z hp w g, g_ g = 0 -> w / eta + z / rH <> 0 -> o_w (omega_reak z hp w g) = w.
Proof. exact omega_ref. Qed.
Print Assumptions C39_omega_reference.
Theorem C39_omega_two_codes : forall z w g, omega_gems z w g = omega_reak z false w g.
Proof. exact omega_same. Qed.
Print Assumptions C39_omega_two_codes.
Example C39_omega_example : let G := fun t q => mkG (- (t + q) / 10000) (- (1 / 10000)) (- (1 / 1000000000)) 0 0 0 in omega_ok (fun t q => omega_gems 2 100000 (G t q)) 400 300 /\ o_T (omega_gems 2 100000 (G 400 300)) <> 0.
Proof. exact omega_ex. Qed.

(** Akinfiev-Diamond: with consistent water and gas properties S = -dG/dT, Cp = T dS/dT = dH/dT, U = H - P V, A = U - T S, and
    V = dG/dP if the water's molar volume is 18.01528/rho cm3 *)
Theorem C40_akinfiev_diamond : forall p w i0 t T P, 0 < T -> ad_water_ok w T P -> 0 < aw_rho (w T P) ->
  is_derive (fun x : R => mG (t x)) T (- mS (t T)) -> is_derive (fun x : R => mS (t x)) T (mCp (t T) / T) -> is_derive (fun x : R => mH (t x)) T (mCp (t T)) ->
  let f := fun x q => ad_solute i0 (ad_increments p x (w x q)) x q (t x) in cons_S f T P /\ cons_C f T P /\ is_derive (fun x : R => mH (f x P)) T (mCp (f T P)) /\ cons_U f T P /\
  (is_derive (fun q : R => aw_G (w T q)) P (MW / aw_rho (w T P) / 10) -> cons_V f T P).
Proof. exact ad_consistent. Qed.
Print Assumptions C40_akinfiev_diamond.
Example C40_akinfiev_diamond_example : let f := fun x q => ad_solute (mkInc 1 2 3 4 5) (ad_increments (mkAD (1 / 10) (-5) 10) x (aw_ex MW x q)) x q (gas_at x) in cons_S f 400 1000 /\ cons_C f 400 1000 /\ cons_V f 400 1000.
Proof. exact ad_ex. Qed.
(** G - (H - T S) is that of the gas *)
Theorem C40_akinfiev_diamond_gap : forall p x0 x T P t, let i0 := ad_increments p Tr x0 in let s := ad_solute i0 (ad_increments p T x) T P t in mG s - (mH s - T * mS s) = mG t - (mH t - T * mS t).
Proof. exact ad_gap. Qed.
Print Assumptions C40_akinfiev_diamond_gap.
Example C40_akinfiev_diamond_gap_example : let i0 := ad_increments (mkAD (1 / 10) (-5) 10) Tr (aw_ex MW Tr 1) in let s := ad_solute i0 (ad_increments (mkAD (1 / 10) (-5) 10) 400 (aw_ex MW 400 1000)) 400 1000 (gas_at 400) in mG s - (mH s - 400 * mS s) = 0.
Proof. exact ad_gap_ex. Qed.
(** with the molar mass of water used everywhere else the volume is not dG/dP *)
Theorem C40_akinfiev_diamond_volume_refuted : forall p w i0 t T P, 0 < T -> ad_water_ok w T P -> 0 < aw_rho (w T P) -> is_derive (fun q : R => aw_G (w T q)) P (18015268 / 1000000 / aw_rho (w T P) / 10) -> a_xi p <> 1 ->
  ~ cons_V (fun x q => ad_solute i0 (ad_increments p x (w x q)) x q (t x)) T P.
Proof. exact ad_mass. Qed.
Print Assumptions C40_akinfiev_diamond_volume_refuted.
Example C40_akinfiev_diamond_volume_example : let m := 18015268 / 1000000 in ad_water_ok (aw_ex m) 400 1000 /\ ~ cons_V (fun x q => ad_solute (mkInc 1 2 3 4 5) (ad_increments (mkAD (1 / 10) (-5) 10) x (aw_ex m x q)) x q (gas_at x)) 400 1000.
Proof. exact ad_mass_ex. Qed.
(** Anderson et al. 1991: S = -dG/dT, Cp = T dS/dT; but V does not follow G, and H misses T times the entropy increment *)
Theorem C40_anderson_partial : forall r w0 w T P, dens_ok w T P -> 0 < w_rho (w T P) -> 0 < w_rho w0 -> 0 < T -> r_T r * w_daT w0 <> 0 ->
  let f := fun t q => an91 r w0 (w t q) t q in cons_S f T P /\ cons_C f T P /\ cons_U f T P /\ is_derive (fun q : R => mG (f T q)) P (r_C r / (r_T r * w_daT w0) * w_be (w T P)) /\ mV (f T P) = r_V r /\
  mH (f T P) - (mG (f T P) + T * mS (f T P)) = r_H r - r_G r - r_T r * r_S r + T * (r_C r * (w_al w0 - w_al (w T P)) / (r_T r * w_daT w0)).
Proof. exact an_cons. Qed.
Print Assumptions C40_anderson_partial.
Theorem C40_anderson_refuted : let f := fun t q => an91 r_ex (dw_ex 300 1) (dw_ex t q) t q in cons_S f 400 1000 /\ cons_C f 400 1000 /\ ~ cons_V f 400 1000 /\ mH (f 400 1000) - mG (f 400 1000) - 400 * mS (f 400 1000) <> r_H r_ex - r_G r_ex - 300 * r_S r_ex.
Proof. exact an_ex. Qed.
Print Assumptions C40_anderson_refuted.
(** Holland and Powell 1998 below 500 K: V = dG/dP, U, A; the entropy implied by G is the reported one minus K ln (rho/rho0)/T,
    and the reported Cp belongs to the implied one *)
Theorem C40_holland_powell_below_500_partial : forall r b w0 w T P, dens_ok w T P -> 0 < w_rho (w T P) -> 0 < w_rho w0 -> 0 < T -> r_T r * w_daT w0 <> 0 -> T < 500 ->
  let f := fun t q => hp98 r b w0 (w t q) t q in let K := (r_C r - r_T r * b) / (r_T r * w_daT w0) in let L := fun t q => ln (w_rho (w t q) / w_rho w0) in
  cons_V f T P /\ cons_U f T P /\ is_derive (fun t : R => mG (f t P)) T (- (mS (f T P) - K * L T P / T)) /\
  is_derive (fun t : R => mS (f t P) - K * L t P / t) T (mCp (f T P) / T) /\
  mH (f T P) - (mG (f T P) + T * (mS (f T P) - K * L T P / T)) = r_H r - r_G r - r_T r * r_S r + T * (K * (w_al w0 - w_al (w T P)) + b * (r_T r - T)).
Proof. exact hp_low. Qed.
Print Assumptions C40_holland_powell_below_500_partial.
(** above 500 K the factor T/500 adds a second error and Cp misses a term *)
Theorem C40_holland_powell_above_500_partial : forall r b w0 w T P, dens_ok w T P -> 0 < w_rho (w T P) -> 0 < w_rho w0 -> 0 < T -> r_T r * w_daT w0 <> 0 -> 500 < T ->
  let f := fun t q => hp98 r b w0 (w t q) t q in let K := (r_C r - r_T r * b) / (r_T r * w_daT w0) in let L := fun t q => ln (w_rho (w t q) / w_rho w0) in
  cons_V f T P /\ cons_U f T P /\ is_derive (fun t : R => mG (f t P)) T (- (mS (f T P) - 2 * K * L T P / 500)) /\
  is_derive (fun t : R => mS (f t P) - 2 * K * L t P / 500) T (mCp (f T P) / T + 2 * K * w_al (w T P) / 500).
Proof. exact hp_high. Qed.
Print Assumptions C40_holland_powell_above_500_partial.
(** so S = -dG/dT only where the density is the reference one (or K = 0) *)
Theorem C40_holland_powell_entropy : forall r b w0 w T P, dens_ok w T P -> 0 < w_rho (w T P) -> 0 < w_rho w0 -> 0 < T < 500 -> r_T r * w_daT w0 <> 0 ->
  cons_S (fun t q => hp98 r b w0 (w t q) t q) T P <-> (r_C r - r_T r * b = 0 \/ w_rho (w T P) = w_rho w0).
Proof. exact hp_wrong. Qed.
Print Assumptions C40_holland_powell_entropy.
Theorem C40_holland_powell_entropy_refuted : dens_ok dw_ex 400 1000 /\ cons_V (fun t q => hp98 r_ex 0 (dw_ex 300 1) (dw_ex t q) t q) 400 1000 /\ ~ cons_S (fun t q => hp98 r_ex 0 (dw_ex 300 1) (dw_ex t q) t q) 400 1000.
Proof. exact hp_ex. Qed.
Print Assumptions C40_holland_powell_entropy_refuted.
