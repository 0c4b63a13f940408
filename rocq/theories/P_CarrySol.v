(** C93, C94, C95: the derivatives that results of aqueous species carry. *)
From Coq Require Import Bool Reals.
From Coquelicot Require Import Coquelicot.
From Verif Require Import ThermoScalarModel MineralModel CarryModel CarrySpec SoluteModel SoluteSpec SoluteEx CarrySolute CarrySoluteSpec CarrySolUse CarrySolAD CarrySolEx CarrySolEx2.
Open Scope R_scope.

(** Every property that either HKF code returns carries the derivatives of the function that gives its value, once the Born coefficient and the Born functions do. *)
Theorem C93_hkf_carries : forall code codeTS T P rG rHh rS h e E b B, (code = hkf_reak /\ codeTS = hkf_reakTS) \/ (code = hkf_gems /\ codeTS = hkf_gemsTS) ->
  read_value rG (hG h) -> read_value rHh (hH h) -> read_value rS (hS h) -> theta < T -> 0 < psi + P / 100000 -> carriesEl e E T P -> carriesBorn b B T P ->
  carries7 (codeTS T P rG rHh rS h e b) (fun t p => code h t (p / 100000) (E t p) (B t p)) T P.
Proof. exact (fun code codeTS T P rG rHh rS h e E b B HC RG RH RS HT HP => any_carries code codeTS HC T P rG rHh rS h RG RH RS HT HP e E b B). Qed.
Print Assumptions C93_hkf_carries.
(** The Reaktoro code from the solvent on: density and its derivatives to g, to the Born coefficient, to the properties; the limit of region II and densities above 1000 included. *)
Theorem C93_reaktoro_carries : forall T P rG rHh rS h w W b B z hp, read_value rG (hG h) -> read_value rHh (hH h) -> read_value rS (hS h) -> theta < T -> 0 < psi + P / 100000 ->
  carriesWet w W T P -> carriesBorn b B T P -> let G := fun t p => g_of (functionG t (p / 100000) (W t p)) in
  re_ref z (wr h) + Rabs z * g_ (G T P) <> 0 -> rH + g_ (G T P) <> 0 -> (0 < d_ (W T P) < 1000 /\ d_T (W T P) <> 0 /\ d_P (W T P) <> 0) \/ 1000 < d_ (W T P) ->
  exists g, functionGTS T P w = Some g /\ carries7 (hkf_reakTS T P rG rHh rS h (omega_reakTS z hp (wr h) g) b) (fun t p => hkf_reak h t (p / 100000) (omega_reak z hp (wr h) (G t p)) (B t p)) T P.
Proof. exact chain_carries. Qed.
Print Assumptions C93_reaktoro_carries.
(** Hence what is carried is what is reported beside it: dG/dT is -S, dG/dP the volume up to the factor of C38, dH/dT is Cp and T dS/dT is Cp. *)
Theorem C93_reaktoro_derivatives : forall T P rG rHh rS h w W b B z hp, read_value rG (hG h) -> read_value rHh (hH h) -> read_value rS (hS h) -> theta < T -> 0 < psi + P / 100000 ->
  carriesWet w W T P -> carriesBorn b B T P -> let G := fun t p => g_of (functionG t (p / 100000) (W t p)) in
  re_ref z (wr h) + Rabs z * g_ (G T P) <> 0 -> rH + g_ (G T P) <> 0 -> (0 < d_ (W T P) < 1000 /\ d_T (W T P) <> 0 /\ d_P (W T P) <> 0) \/ 1000 < d_ (W T P) ->
  water_ok (fun t q => W t (q * 100000)) T (P / 100000) -> born_ok (fun t q => B t (q * 100000)) T (P / 100000) -> 0 < d_ (W T P) < 1000 /\ d_T (W T P) <> 0 /\ d_P (W T P) <> 0 ->
  exists g, functionGTS T P w = Some g /\ let r := hkf_reakTS T P rG rHh rS h (omega_reakTS z hp (wr h) g) b in
  ddt (tG r) = - val (tS r) /\ ddp (tG r) = val (tV r) / (4184004 / 4184000) / 100000 /\ ddt (tH r) = val (tC r) /\ T * ddt (tS r) = val (tC r).
Proof. exact chain_right. Qed.
Print Assumptions C93_reaktoro_derivatives.
Example C93_example : exists g, functionGTS 400 30000000 wS_ex = Some g /\ let r := hkf_reakTS 400 30000000 (rd (-261881)) (rd (-240300)) (rd 58) h_ex (omega_reakTS 1 false 33060 g) bS_ex in
  ddt (tG r) = - val (tS r) /\ ddp (tG r) = val (tV r) / (4184004 / 4184000) / 100000 /\ ddt (tH r) = val (tC r) /\ 400 * ddt (tS r) = val (tC r).
Proof. exact solute_ex. Qed.

(** For any coefficient and any Born functions whatever, of either code: the carried derivatives of G are -S and V exactly where the coefficient carries its own stored derivatives. *)
Theorem C94_carried_temperature_gap : forall code codeTS T P rG rHh rS h e b, (code = hkf_reak /\ codeTS = hkf_reakTS) \/ (code = hkf_gems /\ codeTS = hkf_gemsTS) ->
  read_value rG (hG h) -> read_value rHh (hH h) -> read_value rS (hS h) -> theta < T -> 0 < psi + P / 100000 -> ddt (vZ b) = val (vY b) -> ddp (vZ b) = val (vQ b) ->
  let r := codeTS T P rG rHh rS h e b in ddt (tG r) = - val (tS r) + cal * (1 + val (vZ b)) * (val (u_T e) - ddt (u_w e)).
Proof. exact (fun code codeTS T P rG rHh rS h e b HC RG RH RS HT HP => exact_T code codeTS HC T P rG rHh rS h RG RH RS HT HP e b). Qed.
Print Assumptions C94_carried_temperature_gap.
Theorem C94_carried_iff : forall code codeTS T P rG rHh rS h e b, (code = hkf_reak /\ codeTS = hkf_reakTS) \/ (code = hkf_gems /\ codeTS = hkf_gemsTS) ->
  read_value rG (hG h) -> read_value rHh (hH h) -> read_value rS (hS h) -> theta < T -> 0 < psi + P / 100000 -> ddt (vZ b) = val (vY b) -> ddp (vZ b) = val (vQ b) -> 1 + val (vZ b) <> 0 ->
  let r := codeTS T P rG rHh rS h e b in (ddt (tG r) = - val (tS r) <-> ddt (u_w e) = val (u_T e)) /\ (ddp (tG r) = val (tV r) / (4184004 / 4184000) / 100000 <-> ddp (u_w e) = val (u_P e)).
Proof. exact (fun code codeTS T P rG rHh rS h e b HC RG RH RS HT HP => right_iff code codeTS HC T P rG rHh rS h RG RH RS HT HP e b). Qed.
Print Assumptions C94_carried_iff.
(** gShok2 raises plain numbers to plain powers: what charged species miss, exactly, inside region II and outside. *)
Theorem C94_gems_gap_partial : forall T P rG rHh rS h w b z wref g, read_value rG (hG h) -> read_value rHh (hH h) -> read_value rS (hS h) -> theta < T -> 0 < psi + P / 100000 ->
  ddt (vZ b) = val (vY b) -> ddp (vZ b) = val (vQ b) -> gShok2TS T P w = Some g -> z <> 0 -> re_ref z wref + Rabs z * val (y_ g) <> 0 -> rH + val (y_ g) <> 0 ->
  let r := hkf_gemsTS T P rG rHh rS h (omega_gemsTS z wref g) b in let c := T - C_K in let D := val (xd w) / 1000 in let pw := Rabs (1 - D) in
  let s := - eta * (Rabs (z ^ 3) / (re_ref z wref + Rabs z * val (y_ g)) ^ 2 - z / (rH + val (y_ g)) ^ 2) in
  ddt (tG r) = - val (tS r) + cal * (1 + val (vZ b)) * s * (ag c * (bg c * Rpower pw (bg c - 1) * (D * val (xal w)) + ln pw * Rpower pw (bg c) * bgT c)) /\
  ddp (tG r) = val (tV r) / (4184004 / 4184000) / 100000 - cal * (1 + val (vZ b)) * s * (ag c * bg c * Rpower pw (bg c - 1) * (D * val (xbe w))).
Proof. exact gems_exact. Qed.
Print Assumptions C94_gems_gap_partial.
(** so no anion carries its volume in dG/dP *)
Theorem C94_gems_refuted : forall T P rG rHh rS h w b z wref g, read_value rG (hG h) -> read_value rHh (hH h) -> read_value rS (hS h) -> theta < T -> 0 < psi + P / 100000 ->
  ddt (vZ b) = val (vY b) -> ddp (vZ b) = val (vQ b) -> gShok2TS T P w = Some g -> z <> 0 -> re_ref z wref + Rabs z * val (y_ g) <> 0 -> rH + val (y_ g) <> 0 ->
  z < 0 -> 1 + val (vZ b) <> 0 -> val (xd w) <> 0 -> val (xbe w) <> 0 ->
  let r := hkf_gemsTS T P rG rHh rS h (omega_gemsTS z wref g) b in ddp (tG r) <> val (tV r) / (4184004 / 4184000) / 100000.
Proof. exact gems_wrong. Qed.
Print Assumptions C94_gems_refuted.
Example C94_example : exists g, gShok2TS 400 30000000 w9 = Some g /\ let r := hkf_gemsTS 400 30000000 (rd (-131290)) (rd (-167111)) (rd 57) h_ex (omega_gemsTS (-1) 145600 g) bS_ex in
  ddp (tG r) <> val (tV r) / (4184004 / 4184000) / 100000.
Proof. exact anion_ex. Qed.

(** Akinfiev-Diamond: the increments at T and P carry their derivatives *)
Theorem C95_increments_carry : forall p T P w W, 0 < T -> carriesAdw w W T P -> 0 < aw_rho (W T P) -> carriesInc (ad_incTS p T w) (fun t q => ad_increments p t (W t q)) T P.
Proof. exact ad_inc_carries. Qed.
Print Assumptions C95_increments_carry.
(** but those at 298.15 K, which are constants of the substance, carry theirs too: what the results carry is the derivatives of these functions *)
Theorem C95_akinfiev_diamond_partial : forall T P t (M : R -> mprop) i0 i I, carries (tG t) (fun x _ => mG (M x)) T P -> carries (tH t) (fun x _ => mH (M x)) T P ->
  carries (tS t) (fun x _ => mS (M x)) T P -> carries (tC t) (fun x _ => mCp (M x)) T P -> carriesInc i I T P ->
  let c0 := mkInc (val (j_G i0)) (val (j_V i0)) (val (j_S i0)) (val (j_C i0)) (val (j_H i0)) in let F := fun x q => ad_solute c0 (I x q) x (q / 100000) (M x) in let r := ad_soluteTS i0 i T P t in
  carries (tG r) (fun x q => mG (F x q) - (ddt (j_G i0) + val (j_S i0)) * (x - T)) T P /\ carries (tS r) (fun x q => mS (F x q) - ddt (j_S i0) * (x - T)) T P /\
  carries (tH r) (fun x q => mH (F x q) - ddt (j_H i0) * (x - T) - ddp (j_H i0) * (q - P)) T P /\ carries (tC r) (fun x q => mCp (F x q)) T P /\ carries (tV r) (fun x q => mV (F x q)) T P.
Proof. exact sol_carries. Qed.
Print Assumptions C95_akinfiev_diamond_partial.
(** so dG/dT is -S, but the carried derivatives of S and H miss Cp by the heat capacity of the increments at 298.15 K *)
Theorem C95_akinfiev_diamond_reports : forall p w W w0 W0 t (M : R -> mprop) T P P0, 0 < T -> carriesAdw w W T P -> 0 < aw_rho (W T P) -> ad_water_ok (fun x q => W x (q * 100000)) T (P / 100000) ->
  carriesAdw w0 W0 Tr P0 -> 0 < aw_rho (W0 Tr P0) -> ad_water_ok (fun x q => W0 x (q * 100000)) Tr (P0 / 100000) ->
  carries (tG t) (fun x _ => mG (M x)) T P -> carries (tH t) (fun x _ => mH (M x)) T P -> carries (tS t) (fun x _ => mS (M x)) T P -> carries (tC t) (fun x _ => mCp (M x)) T P ->
  is_derive (fun x : R => mG (M x)) T (- mS (M T)) -> is_derive (fun x : R => mS (M x)) T (mCp (M T) / T) -> is_derive (fun x : R => mH (M x)) T (mCp (M T)) ->
  let i0 := ad_incTS p Tr w0 in let r := ad_soluteTS i0 (ad_incTS p T w) T P t in
  ddt (tG r) = - val (tS r) /\ ddt (tS r) = val (tC r) / T - val (j_C i0) / Tr /\ ddt (tH r) = val (tC r) - val (j_C i0) /\
  (is_derive (fun q : R => aw_G (W T (q * 100000))) (P / 100000) (MW / aw_rho (W T P) / 10) -> ddp (tG r) = val (tV r) / 100000).
Proof. exact ad_reports. Qed.
Print Assumptions C95_akinfiev_diamond_reports.
Theorem C95_akinfiev_diamond_refuted : let i0 := ad_incTS (mkAD 1 0 0) Tr (awS Tr 100000) in let r := ad_soluteTS i0 (ad_incTS (mkAD 1 0 0) 400 (awS 400 100000000)) 400 100000000 (gasS 400 100000000) in
  ddt (tG r) = - val (tS r) /\ ddp (tG r) = val (tV r) / 100000 /\ 400 * ddt (tS r) <> val (tC r) /\ ddt (tH r) <> val (tC r).
Proof. exact ad_carry_ex. Qed.
Print Assumptions C95_akinfiev_diamond_refuted.
(** Holland and Powell: T' is a double; above 500 K it is a constant and all is carried *)
Theorem C95_holland_powell_above_500 : forall r b w0 w W T P, carriesDw w W T P -> 0 < T -> 0 < w_rho w0 -> 0 < w_rho (W T P) -> r_T r <> 0 -> w_daT w0 <> 0 -> 500 < T ->
  carries7 (hp98TS r b w0 w T P) (fun t p => hp98 r b w0 (W t p) t (p / 100000)) T P.
Proof. exact (fun r b w0 w W T P CW HT R0 RW N1 N2 => hp_above r b w0 w W T P CW HT R0 RW N1 N2). Qed.
Print Assumptions C95_holland_powell_above_500.
(** below it the carried dG/dT is off by K ln (rho/rho0)/T *)
Theorem C95_holland_powell_below_500_partial : forall r b w0 w W T P, carriesDw w W T P -> 0 < T -> 0 < w_rho w0 -> 0 < w_rho (W T P) -> r_T r <> 0 -> w_daT w0 <> 0 ->
  dens_ok (fun t q => W t (q * 100000)) T (P / 100000) -> T < 500 -> let x := hp98TS r b w0 w T P in let K := (r_C r - r_T r * b) / (r_T r * w_daT w0) in
  val (tG x) = mG (hp98 r b w0 (W T P) T (P / 100000)) /\ is_derive (fun t : R => mG (hp98 r b w0 (W t P) t (P / 100000))) T (ddt (tG x) - K * ln (w_rho (W T P) / w_rho w0) / T) /\
  is_derive (fun p : R => mG (hp98 r b w0 (W T p) T (p / 100000))) P (ddp (tG x)).
Proof. exact hp_below. Qed.
Print Assumptions C95_holland_powell_below_500_partial.
(** and against what is reported *)
Theorem C95_holland_powell_reports : forall r b w0 w W T P, carriesDw w W T P -> 0 < T -> 0 < w_rho w0 -> 0 < w_rho (W T P) -> r_T r <> 0 -> w_daT w0 <> 0 ->
  dens_ok (fun t q => W t (q * 100000)) T (P / 100000) -> let x := hp98TS r b w0 w T P in let K := (r_C r - r_T r * b) / (r_T r * w_daT w0) in let T' := if Rle_dec T 500 then T else 500 in
  ddt (tG x) = - val (tS x) + 2 * K * ln (w_rho (W T P) / w_rho w0) / T' /\ T * ddt (tS x) = val (tC x) /\ ddp (tG x) = val (tV x) / 100000.
Proof. exact hp_reports. Qed.
Print Assumptions C95_holland_powell_reports.
Theorem C95_holland_powell_refuted : let x := hp98TS r_ex 0 (dw_ex 300 1) (dwS 400 100000000) 400 100000000 in let f := fun t p => mG (hp98 r_ex 0 (dw_ex 300 1) (DW t p) t (p / 100000)) in
  val (tG x) = f 400 100000000 /\ is_derive (fun p : R => f 400 p) 100000000 (ddp (tG x)) /\ ~ is_derive (fun t : R => f t 100000000) 400 (ddt (tG x)) /\ ddt (tG x) <> - val (tS x) /\ 400 * ddt (tS x) = val (tC x).
Proof. exact hp_carry_ex. Qed.
Print Assumptions C95_holland_powell_refuted.
(** Anderson carries all of its derivatives *)
Theorem C95_anderson : forall r w0 w W T P, carriesDw w W T P -> 0 < w_rho w0 -> 0 < w_rho (W T P) -> r_T r <> 0 -> w_daT w0 <> 0 ->
  carries7 (an91TS r w0 w T P) (fun t p => an91 r w0 (W t p) t (p / 100000)) T P.
Proof. exact an_carries. Qed.
Print Assumptions C95_anderson.
Example C95_example : let x := an91TS r_ex (dw_ex 300 1) (dwS 400 100000000) 400 100000000 in carries7 x (fun t p => an91 r_ex (dw_ex 300 1) (DW t p) t (p / 100000)) 400 100000000.
Proof. exact an_carry_ex. Qed.
