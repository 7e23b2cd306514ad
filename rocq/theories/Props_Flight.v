(** C86: steady flight, for every aircraft model. *)
From Coq Require Import Reals List Bool PeanoNat String Lia Lra.
From Verif Require Import Base Py RSum Model_Integrals Spec_Integrals Proofs_Integrals Model_Atmos Proofs_Atmos Model_Phases Model_Mission
  Model_Net Proofs_Net Model_Flight Spec_Flight Proofs_Flight Proofs_Fly.
Import ListNotations.
Open Scope R_scope.
Open Scope string_scope.
Open Scope list_scope.

(** The air at a node of a steady phase: the standard atmosphere at the node's altitude,
    warmer by TempIncrement; the speed is the equivalent airspeed the user set, so the
    dynamic pressure is that of this speed at sea level. *)
Theorem C86_air kt kp tri nn A p V i : own_durations A -> solution (phase_group kt kp tri nn A p SteadyP) V -> (i < nn)%nat ->
  temp_coeffs kt -> pressure_coeffs kp -> V "fltcond|h" i < (28816/100) / (65/10000) -> - (216) < V "fltcond|TempIncrement" i ->
  0 < V "fltcond|T" i /\ 0 < V "fltcond|p" i /\ 0 < V "fltcond|rho" i /\
  V "fltcond|T" i = compute_temp kt (V "fltcond|h" i) (get_masks (V "fltcond|h" i)) + V "fltcond|TempIncrement" i /\
  compute_pressure kp (V "fltcond|h" i) (get_masks (V "fltcond|h" i)) = Some (V "fltcond|p" i) /\
  V "fltcond|p" i = V "fltcond|rho" i * (287058/1000) * V "fltcond|T" i /\
  V "fltcond|q" i = 1/2 * V "fltcond|rho" i * V "fltcond|Utrue" i ^ 2 /\
  V "fltcond|q" i = 1/2 * (1225/1000) * V "fltcond|Ueas" i ^ 2 /\
  V "fltcond|Utrue" i = V "fltcond|Ueas" i * sqrt (1225/1000 / V "fltcond|rho" i).
Proof.
  intros H S Hi Ht Hp Hh Hinc.
  assert (At := atmosphere_in kt kp nn false _ V i S ltac:(do 2 right; now left)
    ltac:(intros x Hx; apply steady_source; auto; cbn [In] in Hx; [destruct Hx as [<-|[<-|[<-|[<-|[]]]]]; inlist | intros ->; destruct Hx as [K|[K|[K|[K|[]]]]]; discriminate]) Hi).
  destruct At as (E1 & E2 & E3 & E4 & E5 & E6 & E7).
  pose proof (temp_bounded kt (V "fltcond|h" i) Ht) as B.
  assert (T0 : 0 < V "fltcond|T" i) by lra.
  assert (P0 : 0 < V "fltcond|p" i).
  { destruct (press_positive kp (V "fltcond|h" i) Hp Hh) as (v & Ev & Pv). rewrite Ev in E2. injection E2 as <-. exact Pv. }
  assert (G0 : 0 < Rgas) by (unfold Rgas; lra).
  assert (R0 : 0 < V "fltcond|rho" i) by (rewrite E3; apply Rdiv_lt_0_compat; [now apply Rdiv_lt_0_compat|auto]).
  repeat split; auto.
  - rewrite E3. unfold Rgas. field. lra.
  - rewrite E5. lra.
  - rewrite E5, E7, Rpow_mult_distr, <- Rsqr_pow2, <- (Rsqr_pow2 (sqrt _)), Rsqr_sqrt.
    + unfold Rsqr, rho_isa. field. lra.
    + apply Rlt_le, Rdiv_lt_0_compat; [unfold rho_isa; lra|auto].
Qed.

(** The forces at a node: a flight path angle [g] along which the speed splits into the
    vertical speed and the groundspeed; the lift carries the weight across the path, and
    thrust, drag, weight and wheel friction along the path give the acceleration
    [zero_accel] the user asks for (zero unless set). *)
Theorem C86_forces kt kp tri nn A p V i : own_durations A -> solution (phase_group kt kp tri nn A p SteadyP) V -> (i < nn)%nat ->
  temp_coeffs kt -> pressure_coeffs kp -> V "fltcond|h" i < (28816/100) / (65/10000) -> - (216) < V "fltcond|TempIncrement" i ->
  0 < V "fltcond|Ueas" i -> 0 < V "weight" i -> 0 < V "ac|geom|wing|S_ref" 0%nat -> Rabs (V "fltcond|vs" i) <= V "fltcond|Utrue" i ->
  let m := V "weight" i in let grav := 980665/100000 in
  exists g, - (PI / 2) <= g <= PI / 2 /\
    V "fltcond|vs" i = V "fltcond|Utrue" i * sin g /\ V "fltcond|groundspeed" i = V "fltcond|Utrue" i * cos g /\
    V "lift" i = m * grav * cos g /\
    V "lift" i = V "fltcond|q" i * V "ac|geom|wing|S_ref" 0%nat * V "fltcond|CL" i /\
    m * V "zero_accel" i = V "thrust" i - V "drag" i - m * grav * sin g - V "braking" i * (m * grav - V "lift" i).
Proof.
  intros H S Hi Ht Hp Hh Hinc HU Hm HS Hvs m grav.
  destruct (C86_air _ _ _ _ _ _ _ _ H S Hi Ht Hp Hh Hinc) as (T0 & P0 & R0 & _ & _ & _ & _ & Q & UT).
  destruct (steady_equations _ _ _ _ _ _ _ _ H S Hi) as (E1 & E2 & E3 & E4 & E5 & E6 & E7).
  assert (U0 : 0 < V "fltcond|Utrue" i).
  { rewrite UT. apply Rmult_lt_0_compat; auto. apply sqrt_lt_R0, Rdiv_lt_0_compat; lra. }
  assert (Q0 : 0 < V "fltcond|q" i).
  { rewrite Q. assert (0 < V "fltcond|Ueas" i ^ 2) by (apply pow_lt; auto). lra. }
  set (U := V "fltcond|Utrue" i) in *. set (w := V "fltcond|vs" i) in *.
  assert (W : - U <= w <= U) by (split; pose proof (Rle_abs w); pose proof (Rle_abs (- w)); rewrite Rabs_Ropp in *; lra).
  assert (D : 0 <= U ^ 2 - w ^ 2) by nra.
  unfold gs_fixed, gs_inside in *. cbv beta in *. fold U w in E1, E2, E3.
  destruct (Rlt_dec (U ^ 2 - w ^ 2) 0) as [|_]; [lra|].
  assert (B : -1 <= w / U <= 1).
  { split; apply (Rmult_le_reg_r U); auto; unfold Rdiv; rewrite Rmult_assoc, Rinv_l by lra; lra. }
  assert (C : cos (asin (w / U)) = sqrt (U ^ 2 - w ^ 2) / U).
  { rewrite cos_asin by auto. replace (1 - (w / U)²)%R with ((U ^ 2 - w ^ 2) / U ^ 2) by (unfold Rsqr; field; lra).
    rewrite sqrt_div by (auto; apply pow_lt; auto). now rewrite sqrt_pow2 by lra. }
  assert (L : V "lift" i = m * grav * cos (asin (w / U))).
  { rewrite E5, E4, E3, C. unfold m, grav, GRAV. field. repeat split; lra. }
  exists (asin (w / U)). pose proof (asin_bound (w / U)) as AB. rewrite (sin_asin _ B).
  split; [lra|]. split; [field; lra|]. split; [rewrite E1, C; field; lra|]. split; [exact L|]. split; [exact E5|].
  rewrite E7, E6, E2. unfold floor_vec. fold m.
  assert (K : m * grav - V "lift" i >= 0).
  { rewrite L. pose proof (COS_bound (asin (w / U))) as CB. unfold grav. assert (0 <= m * (980665/100000) * (1 - cos (asin (w / U)))).
    { apply Rmult_le_pos; [apply Rmult_le_pos; unfold m; lra|lra]. } lra. }
  destruct (Rlt_dec (GRAV - V "lift" i / m) 0) as [N|_].
  - exfalso. assert (m * (GRAV - V "lift" i / m) = m * GRAV - V "lift" i) by (field; unfold m; lra).
    assert (m * (GRAV - V "lift" i / m) < 0) by (unfold m in *; nra). unfold grav, GRAV in *. lra.
  - unfold grav, GRAV. field. unfold m. split; lra.
Qed.
(** Without braking and acceleration, the power left over by the drag lifts the aircraft. *)
Theorem C86_power kt kp tri nn A p V i : own_durations A -> solution (phase_group kt kp tri nn A p SteadyP) V -> (i < nn)%nat ->
  temp_coeffs kt -> pressure_coeffs kp -> V "fltcond|h" i < (28816/100) / (65/10000) -> - (216) < V "fltcond|TempIncrement" i ->
  0 < V "fltcond|Ueas" i -> 0 < V "weight" i -> 0 < V "ac|geom|wing|S_ref" 0%nat -> Rabs (V "fltcond|vs" i) <= V "fltcond|Utrue" i ->
  V "braking" i = 0 -> V "zero_accel" i = 0 ->
  (V "thrust" i - V "drag" i) * V "fltcond|Utrue" i = V "weight" i * (980665/100000) * V "fltcond|vs" i /\
  (V "thrust" i - V "drag" i) ^ 2 + V "lift" i ^ 2 = (V "weight" i * (980665/100000)) ^ 2.
Proof.
  intros H S Hi Ht Hp Hh Hinc HU Hm HS Hvs Hb Hz.
  destruct (C86_forces _ _ _ _ _ _ _ _ H S Hi Ht Hp Hh Hinc HU Hm HS Hvs) as (g & _ & E1 & _ & E3 & _ & E5).
  rewrite Hb, Hz in E5. assert (TD : V "thrust" i - V "drag" i = V "weight" i * (980665/100000) * sin g) by lra.
  rewrite TD, E3, E1. pose proof (sin2_cos2 g) as SC. unfold Rsqr in SC. split; [ring|].
  replace (cos g ^ 2 + 0) with (cos g ^ 2) by ring.
  set (W := V "weight" i * (980665/100000)). replace ((W * sin g) ^ 2 + (W * cos g) ^ 2) with (W ^ 2 * (sin g * sin g + cos g * cos g)) by ring.
  rewrite SC. ring.
Qed.
(** The path: altitude and distance start where the phase is told to and change with the
    vertical speed and the groundspeed over the phase's duration. *)
Theorem C86_path kt kp X n A p V : own_durations A -> method_size Simpson n -> is_inverse (n - 1) simpson_a X ->
  solution (phase_group kt kp (method_tri Simpson n X) n A p SteadyP) V ->
  evolves n (V "duration" 0%nat) (V "ode_integ_phase.fltcond|h_initial" 0%nat) (V "fltcond|vs") (V "fltcond|h") /\
  evolves n (V "duration" 0%nat) (V "ode_integ_phase.range_initial" 0%nat) (V "fltcond|groundspeed") (V "range") /\
  V "ode_integ_phase.fltcond|h_final" 0%nat = V "fltcond|h" (n - 1)%nat /\
  V "ode_integ_phase.range_final" 0%nat = V "range" (n - 1)%nat.
Proof.
  intros H MS HX S. set (G := phase_group _ _ _ _ _ _ _) in *.
  assert (I1 := fun s => sol_integ G V n X "ode_integ_phase"
    [integ_std "fltcond|h" "fltcond|vs" false; integ_std "range" "fltcond|groundspeed" false]
    [P "fltcond|vs"; P "fltcond|groundspeed"] [P "fltcond|h"; P "range"] s MS HX S ltac:(right; now left)).
  destruct (I1 (integ_std "fltcond|h" "fltcond|vs" false)) as [A1 A2]; [now left|].
  destruct (I1 (integ_std "range" "fltcond|groundspeed" false)) as [B1 B2]; [now right; left|].
  cbn [integ_std in_q in_rate in_start in_end in_zero String.append] in *.
  set (pin := [P "fltcond|vs"; P "fltcond|groundspeed"]) in *. set (pout := [P "fltcond|h"; P "range"]) in *.
  change (gname "ode_integ_phase" pin "duration") with "ode_integ_phase.duration" in *.
  change (gname "ode_integ_phase" pin "fltcond|h_initial") with "ode_integ_phase.fltcond|h_initial" in *.
  change (gname "ode_integ_phase" pin "range_initial") with "ode_integ_phase.range_initial" in *.
  change (gname "ode_integ_phase" pin "fltcond|vs") with "fltcond|vs" in *.
  change (gname "ode_integ_phase" pin "fltcond|groundspeed") with "fltcond|groundspeed" in *.
  change (gname "ode_integ_phase" pout "fltcond|h") with "fltcond|h" in *.
  change (gname "ode_integ_phase" pout "range") with "range" in *.
  change (gname "ode_integ_phase" pout "fltcond|h_final") with "ode_integ_phase.fltcond|h_final" in *.
  change (gname "ode_integ_phase" pout "range_final") with "ode_integ_phase.range_final" in *.
  unfold G in *. rewrite steady_duration in *.
  rewrite !steady_source in * by (try assumption; try inlist; discriminate).
  assert (Hn : (1 <= n)%nat) by (destruct MS; lia).
  repeat split; auto; etransitivity; [eassumption | symmetry; apply evolves_last; auto | eassumption | symmetry; apply evolves_last; auto].
Qed.

(** A climb of the minimal aircraft, from the ground to 3000 m in ten minutes, that meets
    all hypotheses at every node. *)
Definition ex_climb : flight :=
  {| f_h := 0; f_r := 0; f_T := 600; f_vs := 5; f_eas := 60; f_dT := 0; f_m := 5000; f_S := 30; f_LD := 15; f_Fmax := 10000; f_rf := 0 |}.
Example C86_met kt kp n X : temp_coeffs kt -> pressure_coeffs kp -> method_size Simpson n -> is_inverse (n - 1) simpson_a X ->
  exists V, own_durations minimal /\ solution (phase_group kt kp (method_tri Simpson n X) n minimal "climb" SteadyP) V /\
    V "ode_integ_phase.fltcond|h_final" 0%nat = 3000 /\
    forall i, (i < n)%nat -> V "fltcond|h" i < (28816/100) / (65/10000) /\ - (216) < V "fltcond|TempIncrement" i /\
      0 < V "fltcond|Ueas" i /\ 0 < V "weight" i /\ 0 < V "ac|geom|wing|S_ref" 0%nat /\ Rabs (V "fltcond|vs" i) <= V "fltcond|Utrue" i /\
      V "braking" i = 0 /\ V "zero_accel" i = 0 /\ 0 < V "fltcond|vs" i.
Proof.
  intros Ht Hp MS HX. assert (Hn : 0 < INR (n - 1)) by (destruct MS; apply lt_0_INR; lia).
  assert (HH : forall i, (i < n)%nat -> 0 <= fly_h n ex_climb i <= 3000).
  { intros i Hi. unfold fly_h, ex_climb; cbn [f_h f_T f_vs]. assert (0 <= INR i <= INR (n - 1)) by (split; [apply pos_INR | apply le_INR; lia]).
    assert (0 <= INR i / INR (n - 1) <= 1). { split; [apply Rdiv_le_0_compat; lra|]. apply (Rmult_le_reg_r (INR (n - 1))); auto. unfold Rdiv. rewrite Rmult_assoc, Rinv_l by lra. lra. } lra. }
  assert (HM : forall i, (i < n)%nat -> fly_h n ex_climb i < h_max) by (intros i Hi; specialize (HH i Hi); unfold h_max; lra).
  exists (fly kt kp n ex_climb). split; [intros t []|]. split; [|split].
  - apply fly_steady; auto; [now left | cbn; lra | cbn; lra|]. intros i Hi. destruct (press_positive kp _ Hp (HM i Hi)) as (p & E & _). eauto.
  - change (fly_h n ex_climb (n - 1) = 3000). unfold fly_h, ex_climb; cbn [f_h f_T f_vs]. field. lra.
  - intros i Hi. specialize (HH i Hi).
    change (fly kt kp n ex_climb "fltcond|h" i) with (fly_h n ex_climb i). change (fly kt kp n ex_climb "fltcond|Utrue" i) with (60 * sqrt (rho_isa / fly_rho kt kp n ex_climb i)).
    change (fly kt kp n ex_climb "fltcond|vs" i) with 5. change (fly kt kp n ex_climb "fltcond|Ueas" i) with 60. change (fly kt kp n ex_climb "weight" i) with 5000.
    change (fly kt kp n ex_climb "ac|geom|wing|S_ref" 0%nat) with 30. change (fly kt kp n ex_climb "fltcond|TempIncrement" i) with 0.
    change (fly kt kp n ex_climb "braking" i) with 0. change (fly kt kp n ex_climb "zero_accel" i) with 0.
    assert (B : 0 < fly_rho kt kp n ex_climb i < 16 / 10 * rho_isa).
    { pose proof (temp_bounded kt (fly_h n ex_climb i) Ht) as TB. unfold fly_rho, fly_p, fly_temp. cbn [ex_climb f_dT].
      assert (PB : exists p, compute_pressure kp (fly_h n ex_climb i) (get_masks (fly_h n ex_climb i)) = Some p /\ 0 < p <= 101325).
      { assert (Z : compute_pressure kp 0 (get_masks 0) = Some 101325).
        { rewrite press_pieces by (unfold h_max; lra). unfold pieces. destruct (Rle_dec 0 h_lower) as [_|N]; [|exfalso; rewrite hl_val in N; lra].
          f_equal. unfold p_trop. replace (base 0) with 1 by (unfold base; field). unfold Rpower. rewrite ln_1, Rmult_0_r, exp_0. ring. }
        destruct (Req_dec (fly_h n ex_climb i) 0) as [E0|N0].
        - rewrite E0. exists 101325. split; [exact Z|lra].
        - destruct (press_decreasing kp 0 (fly_h n ex_climb i) Hp ltac:(lra) (HM i Hi)) as (p1 & p2 & E1 & E2 & L).
          exists p2. split; [exact E2|]. destruct (press_positive kp _ Hp (HM i Hi)) as (p' & E3 & L3). rewrite Z in E1. injection E1 as <-. rewrite E2 in E3. injection E3 as <-. lra. }
      destruct PB as (p & -> & P1 & P2). set (T := compute_temp kt (fly_h n ex_climb i) (get_masks (fly_h n ex_climb i))) in *.
      unfold Rgas, rho_isa. split; [apply Rdiv_lt_0_compat; [apply Rdiv_lt_0_compat; lra|lra]|].
      apply (Rmult_lt_reg_r (T + 0)); [lra|]. unfold Rdiv at 1. rewrite Rmult_assoc, Rinv_l by lra. nra. }
    assert (SQ : 1/2 <= sqrt (rho_isa / fly_rho kt kp n ex_climb i)).
    { replace (1/2) with (sqrt ((1/2) ^ 2)) by (apply sqrt_pow2; lra). apply sqrt_le_1_alt. apply (Rmult_le_reg_r (fly_rho kt kp n ex_climb i)); [lra|].
      unfold Rdiv. rewrite Rmult_assoc, Rinv_l by lra. lra. }
    rewrite Rabs_right by lra. repeat split; lra.
Qed.
Print Assumptions C86_forces.
Print Assumptions C86_power.
Print Assumptions C86_path.
