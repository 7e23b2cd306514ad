(** C87: the takeoff phases, for every aircraft model. *)
From Coq Require Import Reals List Bool PeanoNat String Lia Lra.
From Verif Require Import Base Py RSum Model_Vectors Model_Integrals Spec_Integrals Proofs_Integrals Model_Atmos Proofs_Atmos Model_Phases Model_Mission
  Model_Net Proofs_Net Proofs_Vectors Model_Flight Spec_Flight Proofs_Flight Proofs_Takeoff Proofs_Fly Proofs_Roll.
Import ListNotations.
Open Scope R_scope.
Open Scope string_scope.
Open Scope list_scope.

(** The equation of motion along the path, on the runway and in the rotation: thrust
    less drag, the part of the weight along the path and the friction of the wheels,
    which carry what the lift leaves of the weight. *)
Definition along_path (V : env) (i : nat) : Prop :=
  let m := V "weight" i in let grav := 980665/100000 in
  V "lift" i = V "fltcond|q" i * V "ac|geom|wing|S_ref" 0%nat * V "fltcond|CL" i /\
  exists g, - (PI / 2) <= g <= PI / 2 /\
    V "fltcond|vs" i = V "fltcond|Utrue" i * sin g /\ V "fltcond|groundspeed" i = V "fltcond|Utrue" i * cos g /\
    V "fltcond|singamma" i = sin g /\ V "fltcond|cosgamma" i = cos g /\
    m * V "accel_horiz" i = V "thrust" i - V "drag" i - m * grav * sin g - V "braking" i * Rmax 0 (m * grav - V "lift" i).
Lemma along G V nn i : shared G -> solution G V -> In (comp nn "gs" Groundspeeds [P "*"] [P "*"]) (g_subs G) ->
  In (comp nn "lift" Lift [P "*"] [P "*"]) (g_subs G) -> In (comp nn "haccel" HorizontalAcceleration [P "*"] [P "*"]) (g_subs G) -> (i < nn)%nat ->
  0 < V "weight" i -> 0 < V "fltcond|Utrue" i -> Rabs (V "fltcond|vs" i) <= V "fltcond|Utrue" i -> along_path V i.
Proof.
  intros Hs S I1 I2 I3 Hi Hm U0 Hvs. destruct (motion G V nn i Hs S I1 I2 I3 Hi) as (E1 & E2 & E3 & E5 & E6).
  unfold along_path. cbv zeta. split; [exact E5|].
  set (U := V "fltcond|Utrue" i) in *. set (w := V "fltcond|vs" i) in *. set (m := V "weight" i) in *.
  assert (W : - U <= w <= U) by (split; pose proof (Rle_abs w); pose proof (Rle_abs (- w)); rewrite Rabs_Ropp in *; lra).
  assert (D : 0 <= U ^ 2 - w ^ 2) by nra.
  unfold gs_fixed, gs_inside in *. cbv beta in *. fold U w in E1, E2, E3.
  destruct (Rlt_dec (U ^ 2 - w ^ 2) 0) as [|_]; [lra|].
  assert (B : -1 <= w / U <= 1).
  { split; apply (Rmult_le_reg_r U); auto; unfold Rdiv; rewrite Rmult_assoc, Rinv_l by lra; lra. }
  assert (C : cos (asin (w / U)) = sqrt (U ^ 2 - w ^ 2) / U).
  { rewrite cos_asin by auto. replace (1 - (w / U)²)%R with ((U ^ 2 - w ^ 2) / U ^ 2) by (unfold Rsqr; field; lra).
    rewrite sqrt_div by (auto; apply pow_lt; auto). now rewrite sqrt_pow2 by lra. }
  exists (asin (w / U)). pose proof (asin_bound (w / U)) as AB. rewrite (sin_asin _ B), C.
  split; [lra|]. split; [field; lra|]. split; [rewrite E1; field; lra|]. split; [exact E2|]. split; [exact E3|].
  rewrite E6, E2. unfold floor_vec. fold m.
  assert (K : m * (GRAV - V "lift" i / m) = m * GRAV - V "lift" i) by (field; lra).
  destruct (Rlt_dec (GRAV - V "lift" i / m) 0) as [N|N].
  - rewrite Rmax_left; [unfold GRAV; field; lra|]. unfold GRAV in *. nra.
  - rewrite Rmax_right; [unfold GRAV; field; lra|]. unfold GRAV in *. nra.
Qed.
Theorem C87_roll_forces kt kp tri nn A p V i : own_durations A -> solution (GroundRollPhase kt kp tri nn A p) V -> (i < nn)%nat ->
  0 < V "weight" i -> 0 < V "fltcond|Utrue" i -> Rabs (V "fltcond|vs" i) <= V "fltcond|Utrue" i -> along_path V i.
Proof.
  intros H S Hi. apply (along _ V nn i (ground_shared kt kp tri nn A p H) S); auto;
    [do 2 right; now left | do 4 right; now left | do 7 right; now left].
Qed.
Theorem C87_rotation_forces kt kp tri nn A p V i : own_durations A -> solution (RotationPhase kt kp tri nn A p) V -> (i < nn)%nat ->
  0 < V "weight" i -> 0 < V "fltcond|Utrue" i -> Rabs (V "fltcond|vs" i) <= V "fltcond|Utrue" i ->
  along_path V i /\ V "fltcond|CL" i = V "CL_rotate_mult" i * V "ac|aero|CLmax_TO" 0%nat /\
  (let m := V "weight" i in let grav := 980665/100000 in
   let F := V "lift" i * V "fltcond|cosgamma" i + (V "thrust" i - V "drag" i) * V "fltcond|singamma" i - m * grav in
   - (m * grav) <= F <= 25/10 * (m * grav) -> m * V "accel_vert" i = F).
Proof.
  intros H S Hi Hm U0 Hvs. split.
  - apply (along _ V nn i (rotation_shared kt kp tri nn A p H) S); auto;
      [do 2 right; now left | do 5 right; now left | do 6 right; now left].
  - destruct (rotation_lift _ _ _ _ _ _ _ _ H S Hi) as [E1 E2]. split; [exact E1|]. cbv zeta. intros [F1 F2]. rewrite E2.
    set (F := V "lift" i * V "fltcond|cosgamma" i + (V "thrust" i - V "drag" i) * V "fltcond|singamma" i - GRAV * V "weight" i) in *.
    set (m := V "weight" i) in *.
    replace (V "lift" i * V "fltcond|cosgamma" i + (V "thrust" i - V "drag" i) * V "fltcond|singamma" i - m * (980665/100000)) with F in *
      by (unfold F, GRAV; fold m; ring).
    assert (K : m * (F / m) = F) by (field; lra). unfold clip, GRAV in *.
    rewrite Rmax_left by nra. rewrite Rmin_left by nra. exact K.
Qed.

(** Speed and distance of the roll: the speed starts where the phase is told to (a
    standing start at "zero_speed" for the first roll), changes at the acceleration, and
    the duration is such that it ends at the decision speed or the rotation speed. *)
Theorem C87_roll_speed kt kp X n A p V : own_durations A -> method_size Simpson n -> is_inverse (n - 1) simpson_a X -> p = "v0v1" \/ p = "v1vr" ->
  solution (GroundRollPhase kt kp (method_tri Simpson n X) n A p) V ->
  let first := if String.eqb p "v0v1" then V "zero_speed" 0%nat else V "fltcond|Utrue_initial" 0%nat in
  evolves n (V "duration" 0%nat) first (V "accel_horiz") (V "fltcond|Utrue") /\
  V "fltcond|Utrue" (n - 1)%nat = (if String.eqb p "v0v1" then V "takeoff|v1" 0%nat else V "takeoff|vr" 0%nat).
Proof.
  intros H MS HX Hp S first. assert (Np : p <> "v1v0") by (destruct Hp; subst; discriminate).
  destruct (forward_speed _ _ _ _ _ _ _ H MS HX Np S) as (E1 & E2 & _). unfold first. destruct Hp; subst p; cbn in *; auto.
Qed.
(** The aborted takeoff: speed and time are computed backwards from standstill, yet what
    comes out is a roll forward from the decision speed that ends at standstill. *)
Theorem C87_abort_speed kt kp X n A V : own_durations A -> method_size Simpson n -> is_inverse (n - 1) simpson_a X ->
  solution (GroundRollPhase kt kp (method_tri Simpson n X) n A "v1v0") V ->
  evolves n (V "duration" 0%nat) (V "takeoff|v1" 0%nat) (V "accel_horiz") (V "fltcond|Utrue") /\
  V "fltcond|Utrue" (n - 1)%nat = V "zero_speed" 0%nat.
Proof. apply abort_speed. Qed.
Theorem C87_roll_distance kt kp X n A p V : own_durations A -> method_size Simpson n -> is_inverse (n - 1) simpson_a X ->
  solution (GroundRollPhase kt kp (method_tri Simpson n X) n A p) V ->
  evolves n (V "duration" 0%nat) (if String.eqb p "v0v1" then 0 else V "range_initial" 0%nat) (V "fltcond|groundspeed") (V "range") /\
  V "range_final" 0%nat = V "range" (n - 1)%nat.
Proof. apply ground_range. Qed.
(** The rotation speed is the user's multiple of the speed at which, at sea level, the
    largest lift coefficient just carries the takeoff weight. *)
Theorem C87_rotation_speed kt kp tri nn A p V : own_durations A -> solution (GroundRollPhase kt kp tri nn A p) V ->
  0 < V "ac|weights|MTOW" 0%nat -> 0 < V "ac|geom|wing|S_ref" 0%nat -> 0 < V "ac|aero|CLmax_TO" 0%nat ->
  exists Vs, 0 < Vs /\ V "takeoff|vr" 0%nat = Vs * V "vr_vstall_mult" 0%nat /\
    1/2 * (1225/1000) * Vs ^ 2 * V "ac|geom|wing|S_ref" 0%nat * V "ac|aero|CLmax_TO" 0%nat = V "ac|weights|MTOW" 0%nat * (980665/100000).
Proof.
  intros H S Hm HS HC. pose proof (ground_shared kt kp tri nn A p H) as Hs.
  pose proof (stall_value _ V Hs S ltac:(do 5 right; now left)) as E1.
  pose proof (speed_value _ V "vrspeed" "takeoff|vr" "vr_vstall_mult" Hs S ltac:(do 6 right; now left) ltac:(inlist)) as E2.
  exists (V "Vstall_eas" 0%nat). rewrite E1. assert (P : 0 < 2 * V "ac|weights|MTOW" 0%nat * GRAV / (1225/1000) / V "ac|geom|wing|S_ref" 0%nat / V "ac|aero|CLmax_TO" 0%nat).
  { unfold GRAV. repeat first [lra | apply Rdiv_lt_0_compat | apply Rmult_lt_0_compat]. }
  split; [now apply sqrt_lt_R0|]. split; [now rewrite <- E1|]. rewrite pow2_sqrt by lra. unfold GRAV. field. lra.
Qed.
(** The rotation with the equations of motion: speed and distance carry on, vertical speed
    and altitude start from zero, and the phase lasts until the obstacle is cleared. *)
Theorem C87_rotation_path kt kp X n A p V : own_durations A -> method_size Simpson n -> is_inverse (n - 1) simpson_a X ->
  solution (RotationPhase kt kp (method_tri Simpson n X) n A p) V ->
  evolves n (V "duration" 0%nat) (V "fltcond|Utrue_initial" 0%nat) (V "accel_horiz") (V "fltcond|Utrue") /\
  evolves n (V "duration" 0%nat) (V "range_initial" 0%nat) (V "fltcond|groundspeed") (V "range") /\
  evolves n (V "duration" 0%nat) 0 (V "accel_vert") (V "fltcond|vs") /\
  evolves n (V "duration" 0%nat) 0 (V "fltcond|vs") (V "fltcond|h") /\
  V "fltcond|h" (n - 1)%nat = V "h_obs" 0%nat /\ V "fltcond|h_final" 0%nat = V "h_obs" 0%nat /\ V "range_final" 0%nat = V "range" (n - 1)%nat.
Proof. apply rotation_motion. Qed.
(** The rotation along an arc: speed, altitude and distance run linearly between their
    ends.  The arc is flown at 1.2 times the weight and ends at the climb angle, or at
    10.66 m if that comes first; the climb goes on straight to 10.66 m (not to the
    altitude "h_obstacle" at which the phase ends, see C54). *)
Definition linearly (n : nat) (a b : R) (q : nat -> R) : Prop := forall i, (i < n)%nat -> q i = a + (b - a) * (INR i / INR (n - 1)).
Theorem C87_arc kt kp n A p V : own_durations A -> (2 <= n)%nat -> solution (RobustRotationPhase kt kp n A p) V ->
  (forall i, (i < n)%nat -> 0 < V "weight" i /\ 0 < V "fltcond|Utrue" i /\ 0 < V "thrust" i - V "drag" i < V "weight" i * (980665/100000)) ->
  linearly n (V "h_initial" 0%nat) (V "h_obstacle" 0%nat) (V "fltcond|h") /\
  linearly n (V "takeoff|vr" 0%nat) (V "takeoff|v2" 0%nat) (V "fltcond|Ueas") /\
  linearly n (V "range_initial" 0%nat) (V "range_final" 0%nat) (V "range") /\ V "fltcond|h_final" 0%nat = V "fltcond|h" (n - 1)%nat /\
  (forall i, (i < n)%nat -> 0 < V "gamma" i < PI / 2 /\ V "weight" i * (980665/100000) * sin (V "gamma" i) = V "thrust" i - V "drag" i) /\
  (exists R, 0 < R /\ V "weight" 0%nat * V "fltcond|Utrue" 0%nat ^ 2 / R = (12/10 - 1) * (V "weight" 0%nat * (980665/100000)) /\
    0 <= V "s_transition" 0%nat /\ V "s_transition" 0%nat ^ 2 + (R - V "h_transition" 0%nat) ^ 2 = R ^ 2 /\
    V "h_transition" 0%nat = Rmin (1066/100) (R * (1 - cos (V "gamma" 0%nat)))) /\
  0 <= V "s_climb" 0%nat /\ V "h_transition" 0%nat + V "s_climb" 0%nat * tan (V "gamma" (n - 1)%nat) = 1066/100 /\
  V "range_final" 0%nat = V "range_initial" 0%nat + V "s_transition" 0%nat + V "s_climb" 0%nat /\
  (exists t1 t2, t1 * V "fltcond|Utrue" 0%nat = V "s_transition" 0%nat /\ t2 * V "fltcond|Utrue" (n - 1)%nat = V "s_climb" 0%nat /\ V "duration" 0%nat = t1 + t2).
Proof.
  intros H Hn S Hyp. assert (Hn0 : (0 < n)%nat) by lia. destruct (robust_values _ _ _ _ _ _ H Hn0 S) as (E1 & (E2 & E3 & E4) & (E5 & E6) & E7 & E8 & E9).
  assert (G : forall i, (i < n)%nat -> 0 < V "gamma" i < PI / 2 /\ V "weight" i * (980665/100000) * sin (V "gamma" i) = V "thrust" i - V "drag" i).
  { intros i Hi. destruct (Hyp i Hi) as (M & U & T1 & T2). destruct (E1 i Hi) as (_ & _ & _ & Eg & _). rewrite Eg.
    set (d := V "thrust" i - V "drag" i) in *. set (m := V "weight" i) in *.
    assert (B : 0 < d / m / GRAV < 1).
    { unfold GRAV. split; [repeat apply Rdiv_lt_0_compat; lra|].
      apply (Rmult_lt_reg_r (m * (980665/100000))); [nra|]. replace (d / m / (980665/100000) * (m * (980665/100000))) with d by (field; lra). lra. }
    set (z := d / m / GRAV) in *. assert (SZ : sin (asin z) = z) by (apply sin_asin; lra). pose proof (asin_bound_lt z ltac:(lra)) as AB.
    split; [split; [|lra]|rewrite SZ; unfold z, GRAV; field; lra].
    destruct (Rle_dec (asin z) 0) as [K|K]; [|lra]. exfalso. assert (X := sin_incr_1 (asin z) 0 ltac:(lra) ltac:(lra) ltac:(lra) ltac:(lra) K).
    rewrite sin_0, SZ in X. lra. }
  destruct (Hyp 0%nat ltac:(lia)) as (M0 & U0 & _). destruct (Hyp (n - 1)%nat ltac:(lia)) as (_ & U1 & _).
  destruct (G 0%nat ltac:(lia)) as ((G0 & G0') & _). destruct (G (n - 1)%nat ltac:(lia)) as ((G1 & G1') & _).
  assert (LIN : forall a b, linearly n a b (lin_compute n a b)) by (intros a b i Hi; apply lin_value; auto).
  assert (Lh : linearly n (V "h_initial" 0%nat) (V "h_obstacle" 0%nat) (V "fltcond|h")).
  { intros i Hi. destruct (E1 i Hi) as (-> & _). now apply LIN. }
  set (R := V "fltcond|Utrue" 0%nat ^ 2 / (12/10 - 1) / GRAV).
  assert (RP : 0 < R) by (unfold R, GRAV; apply Rdiv_lt_0_compat; [apply Rdiv_lt_0_compat; [apply pow_lt; lra|lra]|lra]).
  assert (C0 : 0 < cos (V "gamma" 0%nat) < 1).
  { split; [apply cos_gt_0; lra|]. rewrite <- cos_0. apply cos_decreasing_1; lra. }
  assert (TP : 0 < tan (V "gamma" (n - 1)%nat)) by (apply tan_gt_0; lra).
  assert (ARC : 0 <= V "s_transition" 0%nat /\ V "s_transition" 0%nat ^ 2 + (R - V "h_transition" 0%nat) ^ 2 = R ^ 2 /\
    V "h_transition" 0%nat = Rmin (1066/100) (R * (1 - cos (V "gamma" 0%nat)))).
  { rewrite E2, E3. unfold tt_st, tt_ht, tt_R. cbv beta. fold R. set (c := cos (V "gamma" 0%nat)) in *.
    destruct (Rgt_dec (R * (1 - c)) (1066/100)) as [K|K].
    - assert (D : 0 <= R ^ 2 - (R - 1066/100) ^ 2) by (assert (0 < R * c) by (apply Rmult_lt_0_compat; lra); nra).
      split; [apply sqrt_pos|]. rewrite pow2_sqrt by exact D. split; [ring|]. rewrite Rmin_left; lra.
    - assert (SG : 0 < sin (V "gamma" 0%nat)) by (apply sin_gt_0; lra).
      pose proof (sin2_cos2 (V "gamma" 0%nat)) as SC. unfold Rsqr in SC. fold c in SC.
      split; [nra|]. split; [|rewrite Rmin_right; lra]. replace (R - R * (1 - c)) with (R * c) by ring.
      replace ((R * sin (V "gamma" 0%nat)) ^ 2 + (R * c) ^ 2) with (R ^ 2 * (sin (V "gamma" 0%nat) * sin (V "gamma" 0%nat) + c * c)) by ring.
      rewrite SC. ring. }
  split; [exact Lh|]. split; [intros i Hi; destruct (E1 i Hi) as (_ & -> & _); now apply LIN|].
  split; [intros i Hi; destruct (E1 i Hi) as (_ & _ & -> & _); now apply LIN|].
  split; [rewrite E9, (Lh (n - 1)%nat) by lia; field; apply not_0_INR; lia|]. split; [exact G|]. split; [|split; [|split; [|split; [exact E7|]]]].
  - exists R. split; [exact RP|]. split; [|exact ARC]. unfold R, GRAV. field. lra.
  - rewrite E5. destruct ARC as (_ & _ & ->). apply Rmult_le_pos; [|left; now apply Rinv_0_lt_compat].
    pose proof (Rmin_l (1066/100) (R * (1 - cos (V "gamma" 0%nat)))). lra.
  - rewrite E5. field. lra.
  - exists (V "t_transition" 0%nat), (V "t_climb" 0%nat). rewrite E4, E6, E2, E5, E8, E4, E6. split; [field; lra|]. split; [|reflexivity]. field. lra.
Qed.
(** The climb on one engine: at the takeoff safety speed, the lift equal to the takeoff
    weight, the climb angle is such that the thrust carries drag and slope. *)
Theorem C87_engine_out kt kp A p V : solution (ClimbAnglePhase kt kp 1 A p) V ->
  0 < V "ac|weights|MTOW" 0%nat -> 0 < V "ac|geom|wing|S_ref" 0%nat -> 0 < V "ac|aero|CLmax_TO" 0%nat -> 0 < V "fltcond|rho" 0%nat ->
  0 < V "v2_vstall_mult" 0%nat -> V "fltcond|cosgamma" 0%nat = 1 ->
  let W := V "ac|weights|MTOW" 0%nat * (980665/100000) in let q := 1/2 * V "fltcond|rho" 0%nat * V "fltcond|Utrue" 0%nat ^ 2 in
  q * V "ac|geom|wing|S_ref" 0%nat * V "ac|aero|CLmax_TO" 0%nat = V "v2_vstall_mult" 0%nat ^ 2 * W /\
  q * V "ac|geom|wing|S_ref" 0%nat * V "fltcond|CL" 0%nat = W /\
  (Rabs (V "thrust" 0%nat - V "drag" 0%nat) <= W -> V "thrust" 0%nat = V "drag" 0%nat + W * sin (V "gamma" 0%nat)).
Proof.
  intros S Hm HS HC Hr Hv Hc W q. destruct (engine_out _ _ _ _ _ S) as (Q & U & Vs & V2 & CL & G).
  assert (WP : 0 < W) by (unfold W; lra).
  assert (VS : 0 < V "Vstall_eas" 0%nat /\ V "Vstall_eas" 0%nat ^ 2 = 2 * W / (1225/1000) / V "ac|geom|wing|S_ref" 0%nat / V "ac|aero|CLmax_TO" 0%nat).
  { rewrite Vs. assert (0 < 2 * V "ac|weights|MTOW" 0%nat * GRAV / (1225/1000) / V "ac|geom|wing|S_ref" 0%nat / V "ac|aero|CLmax_TO" 0%nat).
    { unfold GRAV. repeat first [lra | apply Rdiv_lt_0_compat | apply Rmult_lt_0_compat]. }
    split; [now apply sqrt_lt_R0|]. rewrite pow2_sqrt by lra. unfold W, GRAV. field. lra. }
  destruct VS as [VP V3].
  assert (RP : 0 < rho_isa / V "fltcond|rho" 0%nat) by (unfold rho_isa; apply Rdiv_lt_0_compat; lra).
  assert (QV : q * V "ac|geom|wing|S_ref" 0%nat * V "ac|aero|CLmax_TO" 0%nat = V "v2_vstall_mult" 0%nat ^ 2 * W).
  { unfold q. rewrite U, V2, !Rpow_mult_distr, pow2_sqrt, V3 by lra. unfold rho_isa. field. lra. }
  assert (QP : 0 < V "fltcond|q" 0%nat).
  { rewrite Q, U, V2. assert (0 < sqrt (rho_isa / V "fltcond|rho" 0%nat)) by now apply sqrt_lt_R0. apply Rmult_lt_0_compat; [lra|]. apply pow_lt. repeat apply Rmult_lt_0_compat; auto. }
  split; [exact QV|]. split.
  - rewrite CL, Hc. replace q with (V "fltcond|q" 0%nat) by (rewrite Q; unfold q; field). unfold W, GRAV. field. lra.
  - intros B. rewrite G. set (d := V "thrust" 0%nat - V "drag" 0%nat) in *.
    assert (B' : - W <= d <= W) by (split; pose proof (Rle_abs d); pose proof (Rle_abs (- d)); rewrite Rabs_Ropp in *; lra).
    replace (d / V "ac|weights|MTOW" 0%nat / GRAV) with (d / W) by (unfold W, GRAV; field; lra).
    rewrite sin_asin by (split; apply (Rmult_le_reg_r W); auto; unfold Rdiv; rewrite Rmult_assoc, Rinv_l by lra; lra).
    unfold d. field. lra.
Qed.

(** Phases of the minimal aircraft that meet all hypotheses at every node. *)
Definition ex_roll (p : string) : roll :=
  let abort := String.eqb p "v1v0" in let a := if abort then - (4/10 * GRAV) else 2 in let mu := if abort then 4/10 else 3/100 in
  let Vs := sqrt (2 * 5000 * GRAV / (1225/1000) / 30 / 2) in
  {| g_h := 0; g_U0 := if abort then 40 else 1; g_a := a; g_T := if abort then 10 else 20; g_r := 0; g_mu := mu; g_thr := if abort then 0 else 1; g_m := 5000;
     g_S := 30; g_LD := 15; g_Fmax := 5000 * (2 + 3/100 * GRAV); g_CLmax := 2; g_mult := 41 / Vs |}.
Example C87_roll_met kt kp n X p : In p ["v0v1"; "v1vr"; "v1v0"] -> pressure_coeffs kp -> method_size Simpson n -> is_inverse (n - 1) simpson_a X ->
  exists V, own_durations minimal /\ solution (GroundRollPhase kt kp (method_tri Simpson n X) n minimal p) V /\
    0 < V "ac|weights|MTOW" 0%nat /\ 0 < V "ac|geom|wing|S_ref" 0%nat /\ 0 < V "ac|aero|CLmax_TO" 0%nat /\
    V "fltcond|Utrue" 0%nat <> V "fltcond|Utrue" (n - 1)%nat /\
    forall i, (i < n)%nat -> 0 < V "weight" i /\ 0 < V "fltcond|Utrue" i /\ Rabs (V "fltcond|vs" i) <= V "fltcond|Utrue" i /\ 0 < V "braking" i.
Proof.
  intros Ip Hp MS HX. assert (Hn : 0 < INR (n - 1)) by (destruct MS; apply lt_0_INR; lia).
  assert (F : forall i, (i < n)%nat -> 0 <= INR i / INR (n - 1) <= 1).
  { intros i Hi. assert (0 <= INR i <= INR (n - 1)) by (split; [apply pos_INR | apply le_INR; lia]).
    split; [apply Rdiv_le_0_compat; lra|]. apply (Rmult_le_reg_r (INR (n - 1))); auto. unfold Rdiv. rewrite Rmult_assoc, Rinv_l by lra. lra. }
  assert (UV : forall i, roll_U n (ex_roll p) i = (if String.eqb p "v1v0" then 40 - 4 * GRAV * (INR i / INR (n - 1)) else 1 + 40 * (INR i / INR (n - 1)))).
  { intros i. unfold roll_U, ex_roll. cbn [g_U0 g_T g_a]. destruct (String.eqb p "v1v0"); field; lra. }
  assert (UP : forall i, (i < n)%nat -> 0 < roll_U n (ex_roll p) i).
  { intros i Hi. rewrite UV. specialize (F i Hi). unfold GRAV. destruct (String.eqb p "v1v0"); lra. }
  assert (VS : 0 < sqrt (2 * 5000 * GRAV / (1225/1000) / 30 / 2)) by (apply sqrt_lt_R0; unfold GRAV; lra).
  assert (PR : exists q, compute_pressure kp 0 (get_masks 0) = Some q).
  { destruct (press_positive kp 0 Hp ltac:(unfold h_max; lra)) as (q & E & _). eauto. }
  exists (rolls kt kp n (ex_roll p) p). split; [intros t []|]. split; [|split; [|split; [|split; [|split]]]].
  - apply rolls_ground; auto.
    + cbn. lra.
    + intros ->. unfold roll_Vs. rewrite UV. cbn [ex_roll g_m g_S g_CLmax g_mult String.eqb Ascii.eqb Bool.eqb]. replace (INR (n - 1) / INR (n - 1)) with 1 by (field; lra). field.
      apply Rgt_not_eq. exact VS.
    + cbn [ex_roll g_m g_a g_thr g_Fmax g_mu]. destruct (String.eqb p "v1v0"); ring.
  - change (0 < 5000). lra.
  - change (0 < 30). lra.
  - change (0 < 2). lra.
  - change (roll_U n (ex_roll p) 0 <> roll_U n (ex_roll p) (n - 1)). rewrite !UV. cbn [INR]. replace (INR (n - 1) / INR (n - 1)) with 1 by (field; lra).
    replace (0 / INR (n - 1)) with 0 by (field; lra). unfold GRAV. destruct (String.eqb p "v1v0"); lra.
  - intros i Hi. specialize (UP i Hi). change (rolls kt kp n (ex_roll p) p "fltcond|Utrue" i) with (roll_U n (ex_roll p) i).
    change (rolls kt kp n (ex_roll p) p "fltcond|vs" i) with 0. change (rolls kt kp n (ex_roll p) p "weight" i) with 5000.
    change (rolls kt kp n (ex_roll p) p "braking" i) with (if String.eqb p "v1v0" then 4/10 else 3/100).
    rewrite Rabs_R0. destruct (String.eqb p "v1v0"); repeat split; lra.
Qed.
Definition ex_arc : arcing :=
  {| a_h0 := 0; a_h1 := 1067/100; a_dT := 0; a_r := 500; a_thr := 1; a_m := 5000; a_S := 30; a_LD := 10; a_Fmax := 15000; a_CLmax := 2; a_vr := 11/10; a_v2 := 12/10 |}.
Lemma ex_arc_values kt kp n i : temp_coeffs kt -> pressure_coeffs kp -> (2 <= n)%nat -> (i < n)%nat ->
  (exists q, compute_pressure kp (arc_h n ex_arc i) (get_masks (arc_h n ex_arc i)) = Some q) /\ 0 < arc_U kt kp n ex_arc i /\
  arc_drag kt kp n ex_arc i = 500 * GRAV.
Proof.
  intros Ht Hp Hn Hi. assert (HN : 0 < INR (n - 1)) by (apply lt_0_INR; lia).
  assert (F : 0 <= INR i / INR (n - 1) <= 1).
  { assert (0 <= INR i <= INR (n - 1)) by (split; [apply pos_INR | apply le_INR; lia]).
    split; [apply Rdiv_le_0_compat; lra|]. apply (Rmult_le_reg_r (INR (n - 1))); auto. unfold Rdiv. rewrite Rmult_assoc, Rinv_l by lra. lra. }
  assert (VS : 0 < arc_Vs ex_arc) by (apply sqrt_lt_R0; cbn; unfold GRAV; lra).
  assert (HH : 0 <= arc_h n ex_arc i <= 1067/100) by (unfold arc_h; rewrite lin_value by auto; cbn [ex_arc a_h0 a_h1]; lra).
  destruct (press_positive kp (arc_h n ex_arc i) Hp ltac:(unfold h_max; lra)) as (q & E & Q).
  assert (TB := temp_bounded kt (arc_h n ex_arc i) Ht).
  assert (RH : 0 < arc_rho kt kp n ex_arc i).
  { unfold arc_rho, arc_p, arc_T. rewrite E. cbn [ex_arc a_dT]. unfold Rgas. apply Rdiv_lt_0_compat; [apply Rdiv_lt_0_compat; lra|lra]. }
  assert (EA : 0 < arc_eas n ex_arc i) by (unfold arc_eas; rewrite lin_value by auto; cbn [ex_arc a_vr a_v2]; nra).
  assert (U : 0 < arc_U kt kp n ex_arc i).
  { unfold arc_U. apply Rmult_lt_0_compat; auto. apply sqrt_lt_R0. unfold rho_isa. apply Rdiv_lt_0_compat; lra. }
  split; [eauto|]. split; [exact U|]. unfold arc_drag, arc_CL.
  assert (0 < arc_q kt kp n ex_arc i). { unfold arc_q. apply Rmult_lt_0_compat; [lra|]. now apply pow_lt. }
  cbn [ex_arc a_m a_S a_LD]. field. lra.
Qed.
Example C87_arc_met kt kp n p : temp_coeffs kt -> pressure_coeffs kp -> (2 <= n)%nat ->
  exists V, own_durations minimal /\ solution (RobustRotationPhase kt kp n minimal p) V /\
  forall i, (i < n)%nat -> 0 < V "weight" i /\ 0 < V "fltcond|Utrue" i /\ 0 < V "thrust" i - V "drag" i < V "weight" i * (980665/100000).
Proof.
  intros Ht Hp Hn. exists (arcs kt kp n ex_arc). split; [intros t []|]. split.
  - apply arcs_rotation; [lia|]. intros i Hi. now destruct (ex_arc_values kt kp n i Ht Hp Hn Hi).
  - intros i Hi. destruct (ex_arc_values kt kp n i Ht Hp Hn Hi) as (_ & U & D).
    change (0 < 5000 /\ 0 < arc_U kt kp n ex_arc i /\ 0 < 1 * 15000 - arc_drag kt kp n ex_arc i < 5000 * (980665/100000)).
    rewrite D. unfold GRAV. repeat split; lra.
Qed.
Definition ex_out : arcing :=
  {| a_h0 := 0; a_h1 := 0; a_dT := 0; a_r := 0; a_thr := 1; a_m := 5000; a_S := 30; a_LD := 10; a_Fmax := 15000; a_CLmax := 2; a_vr := 12/10; a_v2 := 12/10 |}.
Example C87_engine_out_met kt kp p : temp_coeffs kt -> pressure_coeffs kp ->
  exists V, solution (ClimbAnglePhase kt kp 1 minimal p) V /\
  0 < V "ac|weights|MTOW" 0%nat /\ 0 < V "ac|geom|wing|S_ref" 0%nat /\ 0 < V "ac|aero|CLmax_TO" 0%nat /\ 0 < V "fltcond|rho" 0%nat /\
  0 < V "v2_vstall_mult" 0%nat /\ V "fltcond|cosgamma" 0%nat = 1 /\
  Rabs (V "thrust" 0%nat - V "drag" 0%nat) <= V "ac|weights|MTOW" 0%nat * (980665/100000).
Proof.
  intros Ht Hp. assert (H0 : arc_h 1 ex_out 0 = 0) by reflexivity.
  destruct (press_positive kp 0 Hp ltac:(unfold h_max; lra)) as (q & E & Q). assert (TB := temp_bounded kt 0 Ht).
  assert (RH : 0 < arc_rho kt kp 1 ex_out 0).
  { unfold arc_rho, arc_p, arc_T. rewrite H0, E. cbn [ex_out a_dT]. unfold Rgas. apply Rdiv_lt_0_compat; [apply Rdiv_lt_0_compat; lra|lra]. }
  assert (VS : 0 < arc_Vs ex_out) by (apply sqrt_lt_R0; cbn; unfold GRAV; lra).
  assert (U : 0 < arc_U kt kp 1 ex_out 0).
  { unfold arc_U. apply Rmult_lt_0_compat; [change (0 < arc_Vs ex_out * (12/10)); lra|]. apply sqrt_lt_R0. unfold rho_isa. apply Rdiv_lt_0_compat; lra. }
  exists (arcs kt kp 1 ex_out). split; [apply arcs_engine_out; [reflexivity|rewrite H0; eauto]|].
  split; [change (0 < 5000); lra|]. split; [change (0 < 30); lra|]. split; [change (0 < 2); lra|]. split; [exact RH|]. split; [change (0 < 12/10); lra|]. split; [reflexivity|].
  change (Rabs (1 * 15000 - arc_drag kt kp 1 ex_out 0) <= 5000 * (980665/100000)).
  assert (D : arc_drag kt kp 1 ex_out 0 = 500 * GRAV).
  { unfold arc_drag, arc_CL. assert (0 < arc_q kt kp 1 ex_out 0). { unfold arc_q. apply Rmult_lt_0_compat; [lra|]. now apply pow_lt. } cbn [ex_out a_m a_S a_LD]. field. lra. }
  rewrite D. unfold GRAV. rewrite Rabs_right; lra.
Qed.
Example C87_rotation_met kt kp n X p : temp_coeffs kt -> pressure_coeffs kp -> method_size Simpson n -> is_inverse (n - 1) simpson_a X ->
  exists V, own_durations minimal /\ solution (RotationPhase kt kp (method_tri Simpson n X) n minimal p) V /\
  forall i, (i < n)%nat -> 0 < V "weight" i /\ 0 < V "fltcond|Utrue" i /\ Rabs (V "fltcond|vs" i) <= V "fltcond|Utrue" i /\ 0 < V "braking" i /\ 0 < V "duration" 0%nat /\
    let m := V "weight" i in let grav := 980665/100000 in
    let F := V "lift" i * V "fltcond|cosgamma" i + (V "thrust" i - V "drag" i) * V "fltcond|singamma" i - m * grav in
    - (m * grav) <= F <= 25/10 * (m * grav).
Proof.
  intros Ht Hp MS HX. destruct (press_positive kp 0 Hp ltac:(unfold h_max; lra)) as (q & E & Q). assert (TB := temp_bounded kt 0 Ht).
  assert (RH : 0 < lev_rho kt kp).
  { unfold lev_rho, lev_p, lev_T. rewrite E. unfold Rgas. apply Rdiv_lt_0_compat; [apply Rdiv_lt_0_compat; lra|lra]. }
  pose (mult := 5000 * GRAV / (5/10 * lev_rho kt kp * 50 ^ 2 * 30 * 2)).
  pose (f := {| l_U := 50; l_T := 3; l_r := 500; l_mu := 3/100; l_thr := 1; l_m := 5000; l_S := 30; l_LD := 10; l_Fmax := 500 * GRAV; l_CLmax := 2; l_mult := mult |}).
  assert (L : lev_lift kt kp f = l_m f * GRAV).
  { unfold lev_lift, lev_q, lev_CL, f. cbn [l_U l_S l_mult l_CLmax l_m]. unfold mult. field. lra. }
  assert (D : l_thr f * l_Fmax f = lev_drag kt kp f).
  { replace (lev_drag kt kp f) with (lev_lift kt kp f / l_LD f) by (unfold lev_lift, lev_drag; cbn [f l_LD]; field). rewrite L. cbn [f l_thr l_Fmax l_m l_LD]. field. }
  exists (levels kt kp n f). split; [intros t []|]. split.
  - apply levels_rotation; auto; [cbn; lra | cbn; lra | eauto].
  - intros i Hi. change (0 < 5000 /\ 0 < 50 /\ Rabs 0 <= 50 /\ 0 < 3/100 /\ 0 < 3 /\
      - (5000 * (980665/100000)) <= lev_lift kt kp f * 1 + (l_thr f * l_Fmax f - lev_drag kt kp f) * 0 - 5000 * (980665/100000) <= 25/10 * (5000 * (980665/100000))).
    rewrite L, Rabs_R0. cbn [f l_m]. unfold GRAV. repeat split; lra.
Qed.
Print Assumptions C87_roll_forces.
Print Assumptions C87_rotation_forces.
Print Assumptions C87_roll_speed.
Print Assumptions C87_abort_speed.
Print Assumptions C87_rotation_path.
Print Assumptions C87_arc.
Print Assumptions C87_engine_out.
