(** Lemmas about the takeoff phases. *)
From Coq Require Import Reals List Bool PeanoNat String Lia Lra.
From Verif Require Import Base Py RSum Model_Algebra Model_Vectors Model_Integrals Spec_Integrals Proofs_Integrals Proofs_IntegMore
  Model_Atmos Proofs_Atmos Model_Aero Model_Phases Model_Mission Model_Net Proofs_Net Model_Thermal Model_HX Model_Ducts Model_HeatPipe
  Model_Systems Proofs_Systems Model_Flight Proofs_Drag Spec_Flight Proofs_Flight.
Import ListNotations.
Open Scope R_scope.
Open Scope string_scope.
Open Scope list_scope.

(** ** Reversing the direction of time *)
Lemma even_flip N j : Nat.even N = true -> (j < N)%nat -> Nat.even (N - 1 - j) = negb (Nat.even j).
Proof.
  intros HN Hj. assert (E : Nat.even (S (N - 1 - j) + j) = true) by (replace (S (N - 1 - j) + j)%nat with N by lia; exact HN).
  rewrite Nat.even_add in E. rewrite Nat.even_succ, <- Nat.negb_even in E.
  destruct (Nat.even (N - 1 - j)), (Nat.even j); cbn in *; congruence.
Qed.
Lemma strip_flip f N j : Nat.even N = true -> (j < N)%nat -> strip (fun i => - f (N - i)%nat) j = - strip f (N - 1 - j).
Proof.
  intros HN Hj. unfold strip. rewrite even_flip by auto. destruct (Nat.even j) eqn:E; cbn [negb].
  - assert (j + 1 <= N - 1 \/ j + 1 = N)%nat as [K|K] by lia.
    + replace (N - 1 - j - 1)%nat with (N - (j + 2))%nat by lia. replace (N - 1 - j + 1)%nat with (N - j)%nat by lia.
      replace (N - 1 - j)%nat with (N - (j + 1))%nat by lia. field.
    + exfalso. subst N. rewrite Nat.add_1_r, Nat.even_succ, <- Nat.negb_even, E in HN. discriminate.
  - assert (1 <= j)%nat by (destruct j; [discriminate|lia]).
    replace (N - 1 - j + 1)%nat with (N - j)%nat by lia. replace (N - 1 - j + 2)%nat with (N - (j - 1))%nat by lia.
    replace (N - 1 - j)%nat with (N - (j + 1))%nat by lia. field.
Qed.
Lemma area_flip f N k : Nat.even N = true -> (k <= N)%nat -> area (fun i => - f (N - i)%nat) k = area f (N - k) - area f N.
Proof.
  intros HN. induction k as [|k IH]; intro Hk; [cbn [area]; rewrite Nat.sub_0_r; ring|].
  cbn [area]. rewrite IH, strip_flip by (auto; lia). replace (N - k)%nat with (S (N - 1 - k)) by lia. cbn [area].
  replace (N - S k)%nat with (N - 1 - k)%nat by lia. ring.
Qed.
Lemma strip_ext f g N j : Nat.even N = true -> (forall i, (i <= N)%nat -> f i = g i) -> (j < N)%nat -> strip f j = strip g j.
Proof.
  intros HN H Hj. unfold strip. destruct (Nat.even j) eqn:E.
  - assert (j + 1 <> N)%nat by (intros <-; rewrite Nat.add_1_r, Nat.even_succ, <- Nat.negb_even, E in HN; discriminate). now rewrite !H by lia.
  - now rewrite !H by lia.
Qed.
Lemma area_ext f g N k : Nat.even N = true -> (forall i, (i <= N)%nat -> f i = g i) -> (k <= N)%nat -> area f k = area g k.
Proof. intros HN H. induction k as [|k IH]; intro Hk; [reflexivity|]. cbn [area]. rewrite IH, (strip_ext f g N) by (auto; lia). reflexivity. Qed.

(** ** Reading shared names *)
Definition shared (G : group) : Prop := forall x, In x own_names -> source G x = x.
Lemma node_read G V name pin C i x y k : source G (gname name pin x) = y -> assoc x (pc_ins C) = Some k ->
  node C (fun x => V (source G (gname name pin x))) i x = V y (match k with Vec => i | Sca => 0%nat end).
Proof. intros Hs A. unfold node. rewrite A, Hs. now destruct k. Qed.
Ltac src Hs := match goal with |- source ?G (gname ?a ?b ?c) = _ =>
  let z := eval vm_compute in (gname a b c) in change (gname a b c) with z; apply Hs; inlist end.
Ltac gread H Hs := repeat (erewrite node_read in H; [| solve [src Hs] | reflexivity]); cbv iota in H.

Lemma ground_shared kt kp tri nn A p : own_durations A -> shared (GroundRollPhase kt kp tri nn A p).
Proof.
  intros H x I. apply source_free. cbn [GroundRollPhase g_conns]. rewrite map_app. intro K. apply in_app_or in K. destruct K as [K|K].
  - unfold ground_conns in K. destruct (String.eqb p "v1v0"); [|destruct (String.eqb p "v0v1")]; cbn [map snd In] in K;
      repeat (destruct K as [K|K]; [subst; apply mem_In in I; vm_compute in I; discriminate|]); contradiction.
  - exact (own_clear A x H I K).
Qed.
Lemma rotation_shared kt kp tri nn A p : own_durations A -> shared (RotationPhase kt kp tri nn A p).
Proof. intros H x I. apply source_free. intro K. exact (own_clear A x H I K). Qed.
Lemma robust_shared kt kp nn A p : own_durations A -> shared (RobustRotationPhase kt kp nn A p).
Proof.
  intros H x I. apply source_free. cbn [RobustRotationPhase g_conns map snd]. intros [K|K].
  - subst. apply mem_In in I. vm_compute in I. discriminate.
  - exact (own_clear A x H I K).
Qed.
Lemma climb_shared kt kp nn A p x : In x own_names -> x <> "fltcond|Ueas" -> source (ClimbAnglePhase kt kp nn A p) x = x.
Proof. intros I N. apply source_free. cbn [ClimbAnglePhase g_conns map snd In]. intros [K|[]]. congruence. Qed.

(** ** Motion along the runway and in the rotation *)
Lemma motion G V nn i : shared G -> solution G V -> In (comp nn "gs" Groundspeeds [P "*"] [P "*"]) (g_subs G) ->
  In (comp nn "lift" Lift [P "*"] [P "*"]) (g_subs G) -> In (comp nn "haccel" HorizontalAcceleration [P "*"] [P "*"]) (g_subs G) -> (i < nn)%nat ->
  V "fltcond|groundspeed" i = gs_fixed (fun x => V x i) /\
  V "fltcond|singamma" i = (if Rlt_dec (V "fltcond|Utrue" i ^ 2 - V "fltcond|vs" i ^ 2) 0 then 1 else V "fltcond|vs" i / V "fltcond|Utrue" i) /\
  V "fltcond|cosgamma" i = gs_fixed (fun x => V x i) / V "fltcond|Utrue" i /\
  V "lift" i = V "fltcond|q" i * V "ac|geom|wing|S_ref" 0%nat * V "fltcond|CL" i /\
  V "accel_horiz" i = V "thrust" i / V "weight" i - V "drag" i / V "weight" i
      - floor_vec (fun x => V x i) * V "braking" i * (GRAV - V "lift" i / V "weight" i) - GRAV * V "fltcond|singamma" i.
Proof.
  intros Hs S I1 I2 I3 Hi.
  assert (E1 := sol_comp G V nn "gs" Groundspeeds [P "*"] [P "*"] "fltcond|groundspeed" _ _ i S I1 eq_refl Hi).
  assert (E2 := sol_comp G V nn "gs" Groundspeeds [P "*"] [P "*"] "fltcond|singamma" _ _ i S I1 eq_refl Hi).
  assert (E3 := sol_comp G V nn "gs" Groundspeeds [P "*"] [P "*"] "fltcond|cosgamma" _ _ i S I1 eq_refl Hi).
  assert (E5 := sol_comp G V nn "lift" Lift [P "*"] [P "*"] "lift" _ _ i S I2 eq_refl Hi).
  assert (E6 := sol_comp G V nn "haccel" HorizontalAcceleration [P "*"] [P "*"] "accel_horiz" _ _ i S I3 eq_refl Hi).
  rewrite gname_star in E1, E2, E3, E5, E6. unfold gs_fixed, gs_inside, floor_vec in *. cbv beta in *.
  gread E1 Hs. gread E2 Hs. gread E3 Hs. gread E5 Hs. gread E6 Hs. repeat split; assumption.
Qed.

(** The stall speed and a multiple of it. *)
Lemma stall_value G V : shared G -> solution G V -> In stall_speed (g_subs G) ->
  V "Vstall_eas" 0%nat = sqrt (2 * V "ac|weights|MTOW" 0%nat * GRAV / (1225/1000) / V "ac|geom|wing|S_ref" 0%nat / V "ac|aero|CLmax_TO" 0%nat).
Proof.
  intros Hs S I. unfold stall_speed in I.
  assert (E := sol_comp G V 1 "stall" StallSpeed _ _ "Vstall_eas" _ _ 0%nat S I eq_refl ltac:(cbn; lia)).
  rewrite gname_star in E. gread E Hs. exact E.
Qed.
Lemma speed_value G V name out mult : shared G -> solution G V -> In (speed_mult name out mult) (g_subs G) -> In mult own_names ->
  V out 0%nat = V "Vstall_eas" 0%nat * V mult 0%nat.
Proof.
  intros Hs S I Im. assert (E := S _ I 0%nat ltac:(lia)). unfold reads, writes in E. cbn [speed_mult multiplier gs_name gs_pin gs_pout ms_out] in E.
  rewrite gname_star in E. unfold mul_compute in E. cbn in E.
  rewrite gname_star, (Hs mult Im), (Hs "Vstall_eas") in E by inlist. injection E as <-. ring.
Qed.

Lemma ground_duration kt kp tri nn A p : source (GroundRollPhase kt kp tri nn A p) "duration" = "duration".
Proof.
  apply source_free. cbn [GroundRollPhase g_conns]. rewrite map_app. intro K. apply in_app_or in K. destruct K as [K|K].
  - unfold ground_conns in K. destruct (String.eqb p "v1v0"); [|destruct (String.eqb p "v0v1")]; cbn [map snd In] in K;
      repeat (destruct K as [K|K]; [discriminate|]); contradiction.
  - apply time_targets in K. now destruct K.
Qed.
Lemma ground_start kt kp tri nn A p : own_durations A -> p <> "v0v1" ->
  source (GroundRollPhase kt kp tri nn A p) "fltcond|Utrue_initial" = "fltcond|Utrue_initial".
Proof.
  intros H N. apply source_free. cbn [GroundRollPhase g_conns]. rewrite map_app. intro K. apply in_app_or in K. destruct K as [K|K].
  - unfold ground_conns in K. destruct (String.eqb p "v1v0"); [|destruct (String.eqb_spec p "v0v1")]; cbn [map snd In] in K;
      [| contradiction |]; repeat (destruct K as [K|K]; [discriminate|]); contradiction.
  - apply time_targets in K. destruct K as [K _]. now apply (proj2 (H _ K)).
Qed.
Lemma time_only_duration A : ~ In "duration" (map snd (time_conns (ac_times A))).
Proof. intro K. apply time_targets in K. now destruct K. Qed.

(** ** The speed of the ground roll *)
Ltac norm_names := repeat match goal with
  | |- context [gname ?a ?b ?c] => let z := eval vm_compute in (gname a b c) in progress change (gname a b c) with z
  | H : context [gname ?a ?b ?c] |- _ => let z := eval vm_compute in (gname a b c) in progress change (gname a b c) with z in H
  end.
Lemma abort_speed kt kp X n A V : own_durations A -> method_size Simpson n -> is_inverse (n - 1) simpson_a X ->
  solution (GroundRollPhase kt kp (method_tri Simpson n X) n A "v1v0") V ->
  evolves n (V "duration" 0%nat) (V "takeoff|v1" 0%nat) (V "accel_horiz") (V "fltcond|Utrue") /\
  V "fltcond|Utrue" (n - 1)%nat = V "zero_speed" 0%nat.
Proof.
  intros H MS HX S. pose proof (ground_shared kt kp (method_tri Simpson n X) n A "v1v0" H) as Hs.
  set (G := GroundRollPhase _ _ _ _ _ _) in *.
  assert (F1 := S (flip n "flipaccel" true [As "vec_in" "accel_horiz"] []) ltac:(do 8 right; now left)).
  assert (F2 := S (flip n "flipvel" false [] [As "vec_out" "fltcond|Utrue"]) ltac:(do 10 right; now left)).
  assert (F3 := S (balance2 1 "v0constraint" "duration" "takeoff|v1" "fltcond|Utrue_initial" [P "*"] [P "duration"]) ltac:(do 11 right; now left) 0%nat ltac:(lia)).
  assert (F4 := fun s => sol_integ G V n X "ode_integ_phase"
    [{| in_q := "vel_q"; in_rate := "vel_dqdt"; in_start := "zero_speed"; in_end := "fltcond|Utrue_initial"; in_zero := false |};
     integ_std "range" "fltcond|groundspeed" false] [P "*"] [P "*"] s MS HX S ltac:(do 9 right; now left)).
  destruct (F4 {| in_q := "vel_q"; in_rate := "vel_dqdt"; in_start := "zero_speed"; in_end := "fltcond|Utrue_initial"; in_zero := false |}) as [Q1 Q2]; [now left|].
  clear F4. cbn [in_q in_rate in_start in_end in_zero] in *.
  unfold reads, writes in *. cbn [flip balance2 gs_name gs_pin gs_pout gs_rel] in *. norm_names.
  assert (D1 : source G "vel_dqdt" = "flipaccel.vec_out") by reflexivity.
  assert (D2 : source G "flipvel.vec_in" = "vel_q") by reflexivity.
  assert (D3 : source G "duration" = "duration") by apply ground_duration.
  assert (D4 : source G "fltcond|Utrue_initial" = "fltcond|Utrue_initial") by (now apply ground_start).
  rewrite D1, ?D3, (Hs "zero_speed") in * by inlist. rewrite D2 in F2. rewrite D4, (Hs "takeoff|v1") in F3 by inlist. rewrite (Hs "accel_horiz") in F1 by inlist.
  destruct MS as [Ho H3]. assert (HN : Nat.even (n - 1) = true).
  { destruct n as [|m]; [lia|]. cbn [Nat.sub]. rewrite Nat.sub_0_r. rewrite Nat.odd_succ in Ho. exact Ho. }
  assert (AF : forall k, (k <= n - 1)%nat -> area (V "flipaccel.vec_out") k = area (V "accel_horiz") (n - 1 - k) - area (V "accel_horiz") (n - 1)).
  { intros k Hk. rewrite <- area_flip by auto. apply (area_ext _ _ (n - 1)); auto. intros i Hi. rewrite F1 by lia. unfold flip_compute, flip_scaler. ring. }
  rewrite AF, Nat.sub_diag in Q2 by lia. cbn [area] in Q2.
  assert (U : forall i, (i < n)%nat -> V "fltcond|Utrue" i = V "zero_speed" 0%nat + V "duration" 0%nat / INR (n - 1) * (area (V "accel_horiz") i - area (V "accel_horiz") (n - 1))).
  { intros i Hi. rewrite F2 by auto. unfold flip_compute, flip_scaler. rewrite Q1 by lia. rewrite AF by lia.
    replace (n - 1 - (n - 1 - i))%nat with i by lia. ring. }
  split.
  - intros i Hi. rewrite F3, Q2, U by auto. ring.
  - rewrite U by lia. ring.
Qed.
Lemma forward_speed kt kp X n A p V : own_durations A -> method_size Simpson n -> is_inverse (n - 1) simpson_a X -> p <> "v1v0" ->
  solution (GroundRollPhase kt kp (method_tri Simpson n X) n A p) V ->
  evolves n (V "duration" 0%nat) (V (if String.eqb p "v0v1" then "zero_speed" else "fltcond|Utrue_initial") 0%nat) (V "accel_horiz") (V "fltcond|Utrue") /\
  V "fltcond|Utrue" (n - 1)%nat = V (if String.eqb p "v0v1" then "takeoff|v1" else "takeoff|vr") 0%nat /\
  V "fltcond|Utrue_final" 0%nat = V "fltcond|Utrue" (n - 1)%nat.
Proof.
  intros H MS HX Np S. pose proof (ground_shared kt kp (method_tri Simpson n X) n A p H) as Hs.
  pose proof (ground_duration kt kp (method_tri Simpson n X) n A p) as Hd.
  pose proof (ground_start kt kp (method_tri Simpson n X) n A p H) as Hi.
  assert (Hn : (1 <= n)%nat) by (destruct MS; lia).
  set (G := GroundRollPhase _ _ _ _ _ _) in *.
  assert (EI : ground_shooting (method_tri Simpson n X) n p =
    [integrators n (method_tri Simpson n X) "ode_integ_phase" [integ_std "fltcond|Utrue" "accel_horiz" false; integ_std "range" "fltcond|groundspeed" (String.eqb p "v0v1")] [P "*"] [P "*"];
     if String.eqb p "v0v1"
     then balance2 1 "v1constraint" "duration" "takeoff|v1" "fltcond|Utrue_final" [P "*"] [P "duration"]
     else balance2 1 "vrconstraint" "duration" "takeoff|vr" "fltcond|Utrue_final" [P "*"] [P "duration"]]).
  { unfold ground_shooting. destruct (String.eqb_spec p "v1v0"); [contradiction|reflexivity]. }
  assert (EC : ground_conns p = if String.eqb p "v0v1" then [("zero_speed", "fltcond|Utrue_initial")] else []).
  { unfold ground_conns. destruct (String.eqb_spec p "v1v0"); [contradiction|reflexivity]. }
  assert (F4 := fun s I => sol_integ G V n X "ode_integ_phase"
    [integ_std "fltcond|Utrue" "accel_horiz" false; integ_std "range" "fltcond|groundspeed" (String.eqb p "v0v1")] [P "*"] [P "*"] s MS HX S I).
  destruct (F4 (integ_std "fltcond|Utrue" "accel_horiz" false)) as [Q1 Q2]; [cbn [G GroundRollPhase g_subs]; rewrite EI; do 8 right; now left | now left|].
  assert (F3 : V (source G (if String.eqb p "v0v1" then "takeoff|v1" else "takeoff|vr")) 0%nat = V (source G "fltcond|Utrue_final") 0%nat).
  { assert (I : In (if String.eqb p "v0v1"
     then balance2 1 "v1constraint" "duration" "takeoff|v1" "fltcond|Utrue_final" [P "*"] [P "duration"]
     else balance2 1 "vrconstraint" "duration" "takeoff|vr" "fltcond|Utrue_final" [P "*"] [P "duration"]) (g_subs G))
      by (cbn [G GroundRollPhase g_subs]; rewrite EI; do 9 right; now left).
    assert (E := S _ I). destruct (String.eqb p "v0v1"); specialize (E 0%nat ltac:(lia)); exact E. }
  clear F4. cbn [integ_std in_q in_rate in_start in_end in_zero String.append] in *. norm_names.
  rewrite Hd in *. rewrite (Hs "accel_horiz") in * by inlist. rewrite (Hs "fltcond|Utrue_final") in F3 by inlist.
  assert (D : source G "fltcond|Utrue_initial" = if String.eqb p "v0v1" then "zero_speed" else "fltcond|Utrue_initial").
  { destruct (String.eqb_spec p "v0v1") as [->|N]; [reflexivity|auto]. }
  rewrite D in *.
  assert (L := evolves_last _ _ _ _ _ Hn Q1).
  split; [exact Q1|]. split; [|congruence]. rewrite L, <- Q2, <- F3. destruct (String.eqb p "v0v1"); (rewrite Hs by inlist); reflexivity.
Qed.
Lemma ground_range kt kp X n A p V : own_durations A -> method_size Simpson n -> is_inverse (n - 1) simpson_a X ->
  solution (GroundRollPhase kt kp (method_tri Simpson n X) n A p) V ->
  evolves n (V "duration" 0%nat) (if String.eqb p "v0v1" then 0 else V "range_initial" 0%nat) (V "fltcond|groundspeed") (V "range") /\
  V "range_final" 0%nat = V "range" (n - 1)%nat.
Proof.
  intros H MS HX S. pose proof (ground_shared kt kp (method_tri Simpson n X) n A p H) as Hs.
  pose proof (ground_duration kt kp (method_tri Simpson n X) n A p) as Hd.
  assert (Hn : (1 <= n)%nat) by (destruct MS; lia).
  set (G := GroundRollPhase _ _ _ _ _ _) in *.
  assert (I : exists l, In (integrators n (method_tri Simpson n X) "ode_integ_phase" l [P "*"] [P "*"]) (g_subs G) /\
    In (integ_std "range" "fltcond|groundspeed" (String.eqb p "v0v1")) l).
  { cbn [G GroundRollPhase g_subs]. unfold ground_shooting. destruct (String.eqb p "v1v0"); eexists; (split; [do 8 right; insub|]); right; now left. }
  destruct I as (l & I1 & I2). destruct (sol_integ G V n X "ode_integ_phase" l [P "*"] [P "*"] _ MS HX S I1 I2) as [Q1 Q2].
  cbn [integ_std in_q in_rate in_start in_end in_zero String.append] in *. norm_names. rewrite Hd in *.
  rewrite (Hs "fltcond|groundspeed"), (Hs "range_initial") in * by inlist.
  split; [exact Q1|]. rewrite Q2. symmetry. now apply evolves_last.
Qed.

(** ** The rotation *)
Lemma rotation_motion kt kp X n A p V : own_durations A -> method_size Simpson n -> is_inverse (n - 1) simpson_a X ->
  solution (RotationPhase kt kp (method_tri Simpson n X) n A p) V ->
  evolves n (V "duration" 0%nat) (V "fltcond|Utrue_initial" 0%nat) (V "accel_horiz") (V "fltcond|Utrue") /\
  evolves n (V "duration" 0%nat) (V "range_initial" 0%nat) (V "fltcond|groundspeed") (V "range") /\
  evolves n (V "duration" 0%nat) 0 (V "accel_vert") (V "fltcond|vs") /\
  evolves n (V "duration" 0%nat) 0 (V "fltcond|vs") (V "fltcond|h") /\
  V "fltcond|h" (n - 1)%nat = V "h_obs" 0%nat /\ V "fltcond|h_final" 0%nat = V "h_obs" 0%nat /\ V "range_final" 0%nat = V "range" (n - 1)%nat.
Proof.
  intros H MS HX S. pose proof (rotation_shared kt kp (method_tri Simpson n X) n A p H) as Hs.
  assert (Hd : source (RotationPhase kt kp (method_tri Simpson n X) n A p) "duration" = "duration") by (apply source_free, time_only_duration).
  assert (Hu : source (RotationPhase kt kp (method_tri Simpson n X) n A p) "fltcond|Utrue_initial" = "fltcond|Utrue_initial").
  { apply source_free. intro K. apply time_targets in K. destruct K as [K _]. now apply (proj2 (H _ K)). }
  assert (Hn : (1 <= n)%nat) by (destruct MS; lia).
  set (G := RotationPhase _ _ _ _ _ _) in *.
  destruct (sol_integ G V n X "intvelocity" [integ_std "fltcond|Utrue" "accel_horiz" false] [P "*"] [P "*"] _ MS HX S ltac:(do 9 right; now left) (or_introl eq_refl)) as [A1 _].
  destruct (sol_integ G V n X "intrange" [integ_std "range" "fltcond|groundspeed" false] [P "*"] [P "*"] _ MS HX S ltac:(do 10 right; now left) (or_introl eq_refl)) as [B1 B2].
  destruct (sol_integ G V n X "intvs" [integ_std "fltcond|vs" "accel_vert" true] [P "*"] [P "*"] _ MS HX S ltac:(do 11 right; now left) (or_introl eq_refl)) as [C1 _].
  destruct (sol_integ G V n X "inth" [integ_std "fltcond|h" "fltcond|vs" true] [P "*"] [P "*"] _ MS HX S ltac:(do 12 right; now left) (or_introl eq_refl)) as [D1 D2].
  assert (E := S (balance2 1 "clear_obstacle" "duration" "h_obs" "fltcond|h_final" [P "*"] [P "duration"]) ltac:(do 8 right; now left) 0%nat ltac:(lia)).
  unfold reads, writes in E. cbn [integ_std in_q in_rate in_start in_end in_zero String.append balance2 gs_name gs_pin] in *. norm_names.
  rewrite ?Hd, ?Hu in *. rewrite (Hs "accel_horiz") in A1 by inlist. rewrite (Hs "fltcond|groundspeed"), (Hs "range_initial") in * by inlist.
  rewrite (Hs "accel_vert") in C1 by inlist. rewrite (Hs "fltcond|vs") in * by inlist. rewrite (Hs "h_obs"), (Hs "fltcond|h_final") in E by inlist.
  assert (L := evolves_last _ _ _ _ _ Hn D1). assert (L2 := evolves_last _ _ _ _ _ Hn B1).
  repeat (split; [assumption|]). split; [congruence|]. split; congruence.
Qed.
Lemma rotation_lift kt kp tri nn A p V i : own_durations A -> solution (RotationPhase kt kp tri nn A p) V -> (i < nn)%nat ->
  V "fltcond|CL" i = V "CL_rotate_mult" i * V "ac|aero|CLmax_TO" 0%nat /\
  V "accel_vert" i = clip ((V "lift" i * V "fltcond|cosgamma" i + (V "thrust" i - V "drag" i) * V "fltcond|singamma" i - GRAV * V "weight" i) / V "weight" i)
                          (- GRAV) (25/10 * GRAV).
Proof.
  intros H S Hi. pose proof (rotation_shared kt kp tri nn A p H) as Hs. set (G := RotationPhase _ _ _ _ _ _) in *.
  assert (E := sol_comp G V nn "vaccel" VerticalAcceleration [P "*"] [P "*"] "accel_vert" _ _ i S ltac:(do 7 right; now left) eq_refl Hi).
  rewrite gname_star in E. unfold raw_vert in E. gread E Hs.
  assert (M := S (multiplier nn "clcomp"
       {| ms_out := "fltcond|CL"; ms_ins := ["CL_rotate_mult"; "ac|aero|CLmax_TO"]; ms_vec := VList [nn; 1%nat]; ms_len := 1;
          ms_sf := 1; ms_div := None; ms_units := None |} [P "*"] [P "*"]) ltac:(do 3 right; now left) i Hi).
  unfold reads, writes in M. cbn [multiplier gs_name gs_pin gs_pout ms_out] in M. rewrite gname_star in M.
  assert (C : forall E : env, mul_compute {| ms_out := "fltcond|CL"; ms_ins := ["CL_rotate_mult"; "ac|aero|CLmax_TO"]; ms_vec := VList [nn; 1%nat]; ms_len := 1;
          ms_sf := 1; ms_div := None; ms_units := None |} E i = Ok (E "CL_rotate_mult" i * E "ac|aero|CLmax_TO" 0%nat)).
  { intro E'. mul_value. replace (list_max [nn; 1]%nat) with nn by (cbn [list_max fold_right]; lia). mul_value2. rewrite bidx_row by auto. f_equal. ring. }
  rewrite C in M. rewrite !gname_star, (Hs "CL_rotate_mult"), (Hs "ac|aero|CLmax_TO") in M by inlist. injection M as <-.
  split; [reflexivity|exact E].
Qed.

(** ** The rotation along a circular arc *)
Lemma robust_values kt kp nn A p V : own_durations A -> (0 < nn)%nat -> solution (RobustRotationPhase kt kp nn A p) V ->
  (forall i, (i < nn)%nat -> V "fltcond|h" i = lin_compute nn (V "h_initial" 0%nat) (V "h_obstacle" 0%nat) i /\
     V "fltcond|Ueas" i = lin_compute nn (V "takeoff|vr" 0%nat) (V "takeoff|v2" 0%nat) i /\
     V "range" i = lin_compute nn (V "range_initial" 0%nat) (V "range_final" 0%nat) i /\
     V "gamma" i = asin ((V "thrust" i - V "drag" i) / V "weight" i / GRAV) /\
     V "fltcond|CL" i = V "fltcond|cosgamma" i * GRAV * V "weight" i / V "fltcond|q" i / V "ac|geom|wing|S_ref" 0%nat) /\
  (let e0 : nenv := fun x => V x 0%nat in
   V "s_transition" 0%nat = tt_st (1066/100) (12/10) e0 /\
   V "h_transition" 0%nat = (if Rgt_dec (tt_ht (12/10) e0) (1066/100) then 1066/100 else tt_ht (12/10) e0) /\
   V "t_transition" 0%nat = tt_st (1066/100) (12/10) e0 / V "fltcond|Utrue" 0%nat) /\
  (let s := (1066/100 - V "h_transition" 0%nat) / tan (V "gamma" (nn - 1)%nat) in
   V "s_climb" 0%nat = s /\ V "t_climb" 0%nat = s / V "fltcond|Utrue" (nn - 1)%nat) /\
  V "range_final" 0%nat = V "range_initial" 0%nat + V "s_transition" 0%nat + V "s_climb" 0%nat /\
  V "duration" 0%nat = V "t_transition" 0%nat + V "t_climb" 0%nat /\ V "fltcond|h_final" 0%nat = V "h_obstacle" 0%nat.
Proof.
  intros H Hn S. pose proof (robust_shared kt kp nn A p H) as Hs.
  set (G := RobustRotationPhase _ _ _ _ _) in *.
  assert (L1 := S (linear_interp nn "altitudes" [As "start_val" "h_initial"] [As "vec" "fltcond|h"]) ltac:(do 1 right; now left)).
  assert (L2 := S (linear_interp nn "speeds" [As "start_val" "takeoff|vr"; As "end_val" "takeoff|v2"] [As "vec" "fltcond|Ueas"]) ltac:(do 5 right; now left)).
  assert (L3 := S (linear_interp nn "ranges" [As "start_val" "range_initial"; As "end_val" "range_final"] [As "vec" "range"]) ltac:(do 15 right; now left)).
  assert (T := S (comp_at 0 ["fltcond|Utrue"; "gamma"] "transition" (TakeoffTransition (1066/100) (12/10))
       [P "fltcond|Utrue"; P "gamma"] [P "h_transition"; P "s_transition"; P "t_transition"]) ltac:(do 10 right; now left)).
  assert (C := S (comp_at (nn - 1) ["fltcond|Utrue"; "gamma"] "v2climb" (TakeoffClimb (1066/100))
       [P "h_transition"; P "fltcond|Utrue"; P "gamma"] [P "s_climb"; P "t_climb"]) ltac:(do 11 right; now left)).
  assert (A1 := S (adder 1 "tod_final" (sum "range_final" ["range_initial"; "s_transition"; "s_climb"] 1 "m") [P "*"] [P "*"]) ltac:(do 12 right; now left) 0%nat ltac:(lia)).
  assert (A2 := S (adder 1 "duration" (sum "duration" ["t_transition"; "t_climb"] 1 "s") [P "*"] [P "*"]) ltac:(do 13 right; now left) 0%nat ltac:(lia)).
  assert (A3 := S (adder 1 "h_final" (sum "fltcond|h_final" ["h_obstacle"] 1 "m") [P "*"] [P "*"]) ltac:(do 14 right; now left) 0%nat ltac:(lia)).
  unfold reads, writes in *. cbn [linear_interp comp_at adder sum gs_name gs_pin gs_pout gs_rel as_out] in *. norm_names.
  assert (D1 : source G "altitudes.end_val" = "h_obstacle") by reflexivity.
  rewrite D1 in *. 
  rewrite (Hs "h_initial") in L1 by inlist.
  rewrite (Hs "takeoff|vr"), (Hs "takeoff|v2") in L2 by inlist. rewrite (Hs "range_initial"), (Hs "range_final") in L3 by inlist.
  assert (T1 := T "s_transition" ltac:(inlist)). assert (T2 := T "h_transition" ltac:(inlist)). assert (T3 := T "t_transition" ltac:(inlist)). clear T.
  assert (C1 := C "s_climb" ltac:(inlist)). assert (C2 := C "t_climb" ltac:(inlist)). clear C.
  norm_names.
  unfold vcompute, nval in T1, T2, T3, C1, C2. cbn in T1, T2, T3, C1, C2. unfold tt_st, tt_ht, tt_R, tc_s in T1, T2, T3, C1, C2.
  cbn -[Rgt_dec pow] in T1, T2, T3, C1, C2.
  rewrite (Hs "fltcond|Utrue"), (Hs "gamma") in * by inlist. rewrite (Hs "h_transition") in * by inlist.
  rewrite add3 in A1 by lia. rewrite add2 in A2 by lia. rewrite add1 in A3 by lia. cbv beta in A1, A2, A3. norm_names.
  rewrite (Hs "range_initial"), (Hs "s_transition"), (Hs "s_climb") in A1 by inlist. rewrite (Hs "t_transition"), (Hs "t_climb") in A2 by inlist.
  rewrite (Hs "h_obstacle") in A3 by inlist. injection A1 as A1. injection A2 as A2. injection A3 as A3.
  split; [|split; [|split; [|repeat split; congruence]]].
  - intros i Hi.
    assert (E1 := sol_comp G V nn "climbangle" ClimbAngleComp [P "drag"; P "weight"; P "thrust"] [P "gamma"] "gamma" _ _ i S ltac:(do 9 right; now left) eq_refl Hi).
    assert (E2 := sol_comp G V nn "clcomp" SteadyFlightCL [P "weight"; P "fltcond|*"; P "ac|*"] [P "*"] "fltcond|CL" _ _ i S ltac:(do 7 right; now left) eq_refl Hi).
    norm_names. cbv beta in E1, E2. gread E1 Hs. gread E2 Hs. repeat split; auto.
  - unfold tt_st, tt_ht, tt_R. auto.
  - cbv zeta. split; assumption.
Qed.
Lemma robust_speeds kt kp nn A p V : own_durations A -> solution (RobustRotationPhase kt kp nn A p) V ->
  V "takeoff|vr" 0%nat = V "Vstall_eas" 0%nat * V "vr_vstall_mult" 0%nat /\
  V "takeoff|v2" 0%nat = V "Vstall_eas" 0%nat * V "v2_vstall_mult" 0%nat.
Proof.
  intros H S. pose proof (robust_shared kt kp nn A p H) as Hs. split.
  - apply (speed_value (RobustRotationPhase kt kp nn A p) V "vrspeed"); auto; [do 3 right; now left | inlist].
  - apply (speed_value (RobustRotationPhase kt kp nn A p) V "v2speed"); auto; [do 4 right; now left | inlist].
Qed.

(** ** The climb on one engine *)
Lemma engine_out kt kp A p V : solution (ClimbAnglePhase kt kp 1 A p) V ->
  V "fltcond|q" 0%nat = 5/10 * V "fltcond|rho" 0%nat * V "fltcond|Utrue" 0%nat ^ 2 /\
  V "fltcond|Utrue" 0%nat = V "takeoff|v2" 0%nat * sqrt (rho_isa / V "fltcond|rho" 0%nat) /\
  V "Vstall_eas" 0%nat = sqrt (2 * V "ac|weights|MTOW" 0%nat * GRAV / (1225/1000) / V "ac|geom|wing|S_ref" 0%nat / V "ac|aero|CLmax_TO" 0%nat) /\
  V "takeoff|v2" 0%nat = V "Vstall_eas" 0%nat * V "v2_vstall_mult" 0%nat /\
  V "fltcond|CL" 0%nat = V "fltcond|cosgamma" 0%nat * GRAV * V "ac|weights|MTOW" 0%nat / V "fltcond|q" 0%nat / V "ac|geom|wing|S_ref" 0%nat /\
  V "gamma" 0%nat = asin ((V "thrust" 0%nat - V "drag" 0%nat) / V "ac|weights|MTOW" 0%nat / GRAV).
Proof.
  intros S. set (G := ClimbAnglePhase _ _ _ _ _) in *.
  assert (Hs : forall x, In x own_names -> x <> "fltcond|Ueas" -> source G x = x) by (intros; now apply climb_shared).
  assert (E1 := sol_comp G V 1 "climbangle" ClimbAngleComp [P "drag"; As "weight" "ac|weights|MTOW"; P "thrust"] [P "gamma"] "gamma" _ _ 0%nat S ltac:(do 6 right; now left) eq_refl ltac:(cbn; lia)).
  assert (E2 := sol_comp G V 1 "clcomp" SteadyFlightCL [As "weight" "ac|weights|MTOW"; P "fltcond|*"; P "ac|*"] [P "*"] "fltcond|CL" _ _ 0%nat S ltac:(do 4 right; now left) eq_refl ltac:(cbn; lia)).
  assert (E3 := sol_comp G V 1 "stall" StallSpeed [As "CLmax" "ac|aero|CLmax_TO"; As "weight" "ac|weights|MTOW"; P "ac|geom|wing|S_ref"] [P "*"] "Vstall_eas" _ _ 0%nat S ltac:(do 1 right; now left) eq_refl ltac:(cbn; lia)).
  assert (M := S (speed_mult "vrspeed" "takeoff|v2" "v2_vstall_mult") ltac:(do 2 right; now left) 0%nat ltac:(lia)).
  unfold reads, writes in M. cbn [speed_mult multiplier gs_name gs_pin gs_pout ms_out] in M. unfold mul_compute in M. cbn in M. norm_names.
  injection M as M.
  cbv beta in E1, E2, E3.
  repeat (erewrite node_read in E1; [| solve [match goal with |- source ?G (gname ?a ?b ?c) = _ =>
    let z := eval vm_compute in (gname a b c) in change (gname a b c) with z; apply Hs; [inlist|discriminate] end] | reflexivity]).
  repeat (erewrite node_read in E2; [| solve [match goal with |- source ?G (gname ?a ?b ?c) = _ =>
    let z := eval vm_compute in (gname a b c) in change (gname a b c) with z; apply Hs; [inlist|discriminate] end] | reflexivity]).
  repeat (erewrite node_read in E3; [| solve [match goal with |- source ?G (gname ?a ?b ?c) = _ =>
    let z := eval vm_compute in (gname a b c) in change (gname a b c) with z; apply Hs; [inlist|discriminate] end] | reflexivity]).
  cbv iota in *.
  destruct (S (subgroup "atmos" (atmosphere kt kp 1 false) [P "*"] [P "*"]) ltac:(do 3 right; now left)) as (W & SW & Wi & Wo).
  pose proof (atmosphere_values kt kp 1 false W 0%nat SW ltac:(lia)) as (_ & _ & _ & _ & Q & _ & U). cbv iota in U.
  assert (O : forall x, In x (group_outs (atmosphere kt kp 1 false)) -> W x 0%nat = V x 0%nat).
  { intros x Ix. rewrite (Wo x 0%nat Ix). unfold writes. cbn [subgroup nested gs_name gs_pout]. now rewrite gname_star. }
  assert (UE : W "fltcond|Ueas" 0%nat = V "takeoff|v2" 0%nat).
  { rewrite (Wi "fltcond|Ueas" 0%nat) by inlist. reflexivity. }
  rewrite !O in Q by inlist. rewrite (O "fltcond|Utrue"), (O "fltcond|rho"), UE in U by inlist.
  assert (M' : V "takeoff|v2" 0%nat = V "Vstall_eas" 0%nat * V "v2_vstall_mult" 0%nat) by (rewrite <- M; ring).
  split; [exact Q|]. split; [exact U|]. split; [exact E3|]. split; [exact M'|]. split; [exact E2|exact E1].
Qed.
