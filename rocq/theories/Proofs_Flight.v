From Coq Require Import Reals List Bool PeanoNat String Lia Lra.
From Verif Require Import Base Py RSum Model_Algebra Model_Vectors Model_Integrals Spec_Integrals Proofs_Integrals Proofs_IntegMore
  Model_Atmos Proofs_Atmos Model_Aero Model_Phases Model_Mission Model_Net Proofs_Net Model_Thermal Model_HX Model_Ducts Model_HeatPipe
  Model_Systems Model_Flight Spec_Flight.
Import ListNotations.
Open Scope R_scope.
Open Scope string_scope.
Open Scope list_scope.

(** ** Integrators *)
Lemma area_rsum f k : area f k = rsum k (simpson_delta f).
Proof. induction k as [|k IH]; [reflexivity|]. cbn [area]. rewrite IH. reflexivity. Qed.
Lemma integ_area n X T zs q0 f i : method_size Simpson n -> is_inverse (n - 1) simpson_a X -> (i < n)%nat ->
  integ_q n (method_tri Simpson n X) (TDuration T) zs q0 f i = start_value zs q0 + T / INR (n - 1) * area f i.
Proof.
  intros [Ho H3] HX Hi. rewrite integ_q_eq by lia. cbn [method_tri]. rewrite simpson_tri_apply by auto. rewrite area_rsum.
  unfold time_step. destruct (Nat.eqb_spec n 1); [lia|]. ring.
Qed.
Lemma integ_final_area n X T zs q0 f : method_size Simpson n -> is_inverse (n - 1) simpson_a X ->
  integ_q_final n (method_tri Simpson n X) (TDuration T) zs q0 f = start_value zs q0 + T / INR (n - 1) * area f (n - 1).
Proof. intros MS HX. unfold integ_q_final. apply integ_area; auto. destruct MS. lia. Qed.
Lemma sol_integ G V n X name l pin pout s : method_size Simpson n -> is_inverse (n - 1) simpson_a X ->
  solution G V -> In (integrators n (method_tri Simpson n X) name l pin pout) (g_subs G) -> In s l ->
  let T := V (source G (gname name pin "duration")) 0%nat in
  let q0 := if in_zero s then 0 else V (source G (gname name pin (in_start s))) 0%nat in
  evolves n T q0 (V (source G (gname name pin (in_rate s)))) (V (gname name pout (in_q s))) /\
  V (gname name pout (in_end s)) 0%nat = q0 + T / INR (n - 1) * area (V (source G (gname name pin (in_rate s)))) (n - 1).
Proof.
  intros MS HX S I L T q0. destruct (S _ I s L) as [H1 H2]. split.
  - intros i Hi. etransitivity; [exact (H1 i Hi)|]. now rewrite integ_area.
  - etransitivity; [exact H2|]. now rewrite integ_final_area.
Qed.
Lemma evolves_last n T q0 f q : (1 <= n)%nat -> evolves n T q0 f q -> q (n - 1)%nat = q0 + T / INR (n - 1) * area f (n - 1).
Proof. intros Hn H. apply H. lia. Qed.
Lemma evolves_first n T q0 f q : (1 <= n)%nat -> evolves n T q0 f q -> q 0%nat = q0.
Proof. intros Hn H. rewrite (H 0%nat) by lia. cbn [area]. ring. Qed.

(** ** Sources *)
Lemma source_free G x : ~ In x (map snd (g_conns G)) -> source G x = x.
Proof.
  intro H. unfold source. destruct (find _ _) as [c|] eqn:F; [|reflexivity]. apply find_some in F. destruct F as [I E].
  apply String.eqb_eq in E. exfalso. apply H. subst x. now apply in_map.
Qed.
Lemma time_targets A t : In t (map snd (time_conns (ac_times A))) -> In t (ac_times A) /\ t <> "duration".
Proof.
  unfold time_conns. rewrite map_map. cbn [snd]. rewrite map_id. intro H. apply filter_In in H. destruct H as [I E]. split; auto.
  intro K. subst. discriminate.
Qed.
Lemma star_read G V name C i x k : source G x = x -> assoc x (pc_ins C) = Some k ->
  node C (fun x => V (source G (gname name [P "*"] x))) i x = V x (match k with Vec => i | Sca => 0%nat end).
Proof. intros Hs A. unfold node. rewrite A, gname_star, Hs. now destruct k. Qed.
Ltac inlist := apply mem_In; vm_compute; reflexivity.
Ltac insub := repeat first [left; reflexivity | right].

(** ** The atmosphere *)
Lemma atmosphere_values kt kp nn tas V i : solution (atmosphere kt kp nn tas) V -> (i < nn)%nat ->
  V "fltcond|T" i = compute_temp kt (V "fltcond|h" i) (get_masks (V "fltcond|h" i)) + V "fltcond|TempIncrement" i /\
  compute_pressure kp (V "fltcond|h" i) (get_masks (V "fltcond|h" i)) = Some (V "fltcond|p" i) /\
  V "fltcond|rho" i = V "fltcond|p" i / Rgas / V "fltcond|T" i /\
  V "fltcond|a" i = sqrt (14/10 * Rgas * V "fltcond|T" i) /\
  V "fltcond|q" i = 5/10 * V "fltcond|rho" i * V "fltcond|Utrue" i ^ 2 /\
  V "fltcond|M" i = V "fltcond|Utrue" i / V "fltcond|a" i /\
  (if tas then V "fltcond|Ueas" i = V "fltcond|Utrue" i * sqrt (V "fltcond|rho" i / rho_isa)
   else V "fltcond|Utrue" i = V "fltcond|Ueas" i * sqrt (rho_isa / V "fltcond|rho" i)).
Proof.
  intros S Hi. set (G := atmosphere kt kp nn tas) in *.
  assert (T := S (temperature kt nn "temp" [P "fltcond|h"; P "fltcond|TempIncrement"] [P "fltcond|T"]) ltac:(now left) i Hi).
  assert (Pr := S (pressure kp nn "pressure" [P "fltcond|h"] [P "fltcond|p"]) ltac:(right; now left) i Hi).
  assert (D := sol_comp G V nn "density" DensityComp _ _ "fltcond|rho" _ _ i S ltac:(do 2 right; now left) eq_refl Hi).
  assert (A := sol_comp G V nn "speedofsound" SpeedOfSoundComp _ _ "fltcond|a" _ _ i S ltac:(do 3 right; now left) eq_refl Hi).
  repeat split; try assumption.
  - refine (sol_comp G V nn "dynamicpressure" DynamicPressureComp [P "*"] [P "*"] "fltcond|q" _ _ i S _ eq_refl Hi). destruct tas; insub.
  - refine (sol_comp G V nn "machnumber" MachNumberComp [P "*"] [P "*"] "fltcond|M" _ _ i S _ eq_refl Hi). destruct tas; insub.
  - destruct tas.
    + exact (sol_comp G V nn "equivair" EquivalentAirspeedComp [P "*"] [P "*"] "fltcond|Ueas" _ _ i S ltac:(insub) eq_refl Hi).
    + exact (sol_comp G V nn "trueair" TrueAirspeedComp [P "*"] [P "*"] "fltcond|Utrue" _ _ i S ltac:(insub) eq_refl Hi).
Qed.
(** The atmosphere inside a phase that shares all names with it. *)
Lemma atmosphere_in kt kp nn tas G V i : solution G V -> In (subgroup "atmos" (atmosphere kt kp nn tas) [P "*"] [P "*"]) (g_subs G) ->
  (forall x, In x ["fltcond|h"; "fltcond|TempIncrement"; "fltcond|Ueas"; "fltcond|Utrue"] -> source G x = x) -> (i < nn)%nat ->
  V "fltcond|T" i = compute_temp kt (V "fltcond|h" i) (get_masks (V "fltcond|h" i)) + V "fltcond|TempIncrement" i /\
  compute_pressure kp (V "fltcond|h" i) (get_masks (V "fltcond|h" i)) = Some (V "fltcond|p" i) /\
  V "fltcond|rho" i = V "fltcond|p" i / Rgas / V "fltcond|T" i /\
  V "fltcond|a" i = sqrt (14/10 * Rgas * V "fltcond|T" i) /\
  V "fltcond|q" i = 5/10 * V "fltcond|rho" i * V "fltcond|Utrue" i ^ 2 /\
  V "fltcond|M" i = V "fltcond|Utrue" i / V "fltcond|a" i /\
  (if tas then V "fltcond|Ueas" i = V "fltcond|Utrue" i * sqrt (V "fltcond|rho" i / rho_isa)
   else V "fltcond|Utrue" i = V "fltcond|Ueas" i * sqrt (rho_isa / V "fltcond|rho" i)).
Proof.
  intros S I Hs Hi. destruct (S _ I) as (W & SW & Wi & Wo).
  assert (R : forall x, source G x = x -> In x (free_ins (atmosphere kt kp nn tas)) -> W x i = V x i).
  { intros x Sx Ix. rewrite (Wi x i Ix). unfold reads. cbn [subgroup nested gs_name gs_pin]. now rewrite gname_star, Sx. }
  assert (O : forall x, In x (group_outs (atmosphere kt kp nn tas)) -> W x i = V x i).
  { intros x Ix. rewrite (Wo x i Ix). unfold writes. cbn [subgroup nested gs_name gs_pout]. now rewrite gname_star. }
  pose proof (atmosphere_values kt kp nn tas W i SW Hi) as H.
  rewrite (R "fltcond|h") in H by (try apply Hs; destruct tas; inlist).
  rewrite (R "fltcond|TempIncrement") in H by (try apply Hs; destruct tas; inlist).
  rewrite (O "fltcond|T"), (O "fltcond|p"), (O "fltcond|rho"), (O "fltcond|a"), (O "fltcond|q"), (O "fltcond|M") in H by (destruct tas; inlist).
  destruct tas.
  - rewrite (O "fltcond|Ueas") in H by (inlist). rewrite (R "fltcond|Utrue") in H by (try apply Hs; inlist). exact H.
  - rewrite (O "fltcond|Utrue") in H by (inlist). rewrite (R "fltcond|Ueas") in H by (try apply Hs; inlist). exact H.
Qed.

(** ** Steady flight *)
Lemma own_clear A x : own_durations A -> In x own_names -> ~ In x (map snd (time_conns (ac_times A))).
Proof. intros H I K. apply time_targets in K. exact (proj1 (H x (proj1 K)) I). Qed.
Lemma setter_targets p x : In x (map snd (snd (setter_of p))) -> ~ In x own_names /\ x <> "duration".
Proof.
  unfold setter_of. repeat (destruct (String.eqb p _); [cbn [snd map]; intro H; cbn [In] in H;
    repeat (destruct H as [H|H]; [subst; split; [intro K; apply mem_In in K; vm_compute in K; discriminate|discriminate]|]); contradiction|]).
  contradiction.
Qed.
Lemma steady_source kt kp tri nn A p x : own_durations A -> In x own_names -> x <> "ode_integ_phase.duration" ->
  source (phase_group kt kp tri nn A p SteadyP) x = x.
Proof.
  intros H I N. apply source_free. cbn [phase_group SteadyFlightPhase g_conns]. rewrite map_app. cbn [map snd]. intro K.
  apply in_app_or in K. destruct K as [K|[K|K]].
  - exact (proj1 (setter_targets p x K) I).
  - congruence.
  - exact (own_clear A x H I K).
Qed.
Lemma find_app_none {A} (f : A -> bool) l r : (forall x, In x l -> f x = false) -> find f (l ++ r) = find f r.
Proof. intro H. induction l as [|a l IH]; [reflexivity|]. cbn [app find]. rewrite (H a (or_introl eq_refl)). apply IH. intros x Hx. apply H. now right. Qed.
Lemma steady_duration kt kp tri nn A p : source (phase_group kt kp tri nn A p SteadyP) "ode_integ_phase.duration" = "duration".
Proof.
  unfold source. cbn [phase_group SteadyFlightPhase g_conns]. rewrite find_app_none; [reflexivity|].
  intros c Hc. apply String.eqb_neq. intro K. apply (in_map snd) in Hc. rewrite K in Hc. apply setter_targets in Hc. apply (proj1 Hc). inlist.
Qed.
Ltac own_read H := repeat (erewrite star_read in H; [| solve [apply steady_source; [assumption | inlist | discriminate]] | reflexivity]); cbv iota in H.
Lemma steady_equations kt kp tri nn A p V i : own_durations A -> solution (phase_group kt kp tri nn A p SteadyP) V -> (i < nn)%nat ->
  V "fltcond|groundspeed" i = gs_fixed (fun x => V x i) /\
  V "fltcond|singamma" i = (if Rlt_dec (V "fltcond|Utrue" i ^ 2 - V "fltcond|vs" i ^ 2) 0 then 1 else V "fltcond|vs" i / V "fltcond|Utrue" i) /\
  V "fltcond|cosgamma" i = gs_fixed (fun x => V x i) / V "fltcond|Utrue" i /\
  V "fltcond|CL" i = V "fltcond|cosgamma" i * GRAV * V "weight" i / V "fltcond|q" i / V "ac|geom|wing|S_ref" 0%nat /\
  V "lift" i = V "fltcond|q" i * V "ac|geom|wing|S_ref" 0%nat * V "fltcond|CL" i /\
  V "accel_horiz" i = V "thrust" i / V "weight" i - V "drag" i / V "weight" i
      - floor_vec (fun x => V x i) * V "braking" i * (GRAV - V "lift" i / V "weight" i) - GRAV * V "fltcond|singamma" i /\
  V "zero_accel" i = V "accel_horiz" i.
Proof.
  intros H S Hi. set (G := phase_group kt kp tri nn A p SteadyP) in *.
  assert (E1 := sol_comp G V nn "gs" Groundspeeds [P "*"] [P "*"] "fltcond|groundspeed" _ _ i S ltac:(do 3 right; now left) eq_refl Hi).
  assert (E2 := sol_comp G V nn "gs" Groundspeeds [P "*"] [P "*"] "fltcond|singamma" _ _ i S ltac:(do 3 right; now left) eq_refl Hi).
  assert (E3 := sol_comp G V nn "gs" Groundspeeds [P "*"] [P "*"] "fltcond|cosgamma" _ _ i S ltac:(do 3 right; now left) eq_refl Hi).
  assert (E4 := sol_comp G V nn "clcomp" SteadyFlightCL [P "*"] [P "*"] "fltcond|CL" _ _ i S ltac:(do 5 right; now left) eq_refl Hi).
  assert (E5 := sol_comp G V nn "lift" Lift [P "*"] [P "*"] "lift" _ _ i S ltac:(do 6 right; now left) eq_refl Hi).
  assert (E6 := sol_comp G V nn "haccel" HorizontalAcceleration [P "*"] [P "*"] "accel_horiz" _ _ i S ltac:(do 7 right; now left) eq_refl Hi).
  assert (E7 := S _ ltac:(do 8 right; now left) i Hi).
  unfold reads in E7. cbn [balance2 gs_name gs_pin] in E7.
  change (gname "steadyflt" [P "accel_horiz"; P "zero_accel"] "zero_accel") with "zero_accel" in E7.
  change (gname "steadyflt" [P "accel_horiz"; P "zero_accel"] "accel_horiz") with "accel_horiz" in E7.
  unfold G in E7. rewrite !steady_source in E7 by (try assumption; try inlist; discriminate). fold G in E7.
  rewrite gname_star in E1, E2, E3, E4, E5, E6.
  unfold gs_fixed, gs_inside, floor_vec in *. cbv beta in *.
  own_read E1. own_read E2. own_read E3. own_read E4. own_read E5. own_read E6. repeat split; assumption.
Qed.
