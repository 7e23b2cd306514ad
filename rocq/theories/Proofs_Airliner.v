(** The sized airliner in one phase: drag, thrust and fuel flow. *)
From Coq Require Import Reals List Bool PeanoNat String Lia Lra.
From Verif Require Import Base Py RSum Model_Algebra Proofs_Algebra Model_Vectors Proofs_Vectors Model_Integrals Spec_Integrals Model_Atmos Model_Aero Model_Mission Spec_Mission
  Model_Net Proofs_Net Model_Thermal Model_HX Model_Ducts Proofs_Ducts Model_HeatPipe Model_Systems Proofs_Systems Model_Weights Model_Propulsion Props_Propulsion
  Model_Flight Spec_Flight Proofs_Flight Proofs_Trip Model_Drag Spec_Drag Proofs_Drag Props_Drag Model_Fleet Spec_Fleet Proofs_Fleet Proofs_FleetFlow Model_Sizing Spec_Airliner.
Import ListNotations.
Open Scope R_scope.
Open Scope string_scope.
Open Scope list_scope.

Lemma engines_value nn E i : (i < nn)%nat -> add_compute (active_engines nn) E i = Ok (E "num_engines" 0%nat + E "propulsor_active" i - E "one" 0%nat).
Proof.
  intro H. unfold add_compute, active_engines, add_resolve. cbn [as_ins as_sf as_vec as_len List.length repeat read_sizes Nat.eqb negb res_bind fst snd forallb].
  replace (list_max [1%nat; nn; 1%nat]) with nn by (change (nn = Nat.max 1 (Nat.max nn (Nat.max 1 0))); lia). rewrite fits_refl.
  cbn [fits Nat.eqb orb andb negb combine res_bind fold_left fst snd]. rewrite (bidx_row nn i H). unfold bidx. cbn [Nat.eqb].
  rewrite !Nat.mod_1_r. f_equal. ring.
Qed.
Lemma times_value nn out x k u E i : (i < nn)%nat -> mul_compute (times_engines nn out x k u) E i = Ok (E x i * E k i).
Proof.
  intro H. unfold mul_compute, times_engines, mul_resolve. cbn [ms_ins ms_sf ms_vec ms_len ms_div ms_units List.length repeat read_sizes Nat.eqb negb res_bind fst snd forallb].
  rewrite fits_refl. cbn [andb negb combine res_bind fold_left fst snd]. rewrite (bidx_row nn i H). f_equal. ring.
Qed.
Lemma thrust_value nn E i : (i < nn)%nat -> mul_compute (scale_thrust nn) E i = Ok (E "unit_thrust" i * E "rating_thrust" 0%nat / E "orig_rating_thrust" 0%nat).
Proof.
  intro H. unfold mul_compute, scale_thrust, mul_resolve. cbn [ms_ins ms_sf ms_vec ms_len ms_div ms_units List.length repeat read_sizes Nat.eqb negb res_bind fst snd forallb].
  replace (list_max [nn; 1%nat; 1%nat]) with nn by (change (nn = Nat.max nn (Nat.max 1 (Nat.max 1 0))); lia). rewrite fits_refl.
  cbn [fits Nat.eqb orb andb negb combine res_bind fold_left fst snd]. rewrite (bidx_row nn i H). unfold bidx. cbn [Nat.eqb]. rewrite !Nat.mod_1_r. f_equal. unfold Rdiv. ring.
Qed.
Lemma fuel_value nn E i : (i < nn)%nat -> mul_compute (scale_fuel nn false) E i = Ok (E "unit_fuel_flow" i * E "rating_fuel_flow" 0%nat / E "orig_rating_fuel_flow" 0%nat).
Proof.
  intro H. unfold mul_compute, scale_fuel, mul_resolve. cbn [ms_ins ms_sf ms_vec ms_len ms_div ms_units List.length repeat read_sizes Nat.eqb negb res_bind fst snd forallb].
  replace (list_max [nn; 1%nat; 1%nat]) with nn by (change (nn = Nat.max nn (Nat.max 1 (Nat.max 1 0))); lia). rewrite fits_refl.
  cbn [fits Nat.eqb orb andb negb combine res_bind fold_left fst snd]. rewrite (bidx_row nn i H). unfold bidx. cbn [Nat.eqb]. rewrite !Nat.mod_1_r. f_equal. unfold lhv_scale, Rdiv. ring.
Qed.
Definition rolls (p : string) : bool := in_list p ["v0v1"; "v1v0"; "v1vr"; "rotate"].
Lemma told_options p k : (p = "groundroll" -> k = GroundP) -> configured drag_defaults (rolls (told p k)) = phase_options p.
Proof.
  intro Hk. unfold phase_options. destruct (String.eqb_spec p "groundroll") as [->|N]; [rewrite (Hk eq_refl); reflexivity|].
  assert (T : told p k = p) by (unfold told; apply String.eqb_neq in N; rewrite N; now destruct k). rewrite T. unfold rolls.
  change (in_list p ["groundroll"; "v0v1"; "v1v0"; "v1vr"; "rotate"]) with (String.eqb p "groundroll" || in_list p ["v0v1"; "v1v0"; "v1vr"; "rotate"])%bool.
  apply String.eqb_neq in N. rewrite N. cbn [orb]. destruct (in_list p ["v0v1"; "v1v0"; "v1vr"; "rotate"]); reflexivity.
Qed.
(** The aircraft model with the configuration as a flag. *)
Definition body (D : deck) (tri : mat) (nn : nat) (t : bool) : group :=
  {| g_subs := zero_lift_drag nn t :: tl (g_subs (SizedModel D tri nn "")); g_conns := g_conns (SizedModel D tri nn "") |}.
Lemma body_is D tri nn q : SizedModel D tri nn q = body D tri nn (rolls q).
Proof. reflexivity. Qed.
(** The names of the aircraft model that the phase shows unchanged. *)
Definition shown : list string :=
  ["drag"; "thrust"; "propulsion_multiplier.fuel_flow"; "zero_lift_drag.CD0"; "fltcond|q"; "fltcond|CL"; "ac|geom|wing|S_ref"; "ac|geom|wing|AR"; "ac|aero|polar|e";
   "throttle"; "fltcond|h"; "fltcond|M"; "propulsor_active"; "ac|propulsion|num_engines"; "num_engine_calc.one"; "ac|propulsion|engine|rating";
   "CFM56.scale_engine.orig_rating_thrust"; "CFM56.scale_engine.orig_rating_fuel_flow"].
Definition build_inputs (t : bool) : list string := flight_inputs ++ jet_scalars true ++ takeoff_inputs t.
Section Phase.
Context (kt kp : coeffs) (D : deck) (tri : mat) (nn : nat) (p : string) (k : pkind) (W : env).
Hypothesis SOL : solution (phase_group kt kp tri nn (SizedB738 D tri) p k) W.
Let t := rolls (told p k).
Lemma sized_body : exists U, solution (body D tri nn t) U /\ forall x i, In x (shown ++ build_inputs t) -> U x i = W x i.
Proof.
  destruct (acmodel_in _ _ _ _ _ _ _ _ SOL) as (U & SU & SEE). cbn [SizedB738 ac_model ac_times] in SU, SEE. rewrite body_is in SU, SEE. fold t in SU, SEE.
  exists U. split; [exact SU|]. intros x i Hx. apply SEE.
  assert (F : forallb (fun x => ac_sees ["fuel_burn_integ.duration"] (body D tri nn t) x x) (shown ++ build_inputs t) = true) by (destruct t; vm_compute; reflexivity).
  rewrite forallb_forall in F. now apply F.
Qed.
Lemma sized_drag i : (i < nn)%nat ->
  W "drag" i = parabolic_drag (W "fltcond|q" i) (W "ac|geom|wing|S_ref" 0%nat) (W "zero_lift_drag.CD0" i) (W "ac|aero|polar|e" 0%nat) (W "ac|geom|wing|AR" 0%nat) (W "fltcond|CL" i).
Proof.
  intro Hi. destruct sized_body as (U & SU & SEE).
  pose proof (sol_comp _ U nn "drag_polar" (PolarDrag true) _ _ "drag" _ _ i SU ltac:(insub) eq_refl Hi) as E.
  change (U "drag" i = U "fltcond|q" i * U "ac|geom|wing|S_ref" 0%nat * (U "zero_lift_drag.CD0" i + U "fltcond|CL" i ^ 2 / PI / U "ac|aero|polar|e" 0%nat / U "ac|geom|wing|AR" 0%nat)) in E.
  rewrite !SEE in E by (apply in_or_app; left; insub). rewrite E. unfold parabolic_drag, Rdiv. rewrite !Rinv_mult. ring.
Qed.
Lemma sized_CD0 i : (i < nn)%nat -> flying W i (jet_scalars true) -> W "zero_lift_drag.CD0" i = jet_drag (configured drag_defaults t) W i.
Proof.
  intros Hi FL. destruct sized_body as (U & SU & SEE).
  set (pin := buildup_promotes ++ if t then [P "ac|aero|takeoff_flap_deg"; P "ac|geom|wing|c4sweep"] else []) in *.
  destruct (subgroup_in _ U "zero_lift_drag" (ParasiteDragCoefficient_JetTransport (configured drag_defaults t) nn) pin [] SU ltac:(left; reflexivity)) as (S & SS & SUB).
  assert (F : forallb (fun c => sub_sees (body D tri nn t) "zero_lift_drag" (ParasiteDragCoefficient_JetTransport (configured drag_defaults t) nn) pin [] (fst c) (snd c))
    (("CD0", "zero_lift_drag.CD0") :: map (fun x => (x, x)) (build_inputs t)) = true) by (unfold pin; destruct t; vm_compute; reflexivity).
  rewrite forallb_forall in F.
  assert (SI : same_inputs W S (build_inputs t)).
  { intros x j Hx. rewrite (SUB x x j); [symmetry; apply SEE, in_or_app; now right|]. apply (F (x, x)). right. apply in_map_iff. eauto. }
  rewrite <- (SEE "zero_lift_drag.CD0") by (apply in_or_app; left; insub). rewrite <- (SUB "CD0" "zero_lift_drag.CD0" i (F _ (or_introl eq_refl))).
  assert (FS : flying S i (jet_scalars true)).
  { apply (flying_same W S i _ FL). intros x j Hx. apply SI. unfold build_inputs. rewrite app_assoc. apply in_or_app. now left. }
  rewrite (C71_jet _ nn S i SS Hi FS). symmetry. apply jet_drag_same. exact SI.
Qed.
Lemma sized_power i : (i < nn)%nat ->
  let at_ f := f (W "throttle" i) (W "fltcond|h" i) (W "fltcond|M" i) in
  let engines := W "ac|propulsion|num_engines" 0%nat + W "propulsor_active" i - W "num_engine_calc.one" 0%nat in
  let rating := W "ac|propulsion|engine|rating" 0%nat in
  W "thrust" i = engines * (at_ (dk_thrust D) * rating / W "CFM56.scale_engine.orig_rating_thrust" 0%nat) /\
  W "propulsion_multiplier.fuel_flow" i = engines * (at_ (dk_fuel D) * rating / W "CFM56.scale_engine.orig_rating_fuel_flow" 0%nat).
Proof.
  intro Hi. destruct sized_body as (U & SU & SEE).
  pose proof (sol_rel _ U (adder nn "num_engine_calc" (active_engines nn) [As "num_engines" "ac|propulsion|num_engines"; P "propulsor_active"] []) SU ltac:(insub) i Hi) as E1.
  rewrite engines_value in E1 by exact Hi. injection E1 as E1.
  change (U "ac|propulsion|num_engines" 0%nat + U "propulsor_active" i - U "num_engine_calc.one" 0%nat = U "num_engine_calc.num_active_engines" i) in E1.
  pose proof (sol_multipliers _ U "propulsion_multiplier" _ [] [P "thrust"] (times_engines nn "thrust" "thrust_per_engine" "num_active_engines_1" [TUnit "lbf"]) i SU
    ltac:(insub) ltac:(insub) Hi) as E2. rewrite times_value in E2 by exact Hi. injection E2 as E2.
  change (U "CFM56.thrust" i * U "num_engine_calc.num_active_engines" i = U "thrust" i) in E2.
  pose proof (sol_multipliers _ U "propulsion_multiplier" _ [] [P "thrust"] (times_engines nn "fuel_flow" "fuel_flow_per_engine" "num_active_engines_2" [TUnit "kg"; TDiv; TUnit "s"]) i SU
    ltac:(insub) ltac:(insub) Hi) as E3. rewrite times_value in E3 by exact Hi. injection E3 as E3.
  change (U "CFM56.fuel_flow" i * U "num_engine_calc.num_active_engines" i = U "propulsion_multiplier.fuel_flow" i) in E3.
  destruct (subgroup_in _ U "CFM56" (RubberizedTurbofan D nn) [P "throttle"; P "fltcond|h"; P "fltcond|M"; P "ac|propulsion|engine|rating"] [] SU ltac:(right; right; left; reflexivity)) as (S & SS & SUB).
  destruct (sol_rel _ S (CFM56 D nn "engine_deck" [P "throttle"; P "fltcond|h"; P "fltcond|M"] [P "T4"]) SS ltac:(insub) i Hi) as (C1 & C2 & _).
  change (S "engine_deck.thrust" i = dk_thrust D (S "throttle" i) (S "fltcond|h" i) (S "fltcond|M" i)) in C1.
  change (S "engine_deck.fuel_flow" i = dk_fuel D (S "throttle" i) (S "fltcond|h" i) (S "fltcond|M" i)) in C2.
  assert (R1 : (i < rows (ms_vec (scale_thrust nn)))%nat) by (change (i < Nat.max nn (Nat.max 1 (Nat.max 1 0)))%nat; lia).
  assert (R2 : (i < rows (ms_vec (scale_fuel nn false)))%nat) by (change (i < Nat.max nn (Nat.max 1 (Nat.max 1 0)))%nat; lia).
  pose proof (sol_multipliers _ S "scale_engine" _ _ _ (scale_thrust nn) i SS ltac:(insub) ltac:(insub) R1) as E4. rewrite thrust_value in E4 by exact Hi. injection E4 as E4.
  pose proof (sol_multipliers _ S "scale_engine" _ _ _ (scale_fuel nn false) i SS ltac:(insub) ltac:(insub) R2) as E5. rewrite fuel_value in E5 by exact Hi. injection E5 as E5.
  change (S "engine_deck.thrust" i * S "ac|propulsion|engine|rating" 0%nat / S "scale_engine.orig_rating_thrust" 0%nat = S "thrust" i) in E4.
  change (S "engine_deck.fuel_flow" i * S "ac|propulsion|engine|rating" 0%nat / S "scale_engine.orig_rating_fuel_flow" 0%nat = S "fuel_flow" i) in E5.
  assert (F : forallb (fun c => sub_sees (body D tri nn t) "CFM56" (RubberizedTurbofan D nn) [P "throttle"; P "fltcond|h"; P "fltcond|M"; P "ac|propulsion|engine|rating"] [] (fst c) (snd c))
    [("throttle", "throttle"); ("fltcond|h", "fltcond|h"); ("fltcond|M", "fltcond|M"); ("ac|propulsion|engine|rating", "ac|propulsion|engine|rating"); ("thrust", "CFM56.thrust"); ("fuel_flow", "CFM56.fuel_flow");
     ("scale_engine.orig_rating_thrust", "CFM56.scale_engine.orig_rating_thrust"); ("scale_engine.orig_rating_fuel_flow", "CFM56.scale_engine.orig_rating_fuel_flow")] = true)
    by (vm_compute; reflexivity).
  rewrite forallb_forall in F.
  assert (Q : forall x y j, In (x, y) [("throttle", "throttle"); ("fltcond|h", "fltcond|h"); ("fltcond|M", "fltcond|M"); ("ac|propulsion|engine|rating", "ac|propulsion|engine|rating"); ("thrust", "CFM56.thrust"); ("fuel_flow", "CFM56.fuel_flow");
     ("scale_engine.orig_rating_thrust", "CFM56.scale_engine.orig_rating_thrust"); ("scale_engine.orig_rating_fuel_flow", "CFM56.scale_engine.orig_rating_fuel_flow")] -> S x j = U y j)
    by (intros x y j H; apply SUB; exact (F (x, y) H)).
  rewrite C1 in E4. rewrite C2 in E5. clear C1 C2 F.
  repeat match type of E4 with context [S ?x ?j] => rewrite (Q x _ j ltac:(insub)) in E4 end.
  repeat match type of E5 with context [S ?x ?j] => rewrite (Q x _ j ltac:(insub)) in E5 end.
  rewrite <- E1, <- E4 in E2. rewrite <- E1, <- E5 in E3.
  repeat match type of E2 with context [U ?x ?j] => rewrite (SEE x j ltac:(apply in_or_app; left; insub)) in E2 end.
  repeat match type of E3 with context [U ?x ?j] => rewrite (SEE x j ltac:(apply in_or_app; left; insub)) in E3 end.
  cbv zeta. rewrite <- E2, <- E3. split; ring.
Qed.
End Phase.
