(** C91: the sizing analysis of the airliner closes: it takes off with what it needs, and needs what it takes off with. *)
From Coq Require Import Reals List Bool PeanoNat String Lia Lra.
From Verif Require Import Base Py RSum Model_Algebra Proofs_Algebra Model_Vectors Proofs_Vectors Model_Integrals Spec_Integrals Model_Atmos Proofs_Atmos Model_Aero Model_Mission Spec_Mission
  Proofs_Profiles Props_Targets Model_Net Proofs_Net Model_Thermal Model_HX Model_Ducts Proofs_Ducts Model_HeatPipe Model_Systems Proofs_Systems Model_Weights Spec_Weights Props_Weights Model_Propulsion
  Model_Flight Spec_Flight Proofs_Flight Proofs_Trip Props_Trip Model_Drag Spec_Drag Proofs_Drag Model_Fleet Spec_Fleet Proofs_Fleet Proofs_FleetBody Proofs_FleetSetup Props_Fleet
  Model_Sizing Spec_Airliner Proofs_Airliner Proofs_Sized.
Import ListNotations.
Open Scope R_scope.
Open Scope string_scope.
Open Scope list_scope.

(** ** One phase *)
(** The drag is a parabola on top of the zero-lift drag of the build-up in the configuration of the phase. *)
Theorem C91_drag kt kp D tri n p k W i : solution (phase_group kt kp tri n (SizedB738 D tri) p k) W -> (i < n)%nat -> (p = "groundroll" -> k = GroundP) ->
  flying W i (jet_scalars true) ->
  W "drag" i = parabolic_drag (W "fltcond|q" i) (W "ac|geom|wing|S_ref" 0%nat) (jet_drag (phase_options p) W i) (W "ac|aero|polar|e" 0%nat) (W "ac|geom|wing|AR" 0%nat) (W "fltcond|CL" i).
Proof.
  intros S Hi Hk F. rewrite (sized_drag kt kp D tri n p k W S i Hi), (sized_CD0 kt kp D tri n p k W S i Hi F), (told_options p k Hk). reflexivity.
Qed.
Print Assumptions C91_drag.
(** Thrust and fuel flow are those of the engine deck, scaled to the rating and to the engines that run: with the
    ratings and the constant left at their defaults, of [N] engines [N - 1] run when one has failed, [N] otherwise. *)
Theorem C91_power kt kp D tri n p k W i : solution (phase_group kt kp tri n (SizedB738 D tri) p k) W -> (i < n)%nat ->
  W "num_engine_calc.one" 0%nat = 1 -> W "CFM56.scale_engine.orig_rating_thrust" 0%nat = 27300 * lbf -> W "CFM56.scale_engine.orig_rating_fuel_flow" 0%nat = 27300 * lbf ->
  let at_ f := f (W "throttle" i) (W "fltcond|h" i) (W "fltcond|M" i) in
  let N := W "ac|propulsion|num_engines" 0%nat in let scale := W "ac|propulsion|engine|rating" 0%nat / (27300 * lbf) in
  (W "propulsor_active" i = 1 -> W "thrust" i = N * scale * at_ (dk_thrust D) /\ W "propulsion_multiplier.fuel_flow" i = N * scale * at_ (dk_fuel D)) /\
  (W "propulsor_active" i = 0 -> W "thrust" i = (N - 1) * scale * at_ (dk_thrust D) /\ W "propulsion_multiplier.fuel_flow" i = (N - 1) * scale * at_ (dk_fuel D)).
Proof.
  intros S Hi H1 H2 H3 at_ N scale. destruct (sized_power kt kp D tri n p k W S i Hi) as [E1 E2]. rewrite H1, H2 in E1. rewrite H1, H3 in E2.
  fold N in E1, E2. unfold scale, at_. split; intro A; rewrite A in E1, E2; rewrite E1, E2; unfold Rdiv; split; ring.
Qed.
Print Assumptions C91_power.

(** ** The analysis *)
(** The analysis sets up with any mission that has a reserve, of any number of nodes. When it has converged, its mission is
    one flight of the aircraft that was sized: at every point of the flight the weight is empty weight, payload and the fuel
    that will still be burned. It takes off with the fuel of all phases, lands with that of the reserve and ends the loiter
    with none; the fuel the empty weight was estimated with is that same fuel. *)
Theorem C91_closes kt kp D X n o : method_size Simpson n -> is_inverse (n - 1) simpson_a X -> valid_profile o -> pf_reserve o = true ->
  let tri := method_tri Simpson n X in let A := SizedB738 D tri in
  exists G, mission_group kt kp tri n A o = Ok G /\ setup (SizingMissionAnalysis G) = Ok (SizingMissionAnalysis G) /\
  forall V, solution (SizingMissionAnalysis G) V -> exists V' W, one_flight kt kp tri n A o V' W /\
    (forall p k x i, In (p, k) (profile_phases o) -> In x (free_ins (phase_group kt kp tri n A p k)) -> glob "ac|*" x = true -> W p x i = V x i) /\
    (forall y i, In y (group_outs G) -> V (sub "mission" y) i = V' y i) /\
    let OEW := V "ac|weights|OEW" 0%nat in let payload := V "ac|weights|W_payload" 0%nat in
    let burns l := legs (fun p => burned n sized_book (W p)) l in
    let fuel := W (first_phase o) "fuel_burn_integ.fuel_burn_initial" 0%nat + burns (all_legs o) in
    V "ac|weights|MTOW" 0%nat = OEW + payload + fuel /\
    W (first_phase o) "weight" 0%nat = OEW + payload + burns (all_legs o) /\
    W "descent" "weight" (n - 1)%nat = OEW + payload + burns (reserve_legs o ++ ["loiter"]) /\
    W "loiter" "weight" (n - 1)%nat = OEW + payload /\
    ((forall x, In x ["ac|weights|MTOW"; "ac|propulsion|engine|rating"; "ac|geom|wing|S_ref"; "ac|geom|wing|AR"; "ac|geom|wing|taper"; "ac|geom|fuselage|length"; "ac|geom|fuselage|height"] -> 0 < V x 0%nat) ->
     OEW / pound = jet_empty_weight jet_defaults (fun x => sized_input V fuel x / jet_units x)).
Proof.
  intros MS HX Hv R tri A. pose (M := {| eta_map := fun _ _ => 0; static_map := fun _ => 0 |}).
  assert (FI : In A (fleet M D tri)) by (unfold fleet; cbn [In]; tauto).
  assert (BI : In (A, sized_book) (fuel_burners M D tri)) by (unfold fuel_burners; cbn [In]; tauto).
  pose proof (sizing_checked kt kp D tri n o Hv R) as OK. fold A in OK.
  destruct (fleet_missions M D kt kp tri n A o FI Hv) as [HM HN]. destruct (mission_sets_up_ok _ _ _ _ _ _ HM Hv) as (cs & Ec & EG).
  unfold sizing_ok in OK. rewrite Ec in OK. set (G := {| g_subs := mission_subs kt kp tri n A o; g_conns := some_pairs cs |}) in *. cbv zeta in OK.
  apply andb_prop in OK. destruct OK as [OK O3]. apply andb_prop in OK. destruct OK as [O1 O2]. rewrite forallb_forall in O3. apply mem_In in O2.
  exists G. split; [exact EG|]. split; [apply sets_up_ok, quick_sets_up_ok, O1|]. intros V HV.
  destruct (C89_flies kt kp M D X n A o MS HX Hv FI) as (_ & _ & G' & EG' & HG'). fold tri in EG', HG'. rewrite EG in EG'. injection EG' as <-.
  destruct (sol_nested _ V "mission" G _ _ [P "ac|*"] [] HV ltac:(do 12 right; left; reflexivity)) as (V' & S' & HIn & HOut).
  destruct (HG' V' S') as [W F]. exists V', W. split; [exact F|].
  assert (AC : forall p k x i, In (p, k) (profile_phases o) -> In x (free_ins (phase_group kt kp tri n A p k)) -> glob "ac|*" x = true -> W p x i = V x i).
  { intros p k x i Hp Hx Hg. rewrite (fl_aircraft _ _ _ _ _ _ _ _ F p k x i Hp Hx Hg). specialize (O3 _ Hp). rewrite forallb_forall in O3. specialize (O3 x Hx). rewrite Hg in O3. cbn [negb orb] in O3.
    apply andb_prop in O3. destruct O3 as [Q1 Q2]. apply mem_In in Q1. apply String.eqb_eq in Q2. rewrite (HIn x i Q1). now rewrite Q2. }
  split; [exact AC|].
  assert (RO : forall y i, In y (group_outs G) -> V (sub "mission" y) i = V' y i).
  { intros y i Hy. rewrite (HOut y i Hy). reflexivity. }
  split; [exact RO|]. cbv zeta.
  assert (LO : In ("loiter", SteadyP) (profile_phases o)) by (clear -R; destruct o as [[] b [] []]; cbn in R |- *; subst b; cbn; tauto).
  assert (FB : V "mission.loiter.fuel_burn_integ.fuel_burn_final" 0%nat = W "loiter" "fuel_burn_integ.fuel_burn_final" 0%nat).
  { pose proof (RO "loiter.fuel_burn_integ.fuel_burn_final" 0%nat O2) as E. change (V "mission.loiter.fuel_burn_integ.fuel_burn_final" 0%nat = V' "loiter.fuel_burn_integ.fuel_burn_final" 0%nat) in E. rewrite E.
    apply (fl_reported _ _ _ _ _ _ _ _ F "loiter" SteadyP "fuel_burn_integ.fuel_burn_final" 0%nat LO). apply mem_In. vm_compute. reflexivity. }
  pose proof (sized_MTOW G V HV) as MT. rewrite FB in MT.
  destruct (C89_mission kt kp M D X n A sized_book o V' W MS HX BI F) as (_ & M1 & M2 & M3). specialize (M3 R). cbn [sized_book fb_mass fb_start] in M1.
  destruct (C89_phase kt kp M D n X A sized_book "loiter" SteadyP (W "loiter") MS HX BI (fl_phases _ _ _ _ _ _ _ _ F _ _ LO)) as [B1 B2 B3].
  assert (N1 : (n - 1 < n)%nat) by (destruct MS; lia). pose proof (B1 _ N1) as B4. cbn [sized_book fb_mass fb_used fb_end] in B3, B4.
  assert (TM : In "ac|weights|MTOW" (free_ins (phase_group kt kp tri n A "loiter" SteadyP))) by (eapply takes_ok; [exact (burner_takes M D kt kp tri n A sized_book BI)|exact LO]).
  assert (MV : V' "ac|weights|MTOW" 0%nat = V "ac|weights|MTOW" 0%nat).
  { rewrite <- (AC "loiter" SteadyP "ac|weights|MTOW" 0%nat LO TM eq_refl). symmetry. exact (fl_aircraft _ _ _ _ _ _ _ _ F "loiter" SteadyP _ 0%nat LO TM eq_refl). }
  rewrite MV in M1. rewrite (AC "loiter" SteadyP "ac|weights|MTOW" 0%nat LO TM eq_refl) in B4.
  assert (LA : forall f l m, legs f (l ++ m) = legs f l + legs f m) by (intros f l m; unfold legs; induction l as [|a l IH]; cbn [app fold_right]; [ring|rewrite IH; ring]).
  assert (AL : legs (fun p => burned n sized_book (W p)) (all_legs o) = legs (fun p => burned n sized_book (W p)) (main_legs o) + legs (fun p => burned n sized_book (W p)) (reserve_legs o ++ ["loiter"]))
    by (unfold all_legs; apply LA).

  set (a := legs (fun p => burned n sized_book (W p)) (main_legs o)) in *. set (b := legs (fun p => burned n sized_book (W p)) (reserve_legs o ++ ["loiter"])) in *. rewrite AL.
  assert (FU : V "mission.loiter.fuel_burn_integ.fuel_burn_final" 0%nat = W (first_phase o) "fuel_burn_integ.fuel_burn_initial" 0%nat + (a + b)) by lra.
  split; [lra|]. split; [lra|]. split; [lra|]. split; [lra|]. intro Pos. rewrite <- FU. now apply (sized_OEW G V HV).
Qed.
Print Assumptions C91_closes.
(** The geometry the mission flies with. *)
Theorem C91_geometry G V : solution (SizingMissionAnalysis G) V ->
  let s x := V x 0%nat in let S := s "ac|geom|wing|S_ref" in let AR := s "ac|geom|wing|AR" in let t := s "ac|geom|wing|taper" in let L := s "ac|geom|fuselage|length" in
  (0 < S -> 0 < AR -> 0 < t -> 0 < L -> s "ac|geom|hstab|S_ref" = hstab_size S AR t L /\ s "ac|geom|vstab|S_ref" = vstab_size S AR L) /\
  s "ac|geom|fuselage|S_wet" = PI * s "ac|geom|fuselage|height" * L /\ s "ac|geom|nacelle|S_wet" = PI * s "ac|geom|nacelle|diameter" * s "ac|geom|nacelle|length" /\
  s "ac|aero|CLmax_cruise" = 9/10 * s "ac|aero|airfoil_Cl_max" * cos (s "ac|geom|wing|c4sweep") /\
  s "ac|aero|CLmax_TO" = s "ac|aero|CLmax_cruise" + flap_gain (s "ac|aero|takeoff_flap_deg") (s "ac|geom|wing|c4sweep") (s "ac|geom|wing|toverc") + slat_gain (s "ac|geom|wing|c4sweep").
Proof.
  intros HV s S AR t L. split; [intros; split; [now apply (sized_hstab G V HV)|now apply (sized_vstab G V HV)]|]. split; [apply (sized_wet G V HV)|]. split; [apply (sized_wet G V HV)|]. apply (sized_lift G V HV).
Qed.
Print Assumptions C91_geometry.
