(** C90: weight, drag, thrust and fuel flow of the example aircraft; the margin of the hybrid twins. *)
From Coq Require Import Reals List Bool PeanoNat String Ascii Lia Lra.
From Verif Require Import Base Py RSum Model_Algebra Model_Vectors Model_Integrals Spec_Integrals Model_Atmos Proofs_Atmos Model_Aero Model_Mission Spec_Mission
  Proofs_Profiles Props_Targets Model_Net Proofs_Net Model_Thermal Model_HX Model_Ducts Proofs_Ducts Model_HeatPipe Model_Systems Spec_Systems Proofs_Systems Model_Weights Spec_Weights
  Model_Flight Spec_Flight Proofs_Flight Proofs_Fly Proofs_FlyJet Proofs_Trip Props_Trip Model_Fleet Spec_Fleet Proofs_Fleet Proofs_FleetFlow Proofs_FleetParts Proofs_FleetBody Proofs_FleetSetup Props_Fleet.
Import ListNotations.
Open Scope R_scope.
Open Scope string_scope.
Open Scope list_scope.

(** The drag is that of the polar of the phase's configuration, to which the cooled hybrids add their duct's.
    The cooled electric TBM does not: its duct is free of drag. *)
Theorem C90_drag kt kp M D tri n A p k W i : solution (phase_group kt kp tri n A p k) W -> (i < n)%nat -> (p = "groundroll" -> k = GroundP) ->
  (In A [TBM850 M tri; Caravan M tri; KingAir M tri; HybridTwin M tri; ElectricTBM M tri; B738 D tri] -> W "drag" i = phase_drag p W i) /\
  (In A [HybridTwinThermal M tri; HybridTwinActive M tri] -> W "drag" i = phase_drag p W i + W "propmodel.duct.drag" i).
Proof.
  intros S Hi HG. split; intro I.
  - apply (fleet_polar kt kp M D tri n A "drag" p k W i); auto. cbn in I |- *. intuition (subst; auto).
  - assert (K : W "drag.drag" i = phase_drag p W i) by (apply (fleet_polar kt kp M D tri n A "drag.drag" p k W i); auto; cbn in I |- *; intuition (subst; auto)).
    rewrite <- K. destruct I as [<-|[<-|[]]].
    + apply (hx_facts kt kp M D tri n p k W (HybridTwinThermal M tri) "ac|propulsion|thermal|duct|area_nozzle" i); auto.
    + apply (hx_facts kt kp M D tri n p k W (HybridTwinActive M tri) "propmodel.area_nozzle" i); auto.
Qed.
Print Assumptions C90_drag.

Section Powers.
Context (kt kp : coeffs) (M : maps) (D : deck) (tri : mat) (n : nat) (p : string) (k : pkind) (W : env).
Notation flies A := (solution (phase_group kt kp tri n A p k) W).
(** The thrust of a propeller of the aircraft's diameter turning at [rpm] with power [P], in the air of node [i]. *)
Definition pulls (rpm : string) (i : nat) (P : R) : R :=
  propeller_thrust (eta_map M) (static_map M) (W "fltcond|rho" i) (W "fltcond|Utrue" i) (W "ac|propulsion|propeller|diameter" 0%nat) (W rpm i) P.
(** Fuel flow and thrust of the aircraft with one turboprop, with two of which the second may have failed, *)
Theorem C90_turboprops i : (i < n)%nat ->
  let rated := W "throttle" i * W "ac|propulsion|engine|rating" 0%nat in
  (flies (TBM850 M tri) -> W "propmodel.fuel_flow" i = fuel_per_joule * rated /\
    (propeller_runs W i "propmodel.prop1.rpm" "ac|propulsion|propeller|diameter" -> W "thrust" i = pulls "propmodel.prop1.rpm" i rated)) /\
  (flies (Caravan M tri) -> W "fuel_flow" i = fuel_per_joule * rated /\
    (propeller_runs W i "prop1rpm" "ac|propulsion|propeller|diameter" -> W "thrust" i = pulls "prop1rpm" i rated)) /\
  (flies (KingAir M tri) -> W "fuel_flow" i = fuel_per_joule * ((1 + W "propulsor_active" i) * rated) /\
    (propeller_runs W i "prop|rpm" "ac|propulsion|propeller|diameter" -> W "thrust" i = pulls "prop|rpm" i rated + pulls "prop|rpm" i (W "propulsor_active" i * rated))).
Proof.
  intros Hi rated. split; [|split]; intro F.
  - destruct (tbm_flow kt kp M D tri n p k W i F Hi) as (H1 & H2 & _). split; [exact H1|exact H2].
  - destruct (caravan_flow kt kp M D tri n p k W i F Hi) as (H1 & H2 & _). split; [exact H1|exact H2].
  - destruct (kingair_flow kt kp M D tri n p k W i F Hi) as (H1 & H2 & _). split; [rewrite H1; unfold rated; ring|exact H2].
Qed.
(** of the hybrids: motors draw on the battery and, for the rest, on the generator; *)
Theorem C90_hybrids A i : (i < n)%nat -> In A [HybridTwin M tri; HybridTwinThermal M tri; HybridTwinActive M tri] -> flies A ->
  exists extra, (A <> HybridTwinActive M tri -> extra = 0) /\ (A = HybridTwinActive M tri -> extra = W "propmodel.refrig.elec_load" i) /\
  let motor := W "throttle" i * W "ac|propulsion|motor|rating" 0%nat in let draw := (1 + W "propulsor_active" i) * motor + extra in
  W "propmodel.battery_load" i = W "hybridization" 0%nat * draw /\
  W "fuel_flow" i = fuel_per_joule * ((1 - W "hybridization" 0%nat) * draw / (97/100)) /\
  (propeller_runs W i "proprpm" "ac|propulsion|propeller|diameter" ->
   W "thrust" i = pulls "proprpm" i (97/100 * motor) + pulls "proprpm" i (W "propulsor_active" i * (97/100 * motor))).
Proof.
  intros Hi I F.
  assert (G : forall h load, is_hybrid M tri n A h load -> let motor := W "throttle" i * W "ac|propulsion|motor|rating" 0%nat in let draw := hybrid_draw W load i in
    W "propmodel.battery_load" i = W "hybridization" 0%nat * draw /\ W "fuel_flow" i = fuel_per_joule * ((1 - W "hybridization" 0%nat) * draw / (97/100)) /\
    (propeller_runs W i "proprpm" "ac|propulsion|propeller|diameter" -> W "thrust" i = pulls "proprpm" i (97/100 * motor) + pulls "proprpm" i (W "propulsor_active" i * (97/100 * motor)))).
  { intros h load HH motor draw. destruct (hybrid_flow kt kp M D tri n p k W A h load i HH F Hi) as (H1 & H2 & H3 & H4). split; [exact H1|split; [|exact H4]].
    rewrite H3. fold draw in H2. rewrite <- H2. field. }
  destruct I as [E|[E|[E|[]]]].
  - exists 0. split; [auto|]. split; [intro E'; exfalso|].
    2:{ specialize (G (TwinSeriesHybridElectricPropulsionSystem M n tri) "motors_elec_load"). unfold hybrid_draw in G. apply G. left. auto. }
    rewrite <- E in E'. apply (f_equal (fun a => List.length (ac_times a))) in E'. vm_compute in E'. discriminate.
  - exists 0. split; [auto|]. split; [intro E'; exfalso|].
    2:{ specialize (G (TwinSeriesHybridElectricThermalPropulsionSystem M n tri) "motors_elec_load"). unfold hybrid_draw in G. apply G. right. left. auto. }
    rewrite <- E in E'. apply (f_equal (fun a => List.length (ac_times a))) in E'. vm_compute in E'. discriminate.
  - exists (W "propmodel.refrig.elec_load" i). split; [intro N; exfalso; now apply N|]. split; [auto|].
    specialize (G (TwinSeriesHybridElectricThermalPropulsionRefrigerated M n tri) "total_elec_load"). unfold hybrid_draw in G. apply G. right. right. auto.
Qed.
(** of the electric aircraft, of the airliner and of the minimal one. *)
Theorem C90_others i : (i < n)%nat ->
  (flies (ElectricTBM M tri) -> let motor := W "throttle" i * W "ac|propulsion|motor|rating" 0%nat in
    W "propmodel.motor1.elec_load" i = motor /\ W "weight" i = W "ac|weights|MTOW" 0%nat /\
    (propeller_runs W i "prop1rpm" "ac|propulsion|propeller|diameter" -> W "thrust" i = pulls "prop1rpm" i (97/100 * motor))) /\
  (flies (B738 D tri) -> let at_ f := f (W "throttle" i) (W "fltcond|h" i) (W "fltcond|M" i) in
    W "fuel_flow" i = 2 * at_ (dk_fuel D) /\ W "thrust" i = 2 * at_ (dk_thrust D)) /\
  (flies (minimal_integrator tri) ->
    W "fuel_flow_calc.fuel_flow" i = W "ac|propulsion|TSFC" 0%nat * W "thrust" i /\ W "thrust" i = W "ac|propulsion|max_thrust" 0%nat * W "throttle" i /\
    W "drag" i = W "fltcond|q" i * W "ac|geom|wing|S_ref" 0%nat * W "fltcond|CL" i / W "ac|aero|L_over_D" 0%nat).
Proof.
  intro Hi. split; [|split]; intro F.
  - destruct (electric_facts kt kp M D tri n p k W i F Hi) as (H1 & H2 & H3). auto.
  - destruct (b738_facts kt kp M D tri n p k W i F Hi) as (H1 & H2 & H3). auto.
  - destruct (minimal_facts kt kp M D tri n p k W i F Hi) as (H1 & H2 & H3). auto.
Qed.
(** A failed propulsor neither pulls nor draws power. *)
Theorem C90_engine_out i : (i < n)%nat -> W "propulsor_active" i = 0 ->
  let rated := W "throttle" i * W "ac|propulsion|engine|rating" 0%nat in let motor := W "throttle" i * W "ac|propulsion|motor|rating" 0%nat in
  (flies (KingAir M tri) -> W "fuel_flow" i = fuel_per_joule * rated /\
    (propeller_runs W i "prop|rpm" "ac|propulsion|propeller|diameter" -> W "thrust" i = pulls "prop|rpm" i rated)) /\
  (forall A, In A [HybridTwin M tri; HybridTwinThermal M tri; HybridTwinActive M tri] -> flies A ->
    propeller_runs W i "proprpm" "ac|propulsion|propeller|diameter" -> W "thrust" i = pulls "proprpm" i (97/100 * motor)).
Proof.
  intros Hi Z rated motor. assert (P0 : forall rpm, pulls rpm i 0 = 0).
  { intro rpm. unfold pulls, propeller_thrust. cbv zeta. unfold Rdiv. rewrite !Rmult_0_l, !Rmult_0_r, !Rmult_0_l.
    repeat (destruct (Rle_dec _ _)); ring. }
  split.
  - intro F. destruct (proj2 (proj2 (C90_turboprops i Hi)) F) as [H1 H2]. rewrite Z in H1, H2. split; [rewrite H1; unfold rated; ring|].
    intro R. rewrite (H2 R), Rmult_0_l, P0, Rplus_0_r. reflexivity.
  - intros A I F R. destruct (C90_hybrids A i Hi I F) as (e & _ & _ & _ & _ & H). rewrite (H R), Z, Rmult_0_l, P0, Rplus_0_r. reflexivity.
Qed.
(** The empty weight is that of the weight formulas (C67), with the weights of the powertrain at the rated powers,
    to which the cooled hybrids add the exchanger and the coolant. *)
Theorem C90_empty_weight : (0 < n)%nat -> 0 < W "ac|weights|W_fuel_max" 0%nat -> 0 < W "ac|propulsion|engine|rating" 0%nat ->
  let eng := W "ac|propulsion|engine|rating" 0%nat in let mot := W "ac|propulsion|motor|rating" 0%nat in let dia := W "ac|propulsion|propeller|diameter" 0%nat in
  let hybrid := pound * hybrid_empty_weight (ga_inputs W [("P_TO", eng); ("W_engine", engine_weight eng); ("W_motors", 2 * machine_weight mot);
      ("W_generator", machine_weight (W "ac|propulsion|generator|rating" 0%nat)); ("W_propeller", 2 * propeller_weight mot dia)]) in
  (forall A, In A [TBM850 M tri; Caravan M tri] -> flies A ->
    W "OEW" 0%nat = pound * turboprop_empty_weight (ga_inputs W [("P_TO", eng); ("W_engine", engine_weight eng); ("W_propeller", propeller_weight eng dia)])) /\
  (flies (KingAir M tri) ->
    W "OEW" 0%nat = pound * turboprop_empty_weight (ga_inputs W [("P_TO", eng); ("W_engine", 2 * engine_weight eng); ("W_propeller", 2 * propeller_weight eng dia)])) /\
  (flies (HybridTwin M tri) -> W "OEW" 0%nat = hybrid) /\
  (forall A, In A [HybridTwinThermal M tri; HybridTwinActive M tri] -> flies A ->
    W "OEW" 0%nat = hybrid + W "propmodel.hx.component_weight" 0%nat + W "ac|propulsion|thermal|hx|coolant_mass" 0%nat) /\
  (flies (B738 D tri) -> W "OEW" 0%nat = W "ac|weights|OEW" 0%nat).
Proof.
  intros Hn HF HR eng mot dia hybrid. split; [|split; [|split; [|split]]].
  - intros A I F. exact (turboprop_oew kt kp M D tri n p k W A I F Hn HF HR).
  - intro F. exact (kingair_oew kt kp M D tri n p k W F Hn HF HR).
  - intro F. exact (hybrid_oew kt kp M D tri n p k W F HF HR).
  - intros A I F. pose proof (thermal_bare kt kp M D tri n p k W A I F HF HR) as B. change (W "OEW.OEW" 0%nat = hybrid) in B. rewrite <- B.
    destruct I as [<-|[<-|[]]].
    + apply (hx_facts kt kp M D tri n p k W (HybridTwinThermal M tri) "ac|propulsion|thermal|duct|area_nozzle" 0); auto.
    + apply (hx_facts kt kp M D tri n p k W (HybridTwinActive M tri) "propmodel.area_nozzle" 0); auto.
  - intro F. exact (proj2 (proj2 (b738_facts kt kp M D tri n p k W 0 F Hn))).
Qed.
End Powers.
Print Assumptions C90_turboprops. Print Assumptions C90_hybrids. Print Assumptions C90_others. Print Assumptions C90_engine_out. Print Assumptions C90_empty_weight.

(** ** The margin of the hybrid twins *)
(** An analysis of a hybrid twin sets up. When it has converged, its mission is one flight, and its margin is what is left
    of the weight at the end of the descent when the empty aircraft, its battery and the payload are taken off;
    its objective is the fuel used at the end of the descent and a hundredth of the takeoff weight. *)
Definition analysed kt kp tri n A o dvs data : bool :=
  match mission (tableO A o) (tableI A o) "" (fun _ => ac_states A) o with
  | Ok cs => let G := {| g_subs := mission_subs kt kp tri n A o; g_conns := some_pairs cs |} in
      quick_sets_up (hybrid_analysis dvs data G) && forallb (fun x => mem x (free_ins G)) ["ac|weights|MTOW"; "ac|weights|W_battery"] &&
      forallb (fun y => mem y (group_outs G)) ["cruise.OEW"; "descent.fuel_used_final"]
  | Err _ => false
  end.
Theorem C90_margin kt kp M (D : deck) X n A o dvs data : method_size Simpson n -> is_inverse (n - 1) simpson_a X ->
  let tri := method_tri Simpson n X in In (A, o, dvs, data) (hybrid_analyses M tri) ->
  exists G, mission_group kt kp tri n A o = Ok G /\ setup (hybrid_analysis dvs data G) = Ok (hybrid_analysis dvs data G) /\
  forall V, solution (hybrid_analysis dvs data G) V -> exists V' W, one_flight kt kp tri n A o V' W /\
    (forall x i, In x ["ac|weights|MTOW"; "ac|weights|W_battery"] -> V' x i = V x i) /\
    W "descent" "weight" (n - 1)%nat = W "cruise" "OEW" 0%nat + V "ac|weights|W_battery" 0%nat + V "payload" 0%nat + V "margins.MTOW_margin" 0%nat /\
    V "mixed_objective" 0%nat = W (first_phase o) "fuel_used_initial" 0%nat + legs (fun p => burned n plain_book (W p)) (main_legs o) + V "ac|weights|MTOW" 0%nat / 100.
Proof.
  intros MS HX tri I.
  assert (FI : In A (fleet M D tri)) by (destruct I as [E|[E|[E|[]]]]; injection E as <- _ _ _; unfold fleet; cbn [In]; tauto).
  assert (BI : In (A, plain_book) (fuel_burners M D tri)) by (destruct I as [E|[E|[E|[]]]]; injection E as <- _ _ _; unfold fuel_burners; cbn [In]; tauto).
  assert (Hv : valid_profile o) by (destruct I as [E|[E|[E|[]]]]; injection E as _ <- _ _; discriminate).
  assert (OK : analysed kt kp tri n A o dvs data = true).
  { assert (H : forallb (fun c => match c with (A, o, dvs, data) => analysed kt kp tri n A o dvs data end) (hybrid_analyses M tri) = true) by (vm_compute; reflexivity).
    rewrite forallb_forall in H. exact (H _ I). }
  destruct (fleet_missions M D kt kp tri n A o FI Hv) as [HM HN]. destruct (mission_sets_up_ok _ _ _ _ _ _ HM Hv) as (cs & Ec & EG).
  unfold analysed in OK. rewrite Ec in OK. set (G := {| g_subs := mission_subs kt kp tri n A o; g_conns := some_pairs cs |}) in *.
  apply andb_prop in OK. destruct OK as [OK O3]. apply andb_prop in OK. destruct OK as [O1 O2]. rewrite forallb_forall in O2, O3.
  exists G. split; [exact EG|]. split; [apply sets_up_ok, quick_sets_up_ok, O1|]. intros V HV.
  destruct (C89_flies kt kp M D X n A o MS HX Hv FI) as (_ & _ & G' & EG' & HG'). fold tri in EG', HG'. rewrite EG in EG'. injection EG' as <-.
  set (H := hybrid_analysis dvs data G) in *.
  destruct (HV (subgroup "analysis" G [P "*"] [P "*"])) as (V' & S' & HIn & HOut); [right; right; left; reflexivity|].
  assert (NS : forall x, In x ["ac|weights|MTOW"; "ac|weights|W_battery"] -> source H x = x).
  { intros x Hx. assert (Nx : forallb (fun c => negb (String.eqb (snd c) x)) (g_conns H) = true).
    { destruct I as [E|[E|[E|[]]]]; injection E as _ _ _ <-; destruct Hx as [<-|[<-|[]]]; reflexivity. }
    unfold source. rewrite forallb_forall in Nx. destruct (find _ _) as [c|] eqn:Ef; [|reflexivity]. apply find_some in Ef. destruct Ef as [Ic Ec']. specialize (Nx c Ic). rewrite Ec' in Nx. discriminate. }
  assert (VI : forall x i, In x ["ac|weights|MTOW"; "ac|weights|W_battery"] -> V' x i = V x i).
  { intros x i Hx. rewrite (HIn x i) by (apply mem_In, O2, Hx). unfold reads. cbn [subgroup nested gs_name gs_pin]. rewrite gname_star, NS by exact Hx. reflexivity. }
  assert (VO : forall y i, In y ["cruise.OEW"; "descent.fuel_used_final"] -> V y i = V' y i).
  { intros y i Hy. rewrite (HOut y i) by (apply mem_In, O3, Hy). unfold writes. cbn [subgroup nested gs_name gs_pout]. now rewrite gname_star. }
  destruct (HG' V' S') as [W F]. exists V', W. split; [exact F|]. split; [exact VI|].
  assert (PO : forall p y, In (p, y) [("cruise", "OEW"); ("descent", "fuel_used_final")] -> V (sub p y) 0%nat = W p y 0%nat).
  { intros p y Hp. rewrite VO by (cbn in Hp |- *; intuition (match goal with E : _ = _ |- _ => injection E as <- <- end; auto)).
    apply (fl_reported _ _ _ _ _ _ _ _ F p SteadyP).
    - assert (K : In (p, SteadyP) [("cruise", SteadyP); ("descent", SteadyP)]) by (cbn in Hp |- *; intuition (match goal with E : _ = _ |- _ => injection E as <- <- end; auto)).
      clear -K I. destruct I as [E|[E|[E|[]]]]; injection E as _ <- _ _; cbn in K |- *; tauto.
    - apply mem_In. destruct I as [E|[E|[E|[]]]]; injection E as <- _ _ _; destruct Hp as [E|[E|[]]]; injection E as <- <-; vm_compute; reflexivity. }
  pose proof (HV (comp 1 "margins" margins [P "payload"] []) ltac:(right; right; right; left; reflexivity) "MTOW_margin" Sca _ 0%nat eq_refl ltac:(cbn; lia)) as HMg.
  pose proof (HV (comp 1 "aug_obj" AugmentedFBObjective [] [P "mixed_objective"]) ltac:(do 4 right; left; reflexivity) "mixed_objective" Sca _ 0%nat eq_refl ltac:(cbn; lia)) as HOb.
  change (V "margins.MTOW_margin" 0%nat = V "ac|weights|MTOW" 0%nat - V "cruise.OEW" 0%nat - V "descent.fuel_used_final" 0%nat - V "ac|weights|W_battery" 0%nat -
    V (source H "payload") 0%nat) in HMg.
  change (V "mixed_objective" 0%nat = V "descent.fuel_used_final" 0%nat + V "ac|weights|MTOW" 0%nat / 100) in HOb.
  assert (SP : source H "payload" = "payload") by (destruct I as [E|[E|[E|[]]]]; injection E as _ _ _ <-; reflexivity). rewrite SP in HMg.
  pose proof (PO "cruise" "OEW" ltac:(now left)) as P1. pose proof (PO "descent" "fuel_used_final" ltac:(right; now left)) as P2.
  change (V "cruise.OEW" 0%nat = W "cruise" "OEW" 0%nat) in P1. change (V "descent.fuel_used_final" 0%nat = W "descent" "fuel_used_final" 0%nat) in P2.
  destruct (C89_mission kt kp M D X n A plain_book o V' W MS HX BI F) as (_ & M1 & M2 & _). cbn [plain_book fb_mass fb_start] in M1.
  assert (DE : In ("descent", SteadyP) (profile_phases o)) by (destruct I as [E|[E|[E|[]]]]; injection E as _ <- _ _; cbn; tauto).
  destruct (C89_phase kt kp M D n X A plain_book "descent" SteadyP (W "descent") MS HX BI (fl_phases _ _ _ _ _ _ _ _ F _ _ DE)) as [B1 B2 B3].
  assert (N1 : (n - 1 < n)%nat) by (destruct MS; lia). pose proof (B1 _ N1) as B4. cbn [plain_book fb_mass fb_used fb_end] in B3, B4.
  assert (MW : W "descent" "ac|weights|MTOW" 0%nat = V "ac|weights|MTOW" 0%nat).
  { rewrite <- (VI "ac|weights|MTOW" 0%nat) by now left. apply (fl_aircraft _ _ _ _ _ _ _ _ F "descent" SteadyP); [exact DE| |reflexivity].
    eapply takes_ok; [exact (burner_takes M D kt kp tri n A plain_book BI)|exact DE]. }
  rewrite (VI "ac|weights|MTOW" 0%nat) in M1 by now left. rewrite MW in B4. split; [lra|]. rewrite HOb, P2, B3. lra.
Qed.
Print Assumptions C90_margin.

(** ** A flight of the airliner: climb to 3000 m at 10 m/s, an hour of cruise, descent at 10 m/s *)
Section Example.
Variables (kt kp : coeffs) (X : mat) (n : nat).
Definition jleg (h r T vs rf : R) : Proofs_Fly.flight :=
  {| f_h := h; f_r := r; f_T := T; f_vs := vs; f_eas := 150; f_dT := 0; f_m := 0; f_S := 125; f_LD := 0; f_Fmax := 100000; f_rf := rf |}.
Definition j_climb := jleg 0 0 300 10 0.
Definition jr_climb : R := fly_range kt kp n j_climb (n - 1).
Definition jr_cruise : R := fly_range kt kp n (jleg 3000 jr_climb 3600 0 0) (n - 1).
Definition j_descent := jleg 3000 jr_cruise 300 (- (10)) 0.
Definition jr_mission : R := fly_range kt kp n j_descent (n - 1).
Definition j_cruise := jleg 3000 jr_climb 3600 0 jr_mission.
(** 79002 kg at takeoff, 0.5 kg/s for each engine. *)
Definition jet_env (f : Proofs_Fly.flight) (m0 : R) : env := jet kt kp n f m0 79002 (1/2) (2/100) (8/10) 9 41871.
Definition jet_phase (p : string) : env :=
  if String.eqb p "climb" then jet_env j_climb 79002 else if String.eqb p "cruise" then jet_env j_cruise 78702 else jet_env j_descent 75102.
Definition jet_trip : env := fun x i =>
  match split_dot x with
  | Some (p, y) => jet_phase p y i
  | None => match assoc x [("takeoff|h", 0); ("cruise|h0", 3000); ("mission_range", jr_mission); ("ac|geom|wing|S_ref", 125); ("ac|weights|MTOW", 79002); ("ac|weights|OEW", 41871);
      ("ac|aero|polar|CD0_cruise", 2/100); ("ac|aero|polar|e", 8/10); ("ac|geom|wing|AR", 9)] with Some v => v | None => 0 end
  end.
Definition jet_deck : deck := even_deck j_climb (1/2).
Example C90_met : temp_coeffs kt -> pressure_coeffs kp -> method_size Simpson n -> is_inverse (n - 1) simpson_a X ->
  let tri := method_tri Simpson n X in
  (forall p, In p ["climb"; "cruise"; "descent"] -> solution (phase_group kt kp tri n (B738 jet_deck tri) p SteadyP) (jet_phase p)) /\
  exists G, mission_group kt kp tri n (B738 jet_deck tri) basic = Ok G /\ solution G jet_trip.
Proof.
  intros Ht Hp MS HX tri. assert (Hn : 0 < INR (n - 1)) by (destruct MS; apply lt_0_INR; lia).
  assert (FR : forall i, (i < n)%nat -> 0 <= INR i / INR (n - 1) <= 1).
  { intros i Hi. assert (0 <= INR i <= INR (n - 1)) by (split; [apply pos_INR | apply le_INR; lia]).
    split; [apply Rdiv_le_0_compat; lra|]. apply (Rmult_le_reg_r (INR (n - 1))); auto. unfold Rdiv. rewrite Rmult_assoc, Rinv_l by lra. lra. }
  assert (PH : forall p, In p ["climb"; "cruise"; "descent"] -> solution (phase_group kt kp tri n (B738 jet_deck tri) p SteadyP) (jet_phase p)).
  { intros p Ip. assert (JS : forall f m0, f = j_climb \/ f = j_cruise \/ f = j_descent -> 70000 < m0 -> solution (phase_group kt kp tri n (B738 jet_deck tri) p SteadyP) (jet_env f m0)).
    { intros f m0 Hf Hm. replace jet_deck with (even_deck f (1/2)) by (destruct Hf as [->|[->| ->]]; reflexivity). apply jet_steady; auto.
      - intros i Hi. specialize (FR i Hi). unfold jet_m. assert (0 <= f_T f <= 3600) by (destruct Hf as [->|[->| ->]]; cbn; lra).
        assert (2 * (1/2) * f_T f * (INR i / INR (n - 1)) <= 3600) by nra. lra.
      - destruct Hf as [->|[->| ->]]; cbn; lra.
      - intros i Hi. specialize (FR i Hi). assert (fly_h n f i < h_max).
        { unfold fly_h, h_max. destruct Hf as [->|[->| ->]]; cbn [jleg j_climb j_cruise j_descent f_h f_T f_vs]; lra. }
        destruct (press_positive kp _ Hp H) as (q & E & _). eauto. }
    destruct Ip as [<-|[<-|[<-|[]]]]; [apply (JS j_climb 79002)|apply (JS j_cruise 78702)|apply (JS j_descent 75102)]; auto; lra. }
  split; [exact PH|].
  assert (M : mission_sets_up kt kp tri n (B738 jet_deck tri) basic = true) by (vm_compute; reflexivity).
  destruct (mission_sets_up_ok _ _ _ _ _ _ M ltac:(discriminate)) as (cs & Hm & HG). rewrite HG. eexists. split; [reflexivity|].
  vm_compute in Hm. injection Hm as <-. cbn [some_pairs flat_map app].
  assert (K1 : fly_h n j_climb (n - 1) = 3000) by (unfold fly_h; cbn [jleg j_climb f_h f_T f_vs]; field; lra).
  assert (K2 : fly_h n j_cruise (n - 1) = 3000) by (unfold fly_h; cbn [jleg j_cruise f_h f_T f_vs]; field; lra).
  assert (K3 : fly_h n j_descent (n - 1) = 0) by (unfold fly_h; cbn [jleg j_descent f_h f_T f_vs]; field; lra).
  assert (F1 : 79002 - 79002 = 0) by ring.
  assert (F2 : 79002 - 78702 = 79002 - jet_m n j_climb 79002 (1/2) (n - 1)) by (unfold jet_m; cbn [jleg j_climb f_T]; field; lra).
  assert (F3 : 79002 - 75102 = 79002 - jet_m n j_cruise 78702 (1/2) (n - 1)) by (unfold jet_m; cbn [jleg j_cruise f_T]; field; lra).
  assert (OU : forall p y i, In p ["climb"; "cruise"; "descent"] -> jet_phase p y i = jet_trip (sub p y) i).
  { intros p y i Ip. unfold jet_trip. rewrite split_sub; [reflexivity|]. apply all_dotless. cbn in Ip |- *. tauto. }
  intros s Hs. cbn [g_subs mission_subs profile_phases basic pf_takeoff pf_reserve pf_ground_roll pf_basic app map negb andb] in Hs.
  set (free := ["fltcond|vs"; "ode_integ_phase.fltcond|h_initial"; "ode_integ_phase.range_initial"; "fltcond|TempIncrement"; "fltcond|Ueas"; "fltcond|vs"; "fuel_used_initial";
    "ac|geom|wing|S_ref"; "ac|aero|polar|CD0_cruise"; "ac|aero|polar|e"; "ac|geom|wing|AR"; "ac|weights|OEW"; "ac|weights|MTOW"; "ac|geom|wing|S_ref"; "ac|geom|wing|S_ref"; "braking"; "zero_accel"]).
  assert (FI : forall p l, free_ins (phase_group kt kp tri n (B738 jet_deck tri) p SteadyP) = free ++ l -> free_ins (phase_group kt kp tri n (B738 jet_deck tri) p SteadyP) = free ++ l) by auto.
  destruct Hs as [<-|[<-|[<-|[<-|[]]]]].
  - exact I.
  - exists (jet_phase "climb"). split; [apply PH; inlist|split].
    + intros x i Hx. change (In x (free_ins (phase_group kt kp tri n (B738 jet_deck tri) "climb" SteadyP))) in Hx. rewrite (FI "climb" ["climbdt.cruise|h0"] eq_refl) in Hx. cbn [free app In] in Hx.
      repeat (destruct Hx as [<-|Hx]; [first [exact K1 | reflexivity | exact F1]|]). contradiction.
    + intros y i Hy. apply (OU "climb"). inlist.
  - exists (jet_phase "cruise"). split; [apply PH; inlist|split].
    + intros x i Hx. change (In x (free_ins (phase_group kt kp tri n (B738 jet_deck tri) "cruise" SteadyP))) in Hx. rewrite (FI "cruise" ["cruisedt.range_final"; "cruisedt.mission_range"] eq_refl) in Hx. cbn [free app In] in Hx.
      repeat (destruct Hx as [<-|Hx]; [first [reflexivity | symmetry; exact K1 | exact F2]|]). contradiction.
    + intros y i Hy. apply (OU "cruise"). inlist.
  - exists (jet_phase "descent"). split; [apply PH; inlist|split].
    + intros x i Hx. change (In x (free_ins (phase_group kt kp tri n (B738 jet_deck tri) "descent" SteadyP))) in Hx. rewrite (FI "descent" ["descentdt.takeoff|h"] eq_refl) in Hx. cbn [free app In] in Hx.
      repeat (destruct Hx as [<-|Hx]; [first [exact K3 | reflexivity | symmetry; exact K2 | exact F3]|]). contradiction.
    + intros y i Hy. apply (OU "descent"). inlist.
Qed.
End Example.
Print Assumptions C90_met.
