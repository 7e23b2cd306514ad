(** C92: the hybrid single-aisle airliner keeps account of its power, its weights and its heat. *)
From Coq Require Import Reals List Bool PeanoNat String Ascii Lia Lra FunctionalExtensionality.
From Verif Require Import Base Py RSum Model_Algebra Model_Vectors Model_Integrals Spec_Integrals Model_Atmos Model_Aero Model_Mission Spec_Mission Proofs_Profiles Props_Targets
  Model_Net Proofs_Net Model_Thermal Proofs_Thermal Model_HX Spec_HX Model_Ducts Proofs_Ducts Model_HeatPipe Model_Systems Spec_Systems Proofs_Systems Props_Cooling
  Model_Weights Model_Propulsion Model_Flight Spec_Flight Proofs_Flight Proofs_Fly Proofs_FlyBurn Proofs_Trip Props_Trip Model_Fleet Spec_Fleet Proofs_Fleet Proofs_FleetFlow Proofs_FleetParts
  Proofs_FleetBody Proofs_FleetSetup Props_Fleet Model_SingleAisle Spec_SingleAisle Proofs_SingleAisle.
Import ListNotations.
Open Scope R_scope.
Open Scope string_scope.
Open Scope list_scope.

(** ** Every mission is one flight *)
Lemma aisle_kind H tri n p : SingleAisleModel H tri n p = SingleAisleModel H tri n (kind_word p).
Proof. unfold SingleAisleModel, single_aisle_subs, cd0_source, kind_word. destruct (in_list p _); reflexivity. Qed.
Lemma kind_two p : kind_word p = "v0v1" \/ kind_word p = "climb".
Proof. unfold kind_word. destruct (in_list p _); auto. Qed.
Lemma aisle_missions kt kp H tri n o : valid_profile o -> mission_sets_up kt kp tri n (SingleAisle H tri) o = true /\ named_ok (SingleAisle H tri) o = true.
Proof.
  intro V. rewrite <- (canonical_named _ o V). split.
  - apply quick_mission_ok. rewrite <- canonical_mission by exact V. pose proof (canonical_in o V) as C. revert C. generalize (canonical o).
    apply forallb_forall. vm_cast_no_check (eq_refl true).
  - pose proof (canonical_in o V) as C. revert C. generalize (canonical o). apply forallb_forall. vm_cast_no_check (eq_refl true).
Qed.
Lemma aisle_phases kt kp H tri n :
  (forall p k, In (p, k) all_phases -> sets_up (phase_group kt kp tri n (SingleAisle H tri) p k) = true) /\ (forall p, sets_up (SingleAisleModel H tri n p) = true).
Proof.
  split.
  - assert (K : forallb (fun c => quick_sets_up (phase_group kt kp tri n (SingleAisle H tri) (fst c) (snd c))) all_phases = true) by (vm_cast_no_check (eq_refl true)).
    rewrite forallb_forall in K. intros p k Hp. apply quick_sets_up_ok. exact (K (p, k) Hp).
  - intro p. rewrite aisle_kind. apply quick_sets_up_ok. destruct (kind_two p) as [-> | ->]; vm_cast_no_check (eq_refl true).
Qed.
Lemma aisle_clean H tri : own_durations (SingleAisle H tri) /\ plain_outputs (SingleAisle H tri).
Proof.
  split.
  - assert (K : forallb (fun t => negb (mem t own_names) && negb (String.eqb t "fltcond|Utrue_initial")) (ac_times (SingleAisle H tri)) = true) by (vm_compute; reflexivity).
    rewrite forallb_forall in K. intros t Ht. specialize (K t Ht). apply andb_prop in K. destruct K as [H1 H2].
    apply negb_true_iff in H1, H2. split; [|now apply String.eqb_neq]. intro Q. apply mem_In in Q. congruence.
  - intros n p y Hy K. apply mem_In in K. cbn [SingleAisle ac_model] in Hy. rewrite aisle_kind in Hy.
    assert (F : forallb (fun p => forallb (fun y => negb (mem y phase_inputs)) (group_outs (SingleAisleModel H tri n p))) ["v0v1"; "climb"] = true) by (vm_compute; reflexivity).
    cbn [forallb] in F. rewrite !andb_true_iff in F. destruct F as (F1 & F2 & _). rewrite forallb_forall in F1, F2.
    assert (E : negb (mem y phase_inputs) = true) by (destruct (kind_two p) as [E|E]; rewrite E in Hy; auto). rewrite K in E. discriminate E.
Qed.
(** Aircraft model, phases and mission set up, whatever the profile, and a converged mission is one flight (C88). *)
Theorem C92_flies kt kp H X n o : method_size Simpson n -> is_inverse (n - 1) simpson_a X -> valid_profile o ->
  let tri := method_tri Simpson n X in let A := SingleAisle H tri in
  (forall p, setup (ac_model A n p) = Ok (ac_model A n p)) /\
  (forall p k, In (p, k) (profile_phases o) -> setup (phase_group kt kp tri n A p k) = Ok (phase_group kt kp tri n A p k)) /\
  exists G, mission_group kt kp tri n A o = Ok G /\ forall V, solution G V -> exists W, one_flight kt kp tri n A o V W.
Proof.
  intros MS HX Hv tri A. destruct (aisle_missions kt kp H tri n o Hv) as [HM HN]. destruct (aisle_phases kt kp H tri n) as [HP HA].
  destruct (named_users A o HN) as [HU HQ]. destruct (mission_sets_up_ok _ _ _ _ _ _ HM Hv) as (cs & _ & E). destruct (aisle_clean H tri) as [HD HO].
  split; [intro p; exact (sets_up_ok _ (HA p))|]. split; [intros p k Hp; apply sets_up_ok, HP; now apply phases_all in Hp|].
  eexists. split; [exact E|]. intros V HV. exact (C88_one_flight kt kp X n A o _ V HD HO MS HX Hv HU HQ E HV).
Qed.
Print Assumptions C92_flies.

(** ** Every phase *)
(** All but the durations a user finds by the name the aircraft model gives it. *)
Definition seen_names (d l : list string) : list (string * string) := map (fun x => (x, "duration")) d ++ map (fun x => (x, x)) l.
Definition seen_name (d : list string) (x : string) : string := if mem x d then "duration" else x.
Lemma aisle_viewed kt kp H tri n p k W d l : solution (phase_group kt kp tri n (SingleAisle H tri) p k) W -> ac_view (SingleAisle H tri) n (seen_names d l) = true ->
  exists U, solution (SingleAisleModel H tri n (told p k)) U /\ (forall x, mem x d || mem x l = true -> U x = W (seen_name d x)) /\
    ((p = "groundroll" -> k = GroundP) -> U (cd0_source (told p k)) 0%nat = phase_CD0 p W).
Proof.
  intros S V. destruct (acmodel_in _ _ _ _ _ _ _ _ S) as (U & SU & SEE). cbn [SingleAisle ac_model] in SU, SEE. exists U. split; [exact SU|].
  rewrite aisle_kind in SEE. assert (C0 : cd0_source (told p k) = cd0_source (kind_word (told p k))) by (unfold cd0_source, kind_word; destruct (in_list (told p k) _); reflexivity). split.
  - intros x Hx. assert (I : In (x, seen_name d x) (seen_names d l)).
    { unfold seen_names, seen_name. apply in_or_app. destruct (mem x d) eqn:M; [left|right; cbn [orb] in Hx]; apply in_map_iff; exists x; split; try reflexivity; now apply mem_In. }
    extensionality i. apply SEE. unfold ac_view in V. cbn [forallb] in V. rewrite !andb_true_iff in V. destruct V as (H1 & H2 & _). cbn [SingleAisle ac_model] in H1, H2. rewrite forallb_forall in H1, H2.
    specialize (H1 _ I). specialize (H2 _ I). destruct (kind_two (told p k)) as [->| ->]; [exact H1|exact H2].
  - intro Hk. rewrite C0. rewrite (SEE (cd0_source (kind_word (told p k))) (cd0_source (kind_word (told p k))) 0%nat) by (destruct (kind_two (told p k)) as [-> | ->]; vm_compute; reflexivity).
    unfold phase_CD0. destruct (String.eqb_spec p "groundroll") as [->|N]; [rewrite (Hk eq_refl); reflexivity|].
    assert (T : told p k = p) by (unfold told; apply String.eqb_neq in N; rewrite N; now destruct k). rewrite T. unfold cd0_source, kind_word.
    change (in_list p ["groundroll"; "v0v1"; "v1v0"; "v1vr"; "rotate"]) with (String.eqb p "groundroll" || in_list p ["v0v1"; "v1v0"; "v1vr"; "rotate"])%bool.
    apply String.eqb_neq in N. rewrite N. cbn [orb]. destruct (in_list p ["v0v1"; "v1v0"; "v1vr"; "rotate"]); reflexivity.
Qed.
Ltac look SEE S K := repeat match type of K with context [S ?x] => rewrite (SEE x eq_refl) in K end.
Definition account_names : list string :=
  ["weight"; "fuel_used"; "fuel_used_initial"; "fuel_used_final"; "fuel_flow"; "ac|design_mission|TOW"; "thrust"; "throttle"; "fltcond|h"; "fltcond|M";
    "hybrid_throttle_start"; "hybrid_throttle_end"; "ac|propulsion|motor|rating"; "drag"; "fltcond|q"; "ac|geom|wing|S_ref"; "ac|aero|polar|e"; "ac|geom|wing|AR"; "fltcond|CL";
    "motor_duct.force.F_net"; "variable_duct.force.F_net"; "elec_load"; "refrig.elec_load"; "mdot_coolant_motor"; "mdot_coolant_battery"; "rho_coolant";
    "motor_hose.delta_p"; "hx_motor.delta_p_hot"; "battery_hose.delta_p"; "hx_battery.delta_p_hot"; "ac|propulsion|battery|weight"; "battery.specific_energy";
    "battery.SOC"; "battery.SOC_initial"; "battery.SOC_final"; "OEW"; "ac|weights|OEW"; "margin";
    "hybrid_motor.component_weight"; "motor_hose.component_weight"; "motor_coolant_pump.component_weight"; "hx_motor.component_weight"; "hx_fault_prot.component_weight";
    "refrig.component_weight"; "battery_hose.component_weight"; "battery_coolant_pump.component_weight"; "hx_battery.component_weight";
    "motorheatsink.T"; "motorheatsink.T_initial"; "motorheatsink.T_out"; "motorheatsink.T_final"; "batteryheatsink.T"; "batteryheatsink.T_initial"; "batteryheatsink.T_final"; "batteryheatsink.T_out";
    "hx_motor.heat_transfer"; "hx_fault_prot.heat_transfer"; "hx_battery.heat_transfer"; "hx_motor.T_out_hot"; "hx_fault_prot.T_out_hot"; "hx_battery.T_out_hot"; "motorfaultprot.T_out";
    "mdot_coolant_fault_prot"; "refrig.T_out_hot"; "refrig.T_out_cold"; "refrig.control.bypass_start"; "refrig.control.bypass_end"; "ac|propulsion|thermal|heatpump|power_rating";
    "motor_duct.cp"; "motor_duct.mdot"; "motor_duct.sta3.Tt_out"; "motor_duct.inlet.Tt"; "motor_duct.heat_in_1"; "motor_duct.heat_in_2";
    "variable_duct.cp"; "variable_duct.mdot"; "variable_duct.sta3.Tt_out"; "variable_duct.inlet.Tt"; "variable_duct.heat_in_1"; "variable_duct.heat_in_2"; "motorfaultprot.heat_transfer"].
Definition exchanger_names : list string := flat_map (fun at_ => map at_ (hx_scalars ++ hx_flows)) [hx_motor_at; hx_fault_at; hx_battery_at].
Definition time_names : list string := ["ode_integ.duration"; "battery.duration"; "motorheatsink.duration"; "batteryheatsink.duration"].
Lemma aisle_seen kt kp H tri n p k W : solution (phase_group kt kp tri n (SingleAisle H tri) p k) W ->
  exists U, solution (SingleAisleModel H tri n (told p k)) U /\ (forall x, mem x time_names || mem x (account_names ++ exchanger_names) = true -> U x = W (seen_name time_names x)) /\
    ((p = "groundroll" -> k = GroundP) -> U (cd0_source (told p k)) 0%nat = phase_CD0 p W).
Proof.
  intro S. apply (aisle_viewed kt kp); [exact S|].
  change (forallb (fun p => let g := ac_model (SingleAisle H tri) n p in let outs := group_outs g in let frees := free_ins g in
    forallb (fun c => (mem (fst c) outs && String.eqb (fst c) (snd c)) || (mem (fst c) frees && seen_as (ac_times (SingleAisle H tri)) (fst c) (snd c)))
      (seen_names time_names (account_names ++ exchanger_names))) ["v0v1"; "climb"] = true).
  vm_cast_no_check (eq_refl true).
Qed.
Theorem C92_phase kt kp H n X p k W : method_size Simpson n -> is_inverse (n - 1) simpson_a X -> (p = "groundroll" -> k = GroundP) ->
  solution (phase_group kt kp (method_tri Simpson n X) n (SingleAisle H (method_tri Simpson n X)) p k) W ->
  books n aisle_book W /\ single_aisle_accounts H n p W.
Proof.
  intros MS HX Hk S. set (tri := method_tri Simpson n X) in *.
  destruct (aisle_seen kt kp H tri n p k W S) as (U & SU & SEE & CD). specialize (CD Hk).
  set (q := told p k) in *. assert (N1 : (n - 1 < n)%nat) by (destruct MS; lia).
  split.
  - destruct (sa_burn H X n q U MS HX SU) as [B1 B2]. constructor; cbn [aisle_book fb_mass fb_flow fb_used fb_start fb_end].
    + intros i Hi. pose proof (sa_weigh H X n q U MS SU i Hi) as E. look SEE U E. exact E.
    + look SEE U B1. exact B1.
    + look SEE U B2. exact B2.
  - constructor.
    + intros i Hi. pose proof (sa_engine H X n q U MS SU i Hi) as E. cbv zeta in E |- *. unfold motor_draw in *. look SEE U E. exact E.
    + intros i Hi. pose proof (sa_polar H X n q U SU i Hi) as E. rewrite CD in E. unfold phase_drag. look SEE U E. exact E.
    + intros i Hi. destruct (sa_loads H X n q U MS SU i Hi) as [_ E]. unfold motor_draw in *. look SEE U E. exact E.
    + intros HC i Hi. pose proof (sa_battery H X n q U MS HX SU) as E. unfold side_capacity, flowed in *. look SEE U E. exact (E HC i Hi).
    + pose proof (sa_battery_end H X n q U MS SU) as E. look SEE U E. exact E.
    + intros s I. cbn [In] in I. destruct I as [<-|[<-|[]]].
      * pose proof (sa_warm H X n q U MS HX SU "motorheatsink" (cooled_motor n tri) 1 _ ltac:(nth_sub 13%nat) eq_refl eq_refl eq_refl eq_refl ltac:(vm_compute; reflexivity)) as E.
        cbn [String.append] in E |- *. look SEE U E. exact E.
      * pose proof (sa_warm H X n q U MS HX SU "batteryheatsink" (LiquidCooledBattery n tri false default_cell) 1 _ ltac:(nth_sub 21%nat) eq_refl eq_refl eq_refl eq_refl ltac:(vm_compute; reflexivity)) as E.
        cbn [String.append] in E |- *. look SEE U E. exact E.
    + destruct (sa_weights H X n q U MS HX SU) as [E _]. unfold parts_weight, side_parts in *. cbn [fold_right String.append] in *. look SEE U E. exact E.
    + destruct (sa_motor H X n q U MS SU (n - 1)%nat N1) as (_ & _ & _ & E). look SEE U E. exact E.
    + destruct (sa_weights H X n q U MS HX SU) as [_ E]. look SEE U E. exact E.
Qed.
Print Assumptions C92_phase.

(** ** Heat *)
Lemma exchanger_at n U W at_ : In at_ [hx_motor_at; hx_fault_at; hx_battery_at] -> (forall x, mem x time_names || mem x (account_names ++ exchanger_names) = true -> U x = W (seen_name time_names x)) ->
  hx_positive n (fun x => W (at_ x)) -> hx_positive n (fun x => U (at_ x)).
Proof.
  intros I SEE [P1 P2].
  assert (K : forallb (fun at_ => forallb (fun x => (mem (at_ x) time_names || mem (at_ x) (account_names ++ exchanger_names)) && String.eqb (seen_name time_names (at_ x)) (at_ x)) (hx_scalars ++ hx_flows))
    [hx_motor_at; hx_fault_at; hx_battery_at] = true) by (vm_compute; reflexivity).
  rewrite forallb_forall in K. specialize (K _ I). rewrite forallb_forall in K.
  assert (EQ : forall x, In x (hx_scalars ++ hx_flows) -> U (at_ x) = W (at_ x)).
  { intros x Hx. specialize (K x Hx). apply andb_prop in K. destruct K as [K1 K2]. rewrite (SEE _ K1). apply String.eqb_eq in K2. now rewrite K2. }
  split; [intros x Hx|intros x i Hx Hi]; rewrite EQ by (apply in_or_app; auto); auto.
Qed.
Theorem C92_heat kt kp H n X p k W : method_size Simpson n -> is_inverse (n - 1) simpson_a X ->
  solution (phase_group kt kp (method_tri Simpson n X) n (SingleAisle H (method_tri Simpson n X)) p k) W ->
  cooled n W -> W "ac|propulsion|motor|rating" 0%nat <> 0 -> 0 < W "ac|propulsion|battery|weight" 0%nat -> single_aisle_heat n W.
Proof.
  intros MS HX S CO HR HB. set (tri := method_tri Simpson n X) in *.
  destruct (aisle_seen kt kp H tri n p k W S) as (U & SU & SEE & _). set (q := told p k) in *.
  assert (AT : forall at_, In at_ [hx_motor_at; hx_fault_at; hx_battery_at] -> hx_positive n (fun x => U (at_ x)) /\ U (at_ "cp_hot") 0%nat = 3801).
  { intros at_ I. destruct (CO at_ I) as [P C]. split; [eapply exchanger_at; eauto|]. rewrite <- C.
    cbn [In] in I. destruct I as [<-|[<-|[<-|[]]]]; [rewrite (SEE (hx_motor_at "cp_hot") eq_refl)|rewrite (SEE (hx_fault_at "cp_hot") eq_refl)|rewrite (SEE (hx_battery_at "cp_hot") eq_refl)]; reflexivity. }
  destruct (AT hx_motor_at ltac:(cbn; tauto)) as [P1 C1]. destruct (AT hx_fault_at ltac:(cbn; tauto)) as [P2 C2]. destruct (AT hx_battery_at ltac:(cbn; tauto)) as [P3 C3]. clear AT.
  assert (M1 : forall j, (j < n)%nat -> 0 < U "mdot_coolant_motor" j) by (intros j Hj; exact (proj2 P1 "mdot_hot" j ltac:(cbn; tauto) Hj)).
  assert (M2 : forall j, (j < n)%nat -> 0 < U "mdot_coolant_fault_prot" j) by (intros j Hj; exact (proj2 P2 "mdot_hot" j ltac:(cbn; tauto) Hj)).
  assert (M3 : forall j, (j < n)%nat -> 0 < U "mdot_coolant_battery" j) by (intros j Hj; exact (proj2 P3 "mdot_hot" j ltac:(cbn; tauto) Hj)).
  assert (Q1 : forall j, (j < n)%nat -> U "mdot_coolant_motor" j * 3801 * (U "motorheatsink.T_out" j - U "hx_motor.T_out_hot" j) = U "hx_motor.heat_transfer" j).
  { intros j Hj. destruct (hx_in _ U n "hx_motor" _ _ hx_motor_at j SU ltac:(nth_sub 15%nat) Hj ltac:(vm_compute; reflexivity) ltac:(vm_compute; reflexivity) P1) as [E _].
    rewrite C1 in E. exact E. }
  assert (Q2 : forall j, (j < n)%nat -> U "mdot_coolant_fault_prot" j * 3801 * (U "motorfaultprot.T_out" j - U "hx_fault_prot.T_out_hot" j) = U "hx_fault_prot.heat_transfer" j).
  { intros j Hj. destruct (hx_in _ U n "hx_fault_prot" _ _ hx_fault_at j SU ltac:(nth_sub 16%nat) Hj ltac:(vm_compute; reflexivity) ltac:(vm_compute; reflexivity) P2) as [E _].
    rewrite C2 in E. exact E. }
  assert (Q3 : forall j, (j < n)%nat -> U "mdot_coolant_battery" j * 3801 * (U "refrig.T_out_hot" j - U "hx_battery.T_out_hot" j) = U "hx_battery.heat_transfer" j).
  { intros j Hj. destruct (hx_in _ U n "hx_battery" _ _ hx_battery_at j SU ltac:(nth_sub 22%nat) Hj ltac:(vm_compute; reflexivity) ltac:(vm_compute; reflexivity) P3) as [E _].
    rewrite C3 in E. exact E. }
  assert (FP : forall i, (i < n)%nat -> U "hx_fault_prot.heat_transfer" i = 5/1000 * motor_draw n U i /\ U "motorfaultprot.heat_transfer" i = U "hx_motor.heat_transfer" i + U "hx_fault_prot.heat_transfer" i).
  { intros i Hi. destruct (sa_fault H X n q U MS SU i Hi (M2 i Hi)) as [E F]. rewrite (Q2 i Hi) in E. auto. }
  constructor.
  - intros i Hi. pose proof (SEE "ac|propulsion|motor|rating" eq_refl) as ER. change (U "ac|propulsion|motor|rating" = W "ac|propulsion|motor|rating") in ER.
    assert (HR' : U "ac|propulsion|motor|rating" 0%nat <> 0) by now rewrite ER.
    pose proof (sa_motor_heat H X n q U MS HX SU i HR' M1 Hi) as E. cbv zeta beta in E. unfold flowed. 
    rewrite (area_ext n _ (fun j => 5/100 * motor_draw n U j - U "hx_motor.heat_transfer" j) i MS) in E; [|intros j Hj; now rewrite (Q1 j Hj)|exact Hi].
    unfold motor_draw in *. look SEE U E. exact E.
  - intros i Hi. destruct (FP i Hi) as [E _]. unfold motor_draw in *. look SEE U E. exact E.
  - intros i Hi. pose proof (SEE "ac|propulsion|battery|weight" eq_refl) as ER. change (U "ac|propulsion|battery|weight" = W "ac|propulsion|battery|weight") in ER.
    assert (HB' : 0 < U "ac|propulsion|battery|weight" 0%nat) by now rewrite ER.
    pose proof (sa_battery_sink H X n q U MS HX SU i HB' M3 Hi) as E. cbv zeta beta in E. unfold flowed.
    rewrite (area_ext n _ (fun j => 5/100 * U "elec_load" j + 95/100 * U "refrig.elec_load" j - U "hx_battery.heat_transfer" j) i MS) in E; [| |exact Hi].
    + look SEE U E. exact E.
    + intros j Hj. destruct (sa_pumped H X n q U MS SU j Hj (M3 j Hj)) as [F _]. rewrite <- (Q3 j Hj), <- F. ring.
  - intros i Hi. destruct (sa_pumped H X n q U MS SU i Hi (M3 i Hi)) as [_ E]. look SEE U E. exact E.
  - intros HC i Hi. pose proof (sa_duct H X n q U SU "motor_duct" (90/100) _ "motorfaultprot.heat_transfer" i ltac:(nth_sub 17%nat) ltac:(vm_compute; reflexivity)) as E.
    cbn [String.append] in E. rewrite (proj2 (FP i Hi)) in E. look SEE U E. exact (eq_trans (E HC Hi) (eq_sym (Rplus_assoc _ _ _))).
  - intros HC i Hi. pose proof (sa_duct H X n q U SU "variable_duct" (95/100) _ "hx_battery.heat_transfer" i ltac:(nth_sub 24%nat) ltac:(vm_compute; reflexivity)) as E.
    cbn [String.append] in E. look SEE U E. exact (E HC Hi).
Qed.
Print Assumptions C92_heat.

(** ** The mission *)
(** From phase to phase weight, charge and temperatures go on; the aircraft lands lighter by the fuel burned in all phases,
    and the battery of a side has given what that side drew. *)
Lemma aisle_takes kt kp H tri n x : In x ["ac|design_mission|TOW"; "ac|propulsion|battery|weight"] -> takes x (SingleAisle H tri) kt kp tri n = true.
Proof. intros [<-|[<-|[]]]; vm_cast_no_check (eq_refl true). Qed.
Theorem C92_mission kt kp H X n o V W : method_size Simpson n -> is_inverse (n - 1) simpson_a X ->
  one_flight kt kp (method_tri Simpson n X) n (SingleAisle H (method_tri Simpson n X)) o V W ->
  let burnt l := legs (fun p => burned n aisle_book (W p)) l in let used l := legs (fun p => flowed n (W p) (W p "elec_load") (n - 1)) l in
  (forall p q x, In (p, q) (flown_after o) -> In x ["weight"; "fuel_used"; "motorheatsink.T"; "batteryheatsink.T"] -> W q x 0%nat = W p x (n - 1)%nat) /\
  W (first_phase o) "weight" 0%nat = V "ac|design_mission|TOW" 0%nat - W (first_phase o) "fuel_used_initial" 0%nat /\
  W "descent" "weight" (n - 1)%nat = W (first_phase o) "weight" 0%nat - burnt (main_legs o) /\
  (pf_reserve o = true -> W "loiter" "weight" (n - 1)%nat = W "descent" "weight" (n - 1)%nat - burnt (reserve_legs o ++ ["loiter"])) /\
  (forall e, e * V "ac|propulsion|battery|weight" 0%nat <> 0 -> (forall p k, In (p, k) (profile_phases o) -> W p "battery.specific_energy" 0%nat = e) ->
    let E := e * V "ac|propulsion|battery|weight" 0%nat in
    (forall p q, In (p, q) (flown_after o) -> W q "battery.SOC" 0%nat = W p "battery.SOC" (n - 1)%nat) /\
    E * (W (first_phase o) "battery.SOC" 0%nat - W "descent" "battery.SOC" (n - 1)%nat) = used (main_legs o) /\
    (pf_reserve o = true -> E * (W "descent" "battery.SOC" (n - 1)%nat - W "loiter" "battery.SOC" (n - 1)%nat) = used (reserve_legs o ++ ["loiter"]))).
Proof.
  intros MS HX F burnt used. assert (N1 : (n - 1 < n)%nat) by (destruct MS; lia). assert (N0 : (0 < n)%nat) by lia. assert (Hn : (1 <= n)%nat) by lia.
  set (tri := method_tri Simpson n X) in *. set (A := SingleAisle H tri) in *.
  assert (PH : forall p, (exists k, In (p, k) (profile_phases o)) -> books n aisle_book (W p) /\ single_aisle_accounts H n p (W p) /\
     W p "ac|design_mission|TOW" 0%nat = V "ac|design_mission|TOW" 0%nat /\ W p "ac|propulsion|battery|weight" 0%nat = V "ac|propulsion|battery|weight" 0%nat).
  { intros p [k Hp]. destruct (C92_phase kt kp H n X p k (W p) MS HX) as [B1 B2].
    - intros ->. revert Hp. clear. destruct o as [[] [] [] []]; cbn; intuition congruence.
    - exact (fl_phases _ _ _ _ _ _ _ _ F p k Hp).
    - split; [exact B1|]. split; [exact B2|]. split; apply (fl_aircraft _ _ _ _ _ _ _ _ F p k); try exact Hp; try reflexivity;
        (eapply takes_ok; [|exact Hp]); apply aisle_takes; cbn; tauto. }
  assert (ST : forall p q u, In (p, q) (flown_after o) -> In u (ac_states A) -> W q (is_start (ps_prom u)) 0%nat = W p (is_end (ps_prom u)) 0%nat) by (exact (fl_states _ _ _ _ _ _ _ _ F)).
  assert (FU : forall p q, In (p, q) (flown_after o) -> W q "fuel_used" 0%nat = W p "fuel_used" (n - 1)%nat).
  { intros p q Hpq. destruct (after_flown o p q Hpq) as [Hp Hq]. destruct (PH q Hq) as [[_ B _] _]. destruct (PH p Hp) as [[_ _ E] _]. cbn [aisle_book fb_used fb_start fb_end] in B, E.
    rewrite (evolves_first _ _ _ _ _ Hn B). rewrite <- E. exact (ST p q _ Hpq (or_introl eq_refl)). }
  assert (WS : forall p, (exists k, In (p, k) (profile_phases o)) -> W p "weight" 0%nat = V "ac|design_mission|TOW" 0%nat - W p "fuel_used_initial" 0%nat /\
     W p "weight" 0%nat = V "ac|design_mission|TOW" 0%nat - W p "fuel_used" 0%nat /\
    W p "weight" (n - 1)%nat = V "ac|design_mission|TOW" 0%nat - W p "fuel_used" (n - 1)%nat /\ burned n aisle_book (W p) = W p "weight" 0%nat - W p "weight" (n - 1)%nat).
  { intros p Hp. destruct (PH p Hp) as ([B1 B2 B3] & _ & E & _). cbn [aisle_book fb_mass fb_used fb_start fb_end fb_flow] in *.
    rewrite (B1 0%nat N0), (B1 _ N1), E. pose proof (evolves_first _ _ _ _ _ Hn B2) as Z. pose proof (evolves_last _ _ _ _ _ Hn B2) as L. unfold burned. cbn [aisle_book fb_flow].
    rewrite Z, L. repeat split; ring. }
  assert (CN : forall p q, In (p, q) (flown_after o) -> W q "weight" 0%nat = W p "weight" (n - 1)%nat).
  { intros p q Hpq. destruct (after_flown o p q Hpq) as [Hp Hq]. destruct (WS q Hq) as (_ & E1 & _). destruct (WS p Hp) as (_ & _ & E2 & _). rewrite E1, E2, (FU p q Hpq). reflexivity. }
  assert (OP : forall l, burnt l = - legs (fun p => - burned n aisle_book (W p)) l) by (unfold burnt; induction l as [|a l IH]; [cbn; ring|unfold legs in *; cbn [fold_right]; rewrite IH; ring]).
  split; [|split; [|split; [|split]]].
  - intros p q x Hpq Hx. destruct (after_flown o p q Hpq) as [Hp Hq]. destruct (PH q Hq) as (_ & Aq & _). destruct (PH p Hp) as (_ & Ap & _).
    cbn [In] in Hx. destruct Hx as [<-|[<-|[<-|[<-|[]]]]]; [exact (CN p q Hpq)|exact (FU p q Hpq)| |].
    + destruct (sa_temperatures _ _ _ _ Aq "motorheatsink" ltac:(cbn; tauto)) as [E1 _]. destruct (sa_temperatures _ _ _ _ Ap "motorheatsink" ltac:(cbn; tauto)) as [_ E2]. cbn [String.append] in E1, E2.
      rewrite E1, <- E2. exact (ST p q _ Hpq (or_intror (or_intror (or_introl eq_refl)))).
    + destruct (sa_temperatures _ _ _ _ Aq "batteryheatsink" ltac:(cbn; tauto)) as [E1 _]. destruct (sa_temperatures _ _ _ _ Ap "batteryheatsink" ltac:(cbn; tauto)) as [_ E2]. cbn [String.append] in E1, E2.
      rewrite E1, <- E2. exact (ST p q _ Hpq (or_intror (or_intror (or_intror (or_introl eq_refl))))).
  - apply WS, first_flown.
  - rewrite OP, (legs_total _ (fun p => W p "weight" 0%nat) (fun p => W p "weight" (n - 1)%nat)).
    + rewrite (main_chain o _ _ CN). ring.
    + intros p Hp. destruct (WS p (main_flown o p Hp)) as (_ & _ & _ & E). rewrite E. ring.
  - intro R. rewrite OP, (legs_total _ (fun p => W p "weight" 0%nat) (fun p => W p "weight" (n - 1)%nat)).
    + rewrite (reserve_chain o _ _ R CN). ring.
    + intros p Hp. destruct (WS p (reserve_legs_flown o p R Hp)) as (_ & _ & _ & E). rewrite E. ring.
  - intros e HE HC E. fold E in HE.
    assert (CE : forall p, (exists k, In (p, k) (profile_phases o)) -> side_capacity (W p) = E).
    { intros p Hp. destruct (PH p Hp) as (_ & _ & _ & EB). destruct Hp as [k Hp]. unfold side_capacity. rewrite EB, (HC p k Hp). unfold E. ring. }
    assert (S0 : forall p, (exists k, In (p, k) (profile_phases o)) -> W p "battery.SOC" 0%nat = W p "battery.SOC_initial" 0%nat /\
       flowed n (W p) (W p "elec_load") (n - 1) = E * W p "battery.SOC" 0%nat - E * W p "battery.SOC" (n - 1)%nat).
    { intros p Hp. destruct (PH p Hp) as (_ & Ap & _). pose proof (sa_charge _ _ _ _ Ap) as C1. rewrite (CE p Hp) in C1. pose proof (C1 HE 0%nat N0) as K0. pose proof (C1 HE _ N1) as K1.
      assert (Z : W p "battery.SOC" 0%nat = W p "battery.SOC_initial" 0%nat) by (apply (Rmult_eq_reg_l E); [rewrite K0; unfold flowed; cbn [area]; ring|exact HE]).
      split; [exact Z|]. rewrite Z, K1. ring. }
    assert (CC : forall p q, In (p, q) (flown_after o) -> W q "battery.SOC" 0%nat = W p "battery.SOC" (n - 1)%nat).
    { intros p q Hpq. destruct (after_flown o p q Hpq) as [Hp Hq]. destruct (PH p Hp) as (_ & Ap & _). rewrite (proj1 (S0 q Hq)), <- (sa_charge_end _ _ _ _ Ap).
      exact (ST p q _ Hpq (or_intror (or_introl eq_refl))). }
    assert (CM : forall p q, In (p, q) (flown_after o) -> - (E * W q "battery.SOC" 0%nat) = - (E * W p "battery.SOC" (n - 1)%nat)) by (intros p q Hpq; now rewrite (CC p q Hpq)).
    split; [exact CC|]. unfold used. split.
    + rewrite (legs_total _ (fun p => - (E * W p "battery.SOC" 0%nat)) (fun p => - (E * W p "battery.SOC" (n - 1)%nat))).
      * rewrite (main_chain o _ _ CM). ring.
      * intros p Hp. rewrite (proj2 (S0 p (main_flown o p Hp))). ring.
    + intro R. rewrite (legs_total _ (fun p => - (E * W p "battery.SOC" 0%nat)) (fun p => - (E * W p "battery.SOC" (n - 1)%nat))).
      * rewrite (reserve_chain o _ _ R CM). ring.
      * intros p Hp. rewrite (proj2 (S0 p (reserve_legs_flown o p R Hp))). ring.
Qed.
Print Assumptions C92_mission.
