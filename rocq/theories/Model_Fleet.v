(** Model of the aircraft in openconcept/examples/ as aircraft models of a mission:
    TBM850.py, Caravan.py, KingAirC90GT.py, HybridTwin.py, HybridTwin_thermal.py,
    HybridTwin_active_thermal.py, ElectricSinglewithThermal.py, B738.py and B738_sizing.py, with the
    MTOW margin and the objective of the hybrid twins.

    Values are SI quantities, except "rpm"; [set_input_defaults] and the initial
    values of controls are left out (an IndepVarComp output is a value the user may
    set).  The CFM56 engine deck (propulsion/cfm56.py:44-104), a Kriging surrogate of
    tabulated data, is an arbitrary function [deck] of throttle, altitude and Mach
    number.  [M] are the propeller maps, [tri] is the matrix of the Simpson integrators. *)
From Coq Require Import Reals List Bool PeanoNat String.
From Verif Require Import Base Py RSum Model_Algebra Model_Vectors Model_Integrals Model_Atmos Model_Aero Model_Mission Model_Net Model_Thermal Model_HX
  Model_Ducts Model_HeatPipe Model_Systems Model_Weights Model_Propulsion Model_Drag Model_Flight.
Import ListNotations.
Open Scope R_scope.
Open Scope string_scope.
Open Scope list_scope.

(** ** Building blocks *)
(** OpenMDAO's conversion at the boundary of a subsystem whose variables are in other
    units: [units x] is the size of the unit of [x] in SI units. *)
Definition converted (units : string -> R) (s : gsub) : gsub := {|
  gs_name := gs_name s; gs_ins := gs_ins s; gs_outs := gs_outs s;
  gs_rel := fun I O => gs_rel s (fun x i => I x i / units x) (fun y i => O y i / units y);
  gs_pin := gs_pin s; gs_pout := gs_pout s |}.
(** The units weights_turboprop.py and weights_twin_hybrid.py declare: areas in ft**2,
    lengths in ft, power in hp, "ac|q_cruise" in lb/ft**2, ratios, angles and numbers
    without a unit (or in rad), all else in lb. *)
Definition ga_units (x : string) : R :=
  if mem x [wS; hS; vS; fS] then foot ^ 2
  else if mem x [harm; fL; fH; fW; mgL; ngL] then foot
  else if String.eqb x "P_TO" then hp
  else if String.eqb x qcr then pound / foot ^ 2
  else if mem x [wAR; wsweep; wtaper; wtc; npax; "structural_fudge"] then 1
  else pound.
(** TBM850.py:80-85, Caravan.py:64-69, KingAirC90GT.py:57-62, HybridTwin.py:99-104. *)
Definition empty_weight (g : group) (pout : list promo) : gsub :=
  converted ga_units (subgroup "OEW" g [P "*"; As "P_TO" "ac|propulsion|engine|rating"] pout).
(** TBM850.py:55-71 and the same in the other examples: the zero-lift drag of the phase. *)
Definition cd0_source (p : string) : string :=
  if in_list p ["v0v1"; "v1v0"; "v1vr"; "rotate"] then "ac|aero|polar|CD0_TO" else "ac|aero|polar|CD0_cruise".
Definition polar (nn : nat) (p : string) (pout : list promo) : gsub :=
  comp nn "drag" (PolarDrag false) [P "fltcond|CL"; P "ac|geom|*"; As "CD0" (cd0_source p); P "fltcond|q"; As "e" "ac|aero|polar|e"] pout.
(** Caravan.py:73-81 and the same in the others: the fuel used, integrated. *)
Definition fuel_integ : integ_spec := integ_std "fuel_used" "fuel_flow" false.
Definition intfuel (nn : nat) (tri : mat) : gsub := integrators nn tri "intfuel" [fuel_integ] [P "*"] [P "*"].
(** Caravan.py:82-93 and the same in the others: MTOW less the fuel used. *)
Definition weight_eq (nn : nat) : add_sys :=
  {| as_out := "weight"; as_ins := ["ac|weights|MTOW"; "fuel_used"]; as_vec := VList [1%nat; nn]; as_len := 1;
     as_sf := Some [1; - (1)]; as_units := Some "kg" |}.
Definition burn_weight (nn : nat) : gsub := adder nn "weight" (weight_eq nn) [P "*"] [P "weight"].

(** ** The turboprops *)
(** TBM850.py:30-107 *)
Definition TBM850Model (M : maps) (tri : mat) (nn : nat) (p : string) : group := {|
  g_subs :=
    [subgroup "propmodel" (TurbopropPropulsionSystem M nn)
       [P "fltcond|rho"; P "fltcond|Utrue"; P "ac|propulsion|engine|rating"; P "ac|propulsion|propeller|diameter"; P "throttle"] [P "thrust"];
     comp nn "drag" (PolarDrag false)
       [P "fltcond|CL"; P "ac|geom|wing|S_ref"; P "ac|geom|wing|AR"; As "CD0" (cd0_source p); P "fltcond|q"; As "e" "ac|aero|polar|e"] [P "drag"];
     empty_weight SingleTurboPropEmptyWeight [P "OEW"];
     integrators nn tri "intfuel" [fuel_integ] [] [P "fuel_used_final"];
     adder nn "weight" (weight_eq nn) [P "ac|weights|MTOW"] [P "weight"]];
  g_conns :=
    [("propmodel.prop1.component_weight", "W_propeller"); ("propmodel.eng1.component_weight", "W_engine");
     ("propmodel.fuel_flow", "intfuel.fuel_flow"); ("intfuel.fuel_used", "weight.fuel_used")] |}.
Definition TBM850 (M : maps) (tri : mat) : aircraft := {|
  ac_model := TBM850Model M tri; ac_times := ["intfuel.duration"];
  ac_states := [{| ps_abs := std_state "intfuel" "fuel_used"; ps_prom := st3 "intfuel.fuel_used" "intfuel.fuel_used_initial" "fuel_used_final" |}] |}.

(** A fuel state promoted to the aircraft model, as in all examples that follow. *)
Definition fuel_state : pstate := {| ps_abs := std_state "intfuel" "fuel_used"; ps_prom := promoted_state "fuel_used" |}.

(** Caravan.py:26-93 *)
Definition CaravanModel (M : maps) (tri : mat) (nn : nat) (p : string) : group := {|
  g_subs :=
    [indep "controls" ["prop1rpm"] [P "*"];
     subgroup "propmodel" (TurbopropPropulsionSystem M nn) [P "fltcond|*"; P "ac|propulsion|*"; P "throttle"] [P "fuel_flow"; P "thrust"];
     polar nn p [P "drag"];
     empty_weight SingleTurboPropEmptyWeight [P "OEW"];
     intfuel nn tri; burn_weight nn];
  g_conns :=
    [("prop1rpm", "propmodel.prop1.rpm");
     ("propmodel.prop1.component_weight", "W_propeller"); ("propmodel.eng1.component_weight", "W_engine")] |}.
Definition Caravan (M : maps) (tri : mat) : aircraft := {|
  ac_model := CaravanModel M tri; ac_times := ["duration"]; ac_states := [fuel_state] |}.

(** KingAirC90GT.py:24-87 *)
Definition KingAirModel (M : maps) (tri : mat) (nn : nat) (p : string) : group := {|
  g_subs :=
    [indep "controls" ["prop|rpm"] [P "*"];
     subgroup "propmodel" (TwinTurbopropPropulsionSystem M nn) [P "fltcond|*"; P "ac|propulsion|*"; P "throttle"; P "propulsor_active"] [P "fuel_flow"; P "thrust"];
     polar nn p [P "drag"];
     empty_weight SingleTurboPropEmptyWeight [P "OEW"];
     intfuel nn tri; burn_weight nn];
  g_conns :=
    [("prop|rpm", "propmodel.prop1.rpm"); ("prop|rpm", "propmodel.prop2.rpm");
     ("propmodel.propellers_weight", "W_propeller"); ("propmodel.engines_weight", "W_engine")] |}.
Definition KingAir (M : maps) (tri : mat) : aircraft := {|
  ac_model := KingAirModel M tri; ac_times := ["duration"]; ac_states := [fuel_state] |}.

(** ** The hybrid twins *)
(** HybridTwin.py:61-75, HybridTwin_thermal.py:60-76, HybridTwin_active_thermal.py:70-86:
    the controls, with [extra] ones; the hybridization factor is the same at all nodes. *)
Definition hybrid_controls (nn : nat) (extra : list string) : list gsub :=
  [indep "controls" ("proprpm" :: extra ++ ["hybridization"]) [P "*"];
   linear_interp nn "hybrid_factor" [As "start_val" "hybridization"; As "end_val" "hybridization"] []].
Definition hybrid_promotes : list promo :=
  [P "fltcond|*"; P "ac|propulsion|*"; P "throttle"; P "propulsor_active"; P "ac|weights*"; P "duration"].
(** HybridTwin.py:93-94, 108-111 and the same in the other two. *)
Definition hybrid_links : list (string * string) :=
  [("proprpm", "propmodel.prop1.rpm"); ("proprpm", "propmodel.prop2.rpm");
   ("hybrid_factor.vec", "propmodel.hybrid_split.power_split_fraction");
   ("propmodel.propellers_weight", "W_propeller"); ("propmodel.eng1.component_weight", "W_engine");
   ("propmodel.gen1.component_weight", "W_generator"); ("propmodel.motors_weight", "W_motors")].
Definition battery_state : pstate :=
  {| ps_abs := std_state "propmodel.batt1.ode_integ" "SOC"; ps_prom := std_state "propmodel.batt1" "SOC" |}.
(** HybridTwin.py:54-134 *)
Definition HybridTwinModel (M : maps) (tri : mat) (nn : nat) (p : string) : group := {|
  g_subs := hybrid_controls nn [] ++
    [subgroup "propmodel" (TwinSeriesHybridElectricPropulsionSystem M nn tri) hybrid_promotes [P "fuel_flow"; P "thrust"];
     polar nn p [P "drag"];
     empty_weight TwinSeriesHybridEmptyWeight [P "OEW"];
     intfuel nn tri; burn_weight nn];
  g_conns := hybrid_links |}.
Definition HybridTwin (M : maps) (tri : mat) : aircraft := {|
  ac_model := HybridTwinModel M tri; ac_times := ["duration"; "duration"]; ac_states := [battery_state; fuel_state] |}.

(** max_min_comp.py:27-41 as a subsystem. *)
Definition max_sub (nn : nat) (name : string) : gsub := {|
  gs_name := name; gs_ins := ["array"]; gs_outs := ["max"];
  gs_rel := fun I O => amax nn (I "array") = Ok (O "max" 0%nat);
  gs_pin := []; gs_pout := [] |}.
(** HybridTwin_thermal.py:113-127, HybridTwin_active_thermal.py:121-135 *)
Definition hx_eqs (nn : nat) : list add_sys :=
  [{| as_out := "OEW"; as_ins := ["OEW_orig"; "W_hx"; "W_coolant"]; as_vec := VInt 1; as_len := 1; as_sf := Some [1; 1; 1]; as_units := Some "kg" |};
   {| as_out := "drag"; as_ins := ["drag_orig"; "drag_hx"]; as_vec := VInt nn; as_len := 1; as_sf := Some [1; 1]; as_units := Some "N" |};
   {| as_out := "area_constraint"; as_ins := ["hx_frontal_area"; "nozzle_area"]; as_vec := VInt 1; as_len := 1; as_sf := Some [1; - (1)]; as_units := Some "m**2" |}].
Definition hx_adder (nn : nat) : gsub :=
  adders "hxadder" (hx_eqs nn) [As "W_coolant" "ac|propulsion|thermal|hx|coolant_mass"] [P "OEW"; P "drag"].
(** HybridTwin_thermal.py:128-135; [nozzle] is the array of nozzle areas. *)
Definition hx_links (nozzle : string) : list (string * string) :=
  [("drag.drag", "hxadder.drag_orig"); ("OEW.OEW", "hxadder.OEW_orig"); ("propmodel.hx.component_weight", "hxadder.W_hx");
   ("propmodel.duct.drag", "hxadder.drag_hx"); ("propmodel.hx.frontal_area", "hxadder.hx_frontal_area");
   (nozzle, "nozzle_area.array"); ("nozzle_area.max", "hxadder.nozzle_area")].
Definition thermal_state (name q : string) : pstate :=
  let s d := st3 (String.append d q) (String.append d "T_initial") (String.append d "T_final") in
  {| ps_abs := s (String.append "propmodel." (String.append name ".ode_integ.")); ps_prom := s (String.append "propmodel." (String.append name ".")) |}.
(** HybridTwin_thermal.py:53-154 *)
Definition HybridTwinThermalModel (M : maps) (tri : mat) (nn : nat) (p : string) : group := {|
  g_subs := hybrid_controls nn ["ac|propulsion|thermal|hx|mdot_coolant"] ++
    [subgroup "propmodel" (TwinSeriesHybridElectricThermalPropulsionSystem M nn tri) hybrid_promotes
       [P "fuel_flow"; P "thrust"; P "ac|propulsion|thermal|duct|area_nozzle"];
     polar nn p [];
     empty_weight TwinSeriesHybridEmptyWeight [];
     hx_adder nn; max_sub nn "nozzle_area";
     intfuel nn tri; burn_weight nn];
  g_conns := hybrid_links ++ hx_links "ac|propulsion|thermal|duct|area_nozzle" |}.
Definition HybridTwinThermal (M : maps) (tri : mat) : aircraft := {|
  ac_model := HybridTwinThermalModel M tri; ac_times := ["duration"; "duration"; "duration"; "duration"; "duration"];
  ac_states := [battery_state; thermal_state "batteryheatsink" "T"; thermal_state "motorheatsink" "T"; thermal_state "reservoir" "T_out"; fuel_state] |}.
(** HybridTwin_active_thermal.py:63-162 *)
Definition HybridTwinActiveModel (M : maps) (tri : mat) (nn : nat) (p : string) : group := {|
  g_subs := hybrid_controls nn ["ac|propulsion|thermal|hx|mdot_coolant"] ++
    [subgroup "propmodel" (TwinSeriesHybridElectricThermalPropulsionRefrigerated M nn tri) hybrid_promotes [P "fuel_flow"; P "thrust"];
     polar nn p [];
     empty_weight TwinSeriesHybridEmptyWeight [];
     hx_adder nn; max_sub nn "nozzle_area";
     intfuel nn tri; burn_weight nn];
  g_conns := hybrid_links ++ hx_links "propmodel.area_nozzle" |}.
Definition HybridTwinActive (M : maps) (tri : mat) : aircraft := {|
  ac_model := HybridTwinActiveModel M tri; ac_times := ["duration"; "duration"; "duration"; "duration"];
  ac_states := [battery_state; thermal_state "batteryheatsink" "T"; thermal_state "motorheatsink" "T"; fuel_state] |}.

(** ** The electric single *)
(** ElectricSinglewithThermal.py:24-60 *)
Definition ElectricTBMModel (M : maps) (tri : mat) (nn : nat) (p : string) : group := {|
  g_subs :=
    [indep "controls" ["prop1rpm"] [P "*"];
     subgroup "propmodel" (AllElectricIncompressible M nn tri) [P "fltcond|*"; P "ac|propulsion|*"; P "throttle"; P "ac|weights|*"; P "duration"] [P "thrust"];
     polar nn p [P "drag"];
     linear_interp nn "weight" [As "start_val" "ac|weights|MTOW"; As "end_val" "ac|weights|MTOW"] [As "vec" "weight"]];
  g_conns := [("prop1rpm", "propmodel.prop1.rpm")] |}.
Definition ElectricTBM (M : maps) (tri : mat) : aircraft := {|
  ac_model := ElectricTBMModel M tri; ac_times := ["duration"; "duration"; "duration"];
  ac_states := [battery_state; thermal_state "motorheatsink" "T"; thermal_state "reservoir" "T_out"] |}.

(** ** The 737-800 *)
(** cfm56.py:44-104: an engine deck. *)
Record deck := { dk_thrust : R -> R -> R -> R; dk_fuel : R -> R -> R -> R; dk_T4 : R -> R -> R -> R }.
Definition CFM56 (D : deck) (nn : nat) (name : string) (pin pout : list promo) : gsub := {|
  gs_name := name; gs_ins := ["throttle"; "fltcond|h"; "fltcond|M"]; gs_outs := ["thrust"; "fuel_flow"; "T4"];
  gs_rel := fun I O => forall i, (i < nn)%nat ->
    let at_ f := f (I "throttle" i) (I "fltcond|h" i) (I "fltcond|M" i) in
    O "thrust" i = at_ (dk_thrust D) /\ O "fuel_flow" i = at_ (dk_fuel D) /\ O "T4" i = at_ (dk_T4 D);
  gs_pin := pin; gs_pout := pout |}.
(** B738.py:33-45 *)
Definition doubler : pcomp :=
  let ins := [("thrust_in", Vec); ("fuel_flow_in", Vec)] in
  let outs := [("thrust", (Vec, fun e : nenv => 2 * e "thrust_in")); ("fuel_flow", (Vec, fun e : nenv => 2 * e "fuel_flow_in"))] in
  {| pc_ins := ins; pc_outs := outs; pc_J := cs_partials ins outs |}.
(** B738.py:65-66 *)
Definition passthru : pcomp :=
  let ins := [("x", Sca)] in let outs := [("OEW", (Sca, fun e : nenv => e "x"))] in
  {| pc_ins := ins; pc_outs := outs; pc_J := cs_partials ins outs |}.
(** B738.py:23-80; mission_groups.py:175-287 adds [ode_integ] first and integrates the
    tagged fuel flow into a promoted state (see [Model_Mission.configure_var]). *)
Definition B738Model (D : deck) (tri : mat) (nn : nat) (p : string) : group := {|
  g_subs :=
    [integrators nn tri "ode_integ" [fuel_integ] [P "fuel_used_initial"] [P "fuel_used"; P "fuel_used_final"];
     CFM56 D nn "propmodel" [P "fltcond|*"; P "throttle"] [];
     comp nn "doubler" doubler [] [P "*"];
     polar nn p [P "drag"];
     comp nn "OEW" passthru [As "x" "ac|weights|OEW"] [P "OEW"];
     burn_weight nn];
  g_conns :=
    [("propmodel.thrust", "doubler.thrust_in"); ("propmodel.fuel_flow", "doubler.fuel_flow_in"); ("fuel_flow", "ode_integ.fuel_flow")] |}.
Definition B738 (D : deck) (tri : mat) : aircraft := {|
  ac_model := B738Model D tri; ac_times := ["ode_integ.duration"];
  ac_states := [{| ps_abs := std_state "ode_integ" "fuel_used"; ps_prom := promoted_state "fuel_used" |}] |}.

(** ** The 737-800 of empirical drag and weight estimates *)
(** rubberized_turbofan.py:65-131 with the CFM56 deck, without hydrogen. *)
Definition RubberizedTurbofan (D : deck) (nn : nat) : group := {|
  g_subs :=
    [CFM56 D nn "engine_deck" [P "throttle"; P "fltcond|h"; P "fltcond|M"] [P "T4"];
     multipliers "scale_engine" [scale_thrust nn; scale_fuel nn false]
       [As "rating_thrust" "ac|propulsion|engine|rating"; As "rating_fuel_flow" "ac|propulsion|engine|rating"] [P "thrust"; P "fuel_flow"]];
  g_conns := [("engine_deck.thrust", "scale_engine.unit_thrust"); ("engine_deck.fuel_flow", "scale_engine.unit_fuel_flow")] |}.
(** B738_sizing.py:45, 51-81: the drag build-up of a phase. *)
Definition buildup_promotes : list promo :=
  map P ["fltcond|Utrue"; "fltcond|rho"; "fltcond|T"; "ac|geom|fuselage|length"; "ac|geom|fuselage|height"; "ac|geom|fuselage|S_wet";
    "ac|geom|hstab|S_ref"; "ac|geom|hstab|AR"; "ac|geom|hstab|taper"; "ac|geom|hstab|toverc"; "ac|geom|vstab|S_ref"; "ac|geom|vstab|AR"; "ac|geom|vstab|taper"; "ac|geom|vstab|toverc";
    "ac|geom|wing|S_ref"; "ac|geom|wing|AR"; "ac|geom|wing|taper"; "ac|geom|wing|toverc"; "ac|geom|nacelle|length"; "ac|geom|nacelle|S_wet"; "ac|propulsion|num_engines"].
Definition configured (o : drag_options) (t : bool) : drag_options := {|
  do_wing := do_wing o; do_takeoff := t; do_fudge := do_fudge o; do_FF_nacelle := do_FF_nacelle o; do_Q_fuselage := do_Q_fuselage o; do_Q_tail := do_Q_tail o;
  do_Q_wing := do_Q_wing o; do_flap_chord := do_flap_chord o; do_Q_flap := do_Q_flap o; do_flapped := do_flapped o; do_lam_fuselage := do_lam_fuselage o;
  do_lam_hstab := do_lam_hstab o; do_lam_vstab := do_lam_vstab o; do_lam_wing := do_lam_wing o; do_lam_nacelle := do_lam_nacelle o |}.
Definition zero_lift_drag (nn : nat) (takeoff : bool) : gsub :=
  subgroup "zero_lift_drag" (ParasiteDragCoefficient_JetTransport (configured drag_defaults takeoff) nn)
    (buildup_promotes ++ if takeoff then [P "ac|aero|takeoff_flap_deg"; P "ac|geom|wing|c4sweep"] else []) [].
(** B738_sizing.py:110-120 *)
Definition active_engines (nn : nat) : add_sys :=
  {| as_out := "num_active_engines"; as_ins := ["num_engines"; "propulsor_active"; "one"]; as_vec := VList [1%nat; nn; 1%nat]; as_len := 1;
     as_sf := Some [1; 1; - (1)]; as_units := None |}.
(** B738_sizing.py:122-136 *)
Definition times_engines (nn : nat) (out x k : string) (unit_ : list tok) : mul_sys :=
  {| ms_out := out; ms_ins := [x; k]; ms_vec := VInt nn; ms_len := 1; ms_sf := 1; ms_div := None; ms_units := Some [Some unit_; None] |}.
(** B738_sizing.py:150-160 *)
Definition burn_integ : integ_spec := integ_std "fuel_burn" "fuel_flow" false.
(** B738_sizing.py:163-175 *)
Definition burn_eq (nn : nat) : add_sys :=
  {| as_out := "weight"; as_ins := ["ac|weights|MTOW"; "fuel_burn"]; as_vec := VList [1%nat; nn]; as_len := 1; as_sf := Some [1; - (1)]; as_units := Some "kg" |}.
(** B738_sizing.py:31-175 *)
Definition SizedModel (D : deck) (tri : mat) (nn : nat) (p : string) : group := {|
  g_subs :=
    [zero_lift_drag nn (in_list p ["v0v1"; "v1v0"; "v1vr"; "rotate"]);
     comp nn "drag_polar" (PolarDrag true) [P "fltcond|CL"; P "fltcond|q"; P "ac|geom|wing|S_ref"; P "ac|geom|wing|AR"; As "e" "ac|aero|polar|e"] [P "drag"];
     subgroup "CFM56" (RubberizedTurbofan D nn) [P "throttle"; P "fltcond|h"; P "fltcond|M"; P "ac|propulsion|engine|rating"] [];
     adder nn "num_engine_calc" (active_engines nn) [As "num_engines" "ac|propulsion|num_engines"; P "propulsor_active"] [];
     multipliers "propulsion_multiplier"
       [times_engines nn "thrust" "thrust_per_engine" "num_active_engines_1" [TUnit "lbf"];
        times_engines nn "fuel_flow" "fuel_flow_per_engine" "num_active_engines_2" [TUnit "kg"; TDiv; TUnit "s"]] [] [P "thrust"];
     integrators nn tri "fuel_burn_integ" [burn_integ] [] [];
     adder nn "weight_calc" (burn_eq nn) [P "ac|weights|MTOW"] [P "weight"]];
  g_conns :=
    [("zero_lift_drag.CD0", "drag_polar.CD0");
     ("CFM56.fuel_flow", "propulsion_multiplier.fuel_flow_per_engine"); ("CFM56.thrust", "propulsion_multiplier.thrust_per_engine");
     ("num_engine_calc.num_active_engines", "propulsion_multiplier.num_active_engines_1");
     ("num_engine_calc.num_active_engines", "propulsion_multiplier.num_active_engines_2");
     ("propulsion_multiplier.fuel_flow", "fuel_burn_integ.fuel_flow"); ("fuel_burn_integ.fuel_burn", "weight_calc.fuel_burn")] |}.
Definition SizedB738 (D : deck) (tri : mat) : aircraft := {|
  ac_model := SizedModel D tri; ac_times := ["fuel_burn_integ.duration"];
  ac_states := [{| ps_abs := std_state "fuel_burn_integ" "fuel_burn"; ps_prom := std_state "fuel_burn_integ" "fuel_burn" |}] |}.

(** ** The analysis of the hybrid twins *)
(** HybridTwin.py:185-196, HybridTwin_thermal.py:224-235, HybridTwin_active_thermal.py (the same). *)
Definition margins : pcomp :=
  let ins := [("MTOW", Sca); ("OEW", Sca); ("total_fuel", Sca); ("W_battery", Sca); ("payload", Sca)] in
  let outs := [("MTOW_margin", (Sca, fun e : nenv => e "MTOW" - e "OEW" - e "total_fuel" - e "W_battery" - e "payload"))] in
  {| pc_ins := ins; pc_outs := outs; pc_J := cs_partials ins outs |}.
(** HybridTwin.py:26-35 *)
Definition AugmentedFBObjective : pcomp := {|
  pc_ins := [("fuel_burn", Sca); ("ac|weights|MTOW", Sca)];
  pc_outs := [("mixed_objective", (Sca, fun e => e "fuel_burn" + e "ac|weights|MTOW" / 100))];
  pc_J := [("mixed_objective", "fuel_burn", fun _ => 1); ("mixed_objective", "ac|weights|MTOW", fun _ => 1 / 100)] |}.
(** HybridTwin.py:138-177 and the same in the other two, with [extra] ones:
    HybridTwin_thermal.py:196-203, HybridTwin_active_thermal.py:204-210. *)
Definition hybrid_dvs (extra : list string) : list string :=
  ["ac|aero|CLmax_TO"; "ac|aero|polar|e"; "ac|aero|polar|CD0_TO"; "ac|aero|polar|CD0_cruise"; "ac|geom|wing|S_ref"; "ac|geom|wing|AR"; "ac|geom|wing|c4sweep";
   "ac|geom|wing|taper"; "ac|geom|wing|toverc"; "ac|geom|hstab|S_ref"; "ac|geom|hstab|c4_to_wing_c4"; "ac|geom|vstab|S_ref"; "ac|geom|fuselage|S_wet"; "ac|geom|fuselage|width";
   "ac|geom|fuselage|length"; "ac|geom|fuselage|height"; "ac|geom|nosegear|length"; "ac|geom|maingear|length"; "ac|weights|MTOW"; "ac|weights|W_fuel_max"; "ac|weights|MLW";
   "ac|weights|W_battery"; "ac|propulsion|engine|rating"; "ac|propulsion|propeller|diameter"; "ac|propulsion|generator|rating"; "ac|propulsion|motor|rating"] ++ extra ++
  ["ac|propulsion|battery|specific_energy"; "ac|num_passengers_max"; "ac|q_cruise"; "ac|num_engines"].
Definition hx_dvs : list string :=
  ["ac|propulsion|thermal|hx|coolant_mass"; "ac|propulsion|thermal|hx|channel_width"; "ac|propulsion|thermal|hx|channel_height"; "ac|propulsion|thermal|hx|channel_length";
   "ac|propulsion|thermal|hx|n_parallel"; "ac|propulsion|thermal|hx|n_wide_cold"].
(** HybridTwin.py:129-209, HybridTwin_thermal.py:157-247, HybridTwin_active_thermal.py:165-252:
    [data] are further values the user sets, with the inputs they are connected to. *)
Definition hybrid_analysis (dvs : list string) (data : list (string * string)) (mission : group) : group := {|
  g_subs :=
    [indep "dv_comp" dvs [P "*"];
     indep "mission_data_comp" ("batt_soc_target" :: map fst data) [P "*"];
     subgroup "analysis" mission [P "*"] [P "*"];
     comp 1 "margins" margins [P "payload"] [];
     comp 1 "aug_obj" AugmentedFBObjective [] [P "mixed_objective"]];
  g_conns :=
    [("cruise.OEW", "margins.OEW"); ("descent.fuel_used_final", "margins.total_fuel"); ("ac|weights|MTOW", "margins.MTOW"); ("ac|weights|W_battery", "margins.W_battery");
     ("ac|weights|MTOW", "aug_obj.ac|weights|MTOW"); ("descent.fuel_used_final", "aug_obj.fuel_burn")] ++ data |}.
(** HybridTwin_thermal.py:245-247, HybridTwin_active_thermal.py:251-252 *)
Definition thermal_data (first : string) (reservoir : bool) : list (string * string) :=
  let at_ x := String.append first (String.append ".propmodel." x) in
  [("T_motor_initial", at_ "motorheatsink.T_initial")] ++ (if reservoir then [("T_res_initial", at_ "reservoir.T_initial")] else []) ++
  [("T_batt_initial", at_ "batteryheatsink.T_initial")].
(** The three analyses: aircraft, profile of its mission (HybridTwin.py:178-183,
    HybridTwin_thermal.py:216-221, HybridTwin_active_thermal.py:222-227; the default transition,
    profiles.py:35-37), design variables and data. *)
Definition hybrid_analyses (M : maps) (tri : mat) : list (aircraft * profile * list string * list (string * string)) :=
  let full := {| pf_takeoff := true; pf_reserve := false; pf_ground_roll := false; pf_transition := Simplified |} in
  let basic := {| pf_takeoff := false; pf_reserve := false; pf_ground_roll := false; pf_transition := Ode |} in
  [(HybridTwin M tri, full, hybrid_dvs [], []);
   (HybridTwinThermal M tri, full, hybrid_dvs hx_dvs, thermal_data "v0v1" true);
   (HybridTwinActive M tri, basic, hybrid_dvs hx_dvs, thermal_data "climb" false)].
