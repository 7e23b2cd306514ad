(** Model of the hybrid single-aisle airliner with refrigerated batteries:
    openconcept/examples/N3_HybridSingleAisle_Refrig.py:24-366 and
    examples/aircraft_data/HybridSingleAisle.py:117-160.

    As in [Model_Fleet]: values are SI quantities, the initial values of controls and
    inputs are left out, and the N+3 hybrid engine deck (propulsion/N3.py:6-149), a Kriging
    surrogate, is an arbitrary function of throttle, altitude, Mach number and shaft power. *)
From Coq Require Import Reals List Bool PeanoNat String.
From Verif Require Import Base Py RSum Model_Algebra Model_Vectors Model_Integrals Model_Atmos Model_Aero Model_Mission Model_Net Model_Thermal Model_HX
  Model_Ducts Model_HeatPipe Model_Systems Model_Weights Model_Propulsion Model_Flight Model_Fleet.
Import ListNotations.
Open Scope R_scope.
Open Scope string_scope.
Open Scope list_scope.

(** mission_groups.py:113-160 (promote_add): a sum of inputs "_temp0", "_temp1" and so on
    with the factors [l], over [v] rows; [pin] promotes the last inputs. *)
Definition weighted_sys (v : nat) (out unit_ : string) (l : list (string * R)) : add_sys :=
  {| as_out := out; as_ins := map fst l; as_vec := VInt v; as_len := 1; as_sf := Some (map snd l); as_units := Some unit_ |}.
Definition weighted (v : nat) (name out unit_ : string) (l : list (string * R)) (pin : list promo) : gsub :=
  adder v name (weighted_sys v out unit_ l) pin [P "*"].
(** mission_groups.py:162-206 (promote_mult): a multiple of one source. *)
Definition multiple (v : nat) (name out : string) (unit_ : list tok) (k : R) : gsub :=
  multiplier v name {| ms_out := out; ms_ins := ["_temp"]; ms_vec := VInt v; ms_len := 1; ms_sf := k; ms_div := None; ms_units := Some [Some unit_] |} [] [P "*"].

(** HybridSingleAisle.py:118-159; mission_groups.py:208-222 adds an integrator, here of nothing. *)
Definition MotorFaultProtection (nn : nat) (tri : mat) (eff : R) : group := {|
  g_subs :=
    [integrators nn tri "ode_integ" [] [] [];
     comp nn "coolant_temps" (PerfectHeatTransferComp c_coolant) [P "T_in"; P "mdot_coolant"] [P "T_out"];
     multiplier nn "electrical_loss"
       {| ms_out := "elec_load"; ms_ins := ["motor_power"]; ms_vec := VInt nn; ms_len := 1; ms_sf := 1 - eff; ms_div := None; ms_units := Some [Some [TUnit "W"]] |} [P "*"] [P "*"];
     adder nn "duct_pressure" (sum "delta_p_stack" ["delta_p_motor_hx"; "delta_p_fault_prot_hx"] nn "Pa") [P "*"] [P "*"];
     adder nn "heat_transfer" (sum "heat_transfer" ["heat_transfer_motor_hx"; "heat_transfer_fault_prot_hx"] nn "W") [P "*"] [P "*"]];
  g_conns := [("elec_load", "coolant_temps.q")] |}.

(** N3.py:6-149 *)
Record hybrid_deck := { hk_thrust : R -> R -> R -> R -> R; hk_fuel : R -> R -> R -> R -> R; hk_surge : R -> R -> R -> R -> R }.
Definition N3Hybrid (H : hybrid_deck) (nn : nat) : gsub := {|
  gs_name := "engine"; gs_ins := ["throttle"; "fltcond|h"; "fltcond|M"; "hybrid_power"]; gs_outs := ["thrust"; "fuel_flow"; "surge_margin"];
  gs_rel := fun I O => forall i, (i < nn)%nat ->
    let at_ f := f (I "throttle" i) (I "fltcond|h" i) (I "fltcond|M" i) (I "hybrid_power" i) in
    O "thrust" i = at_ (hk_thrust H) /\ O "fuel_flow" i = at_ (hk_fuel H) /\ O "surge_margin" i = at_ (hk_surge H);
  gs_pin := [P "fltcond|*"; P "throttle"]; gs_pout := [] |}.

(** N3_HybridSingleAisle_Refrig.py:66-70; the defaults of motor.py:52-55. *)
Definition hybrid_machine : tech := {| t_eta := 95/100; t_winc := 1/5000; t_wbase := 0; t_cinc := 100/745; t_cbase := 1 |}.
(** motor_cooling.py:49, 179-181: 2100 W/m**2/K over a case of 1 m**2 for 650 kW; the other defaults. *)
Definition cooled_motor (nn : nat) (tri : mat) : group := LiquidCooledMotor nn tri false c_coolant 921 (2100 / 650000).
(** N3_HybridSingleAisle_Refrig.py:141-145, 160-171, 264: the design variables of a heat exchanger. *)
Definition hx_promotes (wide long tall : string) : list promo :=
  let at_ g x := String.append "ac|propulsion|thermal|" (String.append g (String.append "|" x)) in
  [As "ac|propulsion|thermal|hx|n_wide_cold" (at_ wide "n_wide_cold"); As "ac|propulsion|thermal|hx|n_long_cold" (at_ long "n_long_cold");
   As "ac|propulsion|thermal|hx|n_tall" (at_ tall "n_tall")].
(** hose.py:42-44 and pump.py:44-47, the defaults *)
Definition hose : pcomp := SimpleHose 2070000 (13563/10).
Definition pump : pcomp := SimplePump (35/100) 0 (1/450).
(** N3_HybridSingleAisle_Refrig.py:34-366 *)
Definition single_aisle_subs (H : hybrid_deck) (tri : mat) (nn : nat) (p : string) : list gsub :=
  [integrators nn tri "ode_integ" [fuel_integ] [P "fuel_used_initial"] [P "fuel_used"; P "fuel_used_final"];
   comp nn "airframe_drag" (PolarDrag false) [P "fltcond|CL"; P "ac|geom|*"; As "CD0" (cd0_source p); P "fltcond|q"; As "e" "ac|aero|polar|e"] [];
   weighted nn "add0" "drag" "N" [("_temp0", 1); ("_temp1", - (2)); ("_temp2", - (2))] [];
   linear_interp nn "hybrid_throttle" [As "start_val" "hybrid_throttle_start"; As "end_val" "hybrid_throttle_end"] [];
   comp nn "hybrid_motor" (SimpleMotor hybrid_machine) [As "elec_power_rating" "ac|propulsion|motor|rating"] [];
   N3Hybrid H nn;
   multiple nn "mult1" "thrust" [TUnit "kN"] 2;
   multiple nn "mult2" "fuel_flow" [TUnit "kg"; TDiv; TUnit "s"] 2;
   subgroup "battery" (SOCBattery nn tri (95/100)) [As "battery_weight" "ac|propulsion|battery|weight"] [];
   weighted nn "add3" "elec_load" "kW" [("_temp0", 1); ("_temp1", 1); ("_temp2", 1); ("_temp3", 1); ("_temp4", 1)] [];
   indep "thermal_params" ["rho_coolant"; "mdot_coolant_battery"; "mdot_coolant_motor"; "mdot_coolant_fault_prot"; "bypass_heat_pump";
     "variable_duct_nozzle_area_start"; "variable_duct_nozzle_area_end"; "heat_pump_specific_power"; "heat_pump_eff_factor"] [P "*"];
   linear_interp nn "li_battery" [] [As "vec" "variable_duct_nozzle_area"];
   linear_interp nn "li_motor" [As "start_val" "ac|propulsion|thermal|hx_motor|nozzle_area"; As "end_val" "ac|propulsion|thermal|hx_motor|nozzle_area"]
     [As "vec" "motor_duct_area_nozzle_in"];
   subgroup "motorheatsink" (cooled_motor nn tri) [As "power_rating" "ac|propulsion|motor|rating"] [];
   subgroup "motorfaultprot" (MotorFaultProtection nn tri (995/1000)) [] [];
   subgroup "hx_motor" (HXGroup nn) (hx_promotes "hx_motor" "hx_motor" "hx_motor") [];
   subgroup "hx_fault_prot" (HXGroup nn) (hx_promotes "hx_motor" "hx_fault_prot" "hx_motor") [];
   subgroup "motor_duct" (ImplicitCompressibleDuct_ExternalHX nn (90/100))
     [As "p_inf" "fltcond|p"; As "T_inf" "fltcond|T"; As "Utrue" "fltcond|Utrue"; As "area_nozzle_in" "motor_duct_area_nozzle_in"] [];
   comp nn "motor_hose" hose [As "hose_length" "ac|geom|thermal|hx_to_motor_length"; As "hose_diameter" "ac|geom|thermal|hx_to_motor_diameter"] [];
   comp nn "motor_coolant_pump" pump [As "power_rating" "ac|propulsion|thermal|hx_motor|pump_power_rating"] [];
   weighted nn "add4" "pressure_drop_motor_loop" "Pa" [("_temp0", 1); ("_temp1", - (1))] [];
   subgroup "batteryheatsink" (LiquidCooledBattery nn tri false default_cell) [As "battery_weight" "ac|propulsion|battery|weight"] [];
   subgroup "hx_battery" (HXGroup nn) (hx_promotes "hx" "hx" "hx") [];
   subgroup "refrig" (HeatPump nn false c_coolant) [As "power_rating" "ac|propulsion|thermal|heatpump|power_rating"] [];
   subgroup "variable_duct" (ImplicitCompressibleDuct_ExternalHX nn (95/100)) [As "p_inf" "fltcond|p"; As "T_inf" "fltcond|T"; As "Utrue" "fltcond|Utrue"] [];
   comp nn "battery_hose" hose [As "hose_length" "ac|geom|thermal|hx_to_battery_length"; As "hose_diameter" "ac|geom|thermal|hx_to_battery_diameter"] [];
   comp nn "battery_coolant_pump" pump [As "power_rating" "ac|propulsion|thermal|hx|pump_power_rating"] [];
   weighted nn "add5" "pressure_drop_battery_loop" "Pa" [("_temp0", 1); ("_temp1", - (1))] [];
   weighted 1 "add6" "OEW" "kg"
     [("_temp0", 2); ("_temp1", 2); ("_temp2", 2); ("_temp3", 2); ("_temp4", 2); ("_temp5", 2); ("_temp6", 2); ("_temp7", 2); ("_temp8", 2); ("_temp9", 1)]
     [As "_temp9" "ac|weights|OEW"];
   adder nn "weight" {| as_out := "weight"; as_ins := ["ac|design_mission|TOW"; "fuel_used"]; as_vec := VList [1%nat; nn]; as_len := 1;
                        as_sf := Some [1; - (1)]; as_units := Some "kg" |} [P "*"] [P "weight"];
   weighted 1 "add7" "margin" "kg" [("_temp0", 1); ("_temp1", - (1)); ("_temp2", - (1)); ("_temp3", - (2))]
     [As "_temp0" "ac|design_mission|TOW"; As "_temp1" "OEW"; As "_temp2" "fuel_used_final"; As "_temp3" "ac|propulsion|battery|weight"]].
Definition single_aisle_conns : list (string * string) :=
  [("airframe_drag.drag", "add0._temp0"); ("variable_duct.force.F_net", "add0._temp1"); ("motor_duct.force.F_net", "add0._temp2");
   ("hybrid_motor.shaft_power_out", "engine.hybrid_power"); ("hybrid_throttle.vec", "hybrid_motor.throttle");
   ("engine.thrust", "mult1._temp"); ("engine.fuel_flow", "mult2._temp"); ("fuel_flow", "ode_integ.fuel_flow");
   ("hybrid_motor.elec_load", "add3._temp0"); ("refrig.elec_load", "add3._temp1"); ("motorfaultprot.elec_load", "add3._temp2");
   ("battery_coolant_pump.elec_load", "add3._temp3"); ("motor_coolant_pump.elec_load", "add3._temp4"); ("elec_load", "battery.elec_load");
   ("variable_duct_nozzle_area_start", "li_battery.start_val"); ("variable_duct_nozzle_area_end", "li_battery.end_val");
   (* motor loop *)
   ("hybrid_motor.heat_out", "motorheatsink.q_in"); ("hybrid_motor.component_weight", "motorheatsink.motor_weight");
   ("hybrid_motor.elec_load", "motorfaultprot.motor_power");
   ("rho_coolant", "hx_motor.rho_hot"); ("rho_coolant", "hx_fault_prot.rho_hot"); ("rho_coolant", "motor_hose.rho_coolant"); ("rho_coolant", "motor_coolant_pump.rho_coolant");
   ("motor_hose.delta_p", "add4._temp0"); ("hx_motor.delta_p_hot", "add4._temp1"); ("pressure_drop_motor_loop", "motor_coolant_pump.delta_p");
   ("motor_duct.sta2.T", "hx_fault_prot.T_in_cold"); ("hx_fault_prot.T_out_cold", "hx_motor.T_in_cold");
   ("motor_duct.sta2.rho", "hx_motor.rho_cold"); ("motor_duct.sta2.rho", "hx_fault_prot.rho_cold");
   ("motor_duct.mdot", "hx_motor.mdot_cold"); ("motor_duct.mdot", "hx_fault_prot.mdot_cold");
   ("motorheatsink.T_out", "hx_motor.T_in_hot"); ("motorfaultprot.T_out", "hx_fault_prot.T_in_hot");
   ("mdot_coolant_motor", "motorheatsink.mdot_coolant"); ("mdot_coolant_motor", "hx_motor.mdot_hot"); ("mdot_coolant_motor", "motor_hose.mdot_coolant");
   ("mdot_coolant_motor", "motor_coolant_pump.mdot_coolant");
   ("mdot_coolant_fault_prot", "motorfaultprot.mdot_coolant"); ("mdot_coolant_fault_prot", "hx_fault_prot.mdot_hot");
   ("hx_motor.frontal_area", "motor_duct.area_2"); ("hx_motor.frontal_area", "motor_duct.area_3");
   ("hx_motor.delta_p_cold", "motorfaultprot.delta_p_motor_hx"); ("hx_fault_prot.delta_p_cold", "motorfaultprot.delta_p_fault_prot_hx");
   ("motorfaultprot.delta_p_stack", "motor_duct.sta3.delta_p");
   ("hx_motor.heat_transfer", "motorfaultprot.heat_transfer_motor_hx"); ("hx_fault_prot.heat_transfer", "motorfaultprot.heat_transfer_fault_prot_hx");
   ("motorfaultprot.heat_transfer", "motor_duct.sta3.heat_in");
   ("hx_motor.T_out_hot", "motorheatsink.T_in"); ("hx_fault_prot.T_out_hot", "motorfaultprot.T_in");
   (* battery loop *)
   ("battery.heat_out", "batteryheatsink.q_in");
   ("mdot_coolant_battery", "batteryheatsink.mdot_coolant"); ("mdot_coolant_battery", "refrig.mdot_coolant"); ("mdot_coolant_battery", "hx_battery.mdot_hot");
   ("mdot_coolant_battery", "battery_hose.mdot_coolant"); ("mdot_coolant_battery", "battery_coolant_pump.mdot_coolant");
   ("batteryheatsink.T_out", "refrig.T_in_cold"); ("refrig.T_out_cold", "batteryheatsink.T_in");
   ("rho_coolant", "hx_battery.rho_hot"); ("rho_coolant", "battery_hose.rho_coolant"); ("rho_coolant", "battery_coolant_pump.rho_coolant");
   ("heat_pump_eff_factor", "refrig.eff_factor"); ("heat_pump_specific_power", "refrig.specific_power");
   ("variable_duct_nozzle_area", "variable_duct.area_nozzle_in");
   ("battery_hose.delta_p", "add5._temp0"); ("hx_battery.delta_p_hot", "add5._temp1"); ("pressure_drop_battery_loop", "battery_coolant_pump.delta_p");
   ("variable_duct.sta2.T", "hx_battery.T_in_cold"); ("variable_duct.sta2.rho", "hx_battery.rho_cold"); ("variable_duct.mdot", "hx_battery.mdot_cold");
   ("hx_battery.frontal_area", "variable_duct.area_2"); ("hx_battery.frontal_area", "variable_duct.area_3");
   ("hx_battery.delta_p_cold", "variable_duct.sta3.delta_p"); ("hx_battery.heat_transfer", "variable_duct.sta3.heat_in");
   ("hx_battery.T_out_hot", "refrig.T_in_hot"); ("refrig.T_out_hot", "hx_battery.T_in_hot");
   (* weights *)
   ("refrig.component_weight", "add6._temp0"); ("hx_motor.component_weight", "add6._temp1"); ("hx_battery.component_weight", "add6._temp2");
   ("battery_hose.component_weight", "add6._temp3"); ("battery_coolant_pump.component_weight", "add6._temp4"); ("motor_hose.component_weight", "add6._temp5");
   ("motor_coolant_pump.component_weight", "add6._temp6"); ("hx_fault_prot.component_weight", "add6._temp7"); ("hybrid_motor.component_weight", "add6._temp8")].
Definition SingleAisleModel (H : hybrid_deck) (tri : mat) (nn : nat) (p : string) : group :=
  {| g_subs := single_aisle_subs H tri nn p; g_conns := single_aisle_conns |}.
(** The durations and states find_integrators_in_model finds (see [Model_Mission]). *)
Definition heat_state (name : string) : pstate :=
  {| ps_abs := std_state (String.append name ".ode_integ") "T"; ps_prom := std_state name "T" |}.
Definition SingleAisle (H : hybrid_deck) (tri : mat) : aircraft := {|
  ac_model := SingleAisleModel H tri;
  ac_times := ["ode_integ.duration"; "battery.duration"; "motorheatsink.duration"; "motorfaultprot.ode_integ.duration"; "batteryheatsink.duration"];
  ac_states := [{| ps_abs := std_state "ode_integ" "fuel_used"; ps_prom := promoted_state "fuel_used" |};
    {| ps_abs := std_state "battery.ode_integ" "SOC"; ps_prom := std_state "battery" "SOC" |}; heat_state "motorheatsink"; heat_state "batteryheatsink"] |}.
