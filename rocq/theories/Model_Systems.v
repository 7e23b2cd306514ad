(** Model of openconcept/propulsion/systems/: simple_turboprop.py,
    simple_series_hybrid.py, simple_all_electric.py, thermal_series_hybrid.py, and of
    the groups SimplePropeller (propulsion/propeller.py) and SOCBattery
    (energy_storage/battery.py).

    Values are SI quantities (the unit strings of the connections, which OpenMDAO
    converts, do not show), except "rpm", whose only readers declare rpm.
    [set_input_defaults] (defaults of inputs the user does not set) and the
    [print(nn)] of thermal_series_hybrid.py:57 are left out.  [tri] is the matrix of
    the Simpson integrators, [M] the propeller maps. *)
From Coq Require Import Reals List Bool PeanoNat String.
From Verif Require Import Base Py RSum Model_Algebra Model_Integrals Model_Atmos Model_Propulsion Model_Net Model_Thermal
  Model_HX Model_Ducts Model_HeatPipe.
Import ListNotations.
Open Scope R_scope.
Open Scope string_scope.
Open Scope list_scope.

(** empirical_data/prop_maps.py:59-97 and 159-211: interpolated tables, kept arbitrary. *)
Record maps := { eta_map : R -> R -> R; static_map : R -> R }.

(** An OpenMDAO metamodel with inputs [ins] and output [out]. *)
Definition table (nn : nat) (name : string) (ins : list string) (out : string) (f : nenv -> R) (pin pout : list promo) : gsub := {|
  gs_name := name; gs_ins := ins; gs_outs := [out];
  gs_rel := fun I O => forall i, (i < nn)%nat -> O out i = f (fun x => I x i);
  gs_pin := pin; gs_pout := pout |}.
(** propeller.py:86-88: WeightCalc declares hp, ft and lb; OpenMDAO converts. *)
Definition hp : R := 7456998715822702 / 10 ^ 13.
Definition foot : R := 3048/10000.
Definition pound : R := 45359237/100000000.
Definition weight_units : gsub := {|
  gs_name := "propweights"; gs_ins := ["power_rating"; "diameter"]; gs_outs := ["component_weight"];
  gs_rel := fun I O => O "component_weight" 0%nat = pound * vcompute (WeightCalc 4)
      (fun x i => if String.eqb x "power_rating" then I x i / hp else I x i / foot) "component_weight" 0;
  gs_pin := [P "*"]; gs_pout := [P "*"] |}.
(** propeller.py:58-80, for the only accepted number of blades, 4 (see [propeller_setup]). *)
Definition SimplePropeller (M : maps) (nn : nat) : group := {|
  g_subs :=
    [comp nn "propcalcs" PropCoefficients [P "*"] [P "*"];
     table nn "propmap" ["cp"; "J"] "eta_prop" (fun e => eta_map M (e "cp") (e "J")) [] [P "*"];
     table nn "staticpropmap" ["cp"] "ct_over_cp" (fun e => static_map M (e "cp")) [] [P "*"];
     comp nn "thrustcalc" ThrustCalc [P "*"] [P "*"];
     weight_units];
  g_conns := [("cp", "propmap.cp"); ("cp", "staticpropmap.cp"); ("J", "propmap.J")]
|}.

(** battery.py:59-112; the options specific_power 5000, cost_inc 50 and cost_base 1 keep their defaults. *)
Definition SOCBattery (nn : nat) (tri : mat) (eta : R) : group := {|
  g_subs :=
    [comp nn "batt_base" (SimpleBattery eta 5000 50 1) [P "*"] [P "*"];
     multiplier nn "divider" (soc_divider nn) [P "*"] [P "*"];
     integrator nn tri "ode_integ" "SOC" "dSOCdt" "SOC_initial" "SOC_final" [P "*"] [P "*"]];
  g_conns := []
|}.

(** An AddSubtractComp with the equations [l], each over its own number of rows. *)
Definition rows (v : vsize) : nat := match v with VInt n => n | VList l => list_max l end.
Definition adders (name : string) (l : list add_sys) (pin pout : list promo) : gsub := {|
  gs_name := name; gs_ins := flat_map as_ins l; gs_outs := map as_out l;
  gs_rel := fun I O => forall s, In s l -> forall i, (i < rows (as_vec s))%nat -> add_compute s I i = Ok (O (as_out s) i);
  gs_pin := pin; gs_pout := pout |}.
Definition sum (out : string) (ins : list string) (n : nat) (units : string) : add_sys :=
  {| as_out := out; as_ins := ins; as_vec := VInt n; as_len := 1; as_sf := None; as_units := Some units |}.
(** The ElementMultiplyDivideComp that switches the second propulsor off. *)
Definition active_throttle (nn : nat) (out : string) : mul_sys :=
  {| ms_out := out; ms_ins := ["throttle"; "propulsor_active"]; ms_vec := VInt nn; ms_len := 1;
     ms_sf := 1; ms_div := None; ms_units := None |}.
(** OpenMDAO's BalanceComp with [lhs_name] and [rhs_name]. *)
Definition balance2 (nn : nat) (name out lhs rhs : string) (pin pout : list promo) : gsub := {|
  gs_name := name; gs_ins := [lhs; rhs]; gs_outs := [out];
  gs_rel := fun I O => forall i, (i < nn)%nat -> I lhs i = I rhs i;
  gs_pin := pin; gs_pout := pout |}.

(** turboshaft.py:62: default fuel consumption, kg/(s W). *)
Definition psfc : R := 6/10 * (168965774 / 10 ^ 15).
(** turboshaft.py:63-66 with weight_inc=0.14 / 1000, weight_base=104. *)
Definition turbine : tech := {| t_eta := 1; t_winc := 14/100 / 1000; t_wbase := 104; t_cinc := 104/100; t_cbase := 0 |}.
(** turboshaft.py:63-66: defaults *)
Definition turbine0 : tech := {| t_eta := 1; t_winc := 0; t_wbase := 0; t_cinc := 104/100; t_cbase := 0 |}.
(** motor.py:52-55 and generator.py:50-53 with efficiency=0.97. *)
Definition machine : tech := {| t_eta := 97/100; t_winc := 1/5000; t_wbase := 0; t_cinc := 100/745; t_cbase := 1 |}.
(** splitter.py:66-70: defaults *)
Definition splitter : tech := {| t_eta := 1; t_winc := 0; t_wbase := 0; t_cinc := 0; t_cbase := 0 |}.

(** ** simple_turboprop.py *)
(** simple_turboprop.py:43-76 *)
Definition TurbopropPropulsionSystem (M : maps) (nn : nat) : group := {|
  g_subs :=
    [relabel "dvs" [("ac|propulsion|engine|rating", "eng1_rating"); ("ac|propulsion|propeller|diameter", "prop1_diameter")] [P "*"] [P "*"];
     comp nn "eng1" (SimpleTurboshaft psfc turbine) [P "throttle"; As "shaft_power_rating" "ac|propulsion|engine|rating"] [P "fuel_flow"];
     subgroup "prop1" (SimplePropeller M nn)
       [P "fltcond|*"; As "power_rating" "ac|propulsion|engine|rating"; As "diameter" "ac|propulsion|propeller|diameter"] [P "thrust"]];
  g_conns := [("eng1.shaft_power_out", "prop1.shaft_power_in")]
|}.
(** simple_turboprop.py:116-178 *)
Definition TwinTurbopropPropulsionSystem (M : maps) (nn : nat) : group := {|
  g_subs :=
    [comp nn "eng1" (SimpleTurboshaft psfc turbine) [P "throttle"; As "shaft_power_rating" "ac|propulsion|engine|rating"] [];
     subgroup "prop1" (SimplePropeller M nn)
       [P "fltcond|*"; As "power_rating" "ac|propulsion|engine|rating"; As "diameter" "ac|propulsion|propeller|diameter"] [];
     comp nn "eng2" (SimpleTurboshaft psfc turbine) [As "shaft_power_rating" "ac|propulsion|engine|rating"] [];
     subgroup "prop2" (SimplePropeller M nn)
       [P "fltcond|*"; As "power_rating" "ac|propulsion|engine|rating"; As "diameter" "ac|propulsion|propeller|diameter"] [];
     multiplier nn "failedengine" (active_throttle nn "eng2throttle") [P "throttle"; P "propulsor_active"] [];
     adders "adder"
       [sum "fuel_flow" ["eng1_fuel_flow"; "eng2_fuel_flow"] nn "kg/s"; sum "thrust" ["prop1_thrust"; "prop2_thrust"] nn "N";
        sum "engines_weight" ["eng1_weight"; "eng2_weight"] 1 "kg"; sum "propellers_weight" ["prop1_weight"; "prop2_weight"] 1 "kg"]
       [P "*"] [P "*"]];
  g_conns :=
    [("failedengine.eng2throttle", "eng2.throttle");
     ("eng1.shaft_power_out", "prop1.shaft_power_in"); ("eng2.shaft_power_out", "prop2.shaft_power_in");
     ("prop1.thrust", "prop1_thrust"); ("prop2.thrust", "prop2_thrust");
     ("eng1.fuel_flow", "eng1_fuel_flow"); ("eng2.fuel_flow", "eng2_fuel_flow");
     ("prop1.component_weight", "prop1_weight"); ("prop2.component_weight", "prop2_weight");
     ("eng1.component_weight", "eng1_weight"); ("eng2.component_weight", "eng2_weight")]
|}.

(** ** simple_series_hybrid.py *)
(** The first five entries of every [dvlist]: simple_series_hybrid.py:50-54 and 277-281,
    thermal_series_hybrid.py:61-65 and 249-253. *)
Definition hybrid_dvs : list (string * string) :=
  [("ac|propulsion|engine|rating", "eng_rating"); ("ac|propulsion|propeller|diameter", "prop_diameter");
   ("ac|propulsion|motor|rating", "motor_rating"); ("ac|propulsion|generator|rating", "gen_rating");
   ("ac|weights|W_battery", "batt_weight")].
(** The subsystems of simple_series_hybrid.py:60-128 other than the two adders; the
    same in thermal_series_hybrid.py:78-145 and 269-338. *)
Definition hybrid_subs (M : maps) (nn : nat) (tri : mat) : list gsub :=
  [comp nn "motor1" (SimpleMotor machine) [P "throttle"] [];
   subgroup "prop1" (SimplePropeller M nn) [P "fltcond|*"] [];
   multiplier nn "failedmotor" (active_throttle nn "motor2throttle") [P "throttle"; P "propulsor_active"] [];
   comp nn "motor2" (SimpleMotor machine) [] [];
   subgroup "prop2" (SimplePropeller M nn) [P "fltcond|*"] [];
   comp nn "hybrid_split" (SplitFraction splitter) [] [];
   comp nn "eng1" (SimpleTurboshaft psfc turbine) [] [P "fuel_flow"];
   comp nn "gen1" (SimpleGenerator machine) [] [];
   subgroup "batt1" (SOCBattery nn tri (97/100)) [P "duration"; P "specific_energy"] [];
   balance2 nn "eng_throttle_set" "eng_throttle" "gen_power_available" "gen_power_required" [] [];
   relabel "relabel" [("hybrid_split_A_in", "battery_load")] [] [P "battery_load"]].
(** The connections of simple_series_hybrid.py:62-142, with [load] the name of the
    summed load; the same in thermal_series_hybrid.py:80-161 and 271-354 (except the
    heat connections there, which are in [thermal_conns]). *)
Definition hybrid_conns (load : string) : list (string * string) :=
  [("motor1.shaft_power_out", "prop1.shaft_power_in"); ("motor2.shaft_power_out", "prop2.shaft_power_in");
   ("failedmotor.motor2throttle", "motor2.throttle");
   ("motor1.elec_load", "add_power.motor1_elec_load"); ("motor2.elec_load", "add_power.motor2_elec_load");
   ("prop1.thrust", "add_power.prop1_thrust"); ("prop2.thrust", "add_power.prop2_thrust");
   (load, "hybrid_split.power_in"); ("eng1.shaft_power_out", "gen1.shaft_power_in");
   ("hybrid_split.power_out_A", "batt1.elec_load");
   ("hybrid_split.power_out_B", "eng_throttle_set.gen_power_required"); ("gen1.elec_power_out", "eng_throttle_set.gen_power_available");
   ("eng_throttle_set.eng_throttle", "eng1.throttle");
   ("hybrid_split.power_out_A", "relabel.hybrid_split_A_in");
   ("motor1.component_weight", "motor1_weight"); ("motor2.component_weight", "motor2_weight");
   ("prop1.component_weight", "prop1_weight"); ("prop2.component_weight", "prop2_weight");
   ("eng_rating", "eng1.shaft_power_rating");
   ("prop_diameter", "prop1.diameter"); ("prop_diameter", "prop2.diameter");
   ("motor_rating", "motor1.elec_power_rating"); ("motor_rating", "motor2.elec_power_rating");
   ("motor_rating", "prop1.power_rating"); ("motor_rating", "prop2.power_rating");
   ("gen_rating", "gen1.elec_power_rating"); ("batt_weight", "batt1.battery_weight")].
(** simple_series_hybrid.py:45-142 *)
Definition TwinSeriesHybridElectricPropulsionSystem (M : maps) (nn : nat) (tri : mat) : group := {|
  g_subs :=
    relabel "dvs" (hybrid_dvs ++ [("ac|propulsion|battery|specific_energy", "specific_energy")]) [P "*"] [P "*"] ::
    adders "add_power" [sum "motors_elec_load" ["motor1_elec_load"; "motor2_elec_load"] nn "kW"; sum "thrust" ["prop1_thrust"; "prop2_thrust"] nn "N"] [] [P "*"] ::
    adders "add_weights" [sum "motors_weight" ["motor1_weight"; "motor2_weight"] 1 "kg"; sum "propellers_weight" ["prop1_weight"; "prop2_weight"] 1 "kg"] [P "*"] [P "*"] ::
    hybrid_subs M nn tri;
  g_conns := hybrid_conns "motors_elec_load"
|}.
(** simple_series_hybrid.py:159-192 *)
Definition SeriesHybridElectricPropulsionSystem (M : maps) (nn : nat) : group := {|
  g_subs :=
    [relabel "dvs" [("ac|propulsion|engine|rating", "eng1_rating"); ("dv_prop1_diameter", "prop1_diameter"); ("dv_motor1_rating", "motor1_rating");
                    ("dv_gen1_rating", "gen1_rating"); ("dv_batt1_weight", "batt1_weight")] [P "*"] [P "*"];
     comp nn "motor1" (SimpleMotor machine) [P "throttle"] [];
     comp nn "hybrid_split" (SplitFraction splitter) [] [];
     comp nn "gen1" (SimpleGenerator machine) [] [];
     comp nn "eng1" (SimpleTurboshaft psfc turbine0) [] [P "fuel_flow"];
     comp nn "batt1" (SimpleBattery 1 5000 50 1) [] [];
     subgroup "prop1" (SimplePropeller M nn) [P "fltcond_*"] [P "thrust"]];
  g_conns :=
    [("eng1_rating", "eng1.shaft_power_rating"); ("prop1_diameter", "prop1.diameter"); ("motor1_rating", "motor1.elec_power_rating");
     ("motor1_rating", "prop1.power_rating"); ("gen1_rating", "gen1.elec_power_rating"); ("batt1_weight", "batt1.battery_weight");
     ("motor1.shaft_power_out", "prop1.shaft_power_in"); ("eng1.shaft_power_out", "gen1.shaft_power_in");
     ("motor1.elec_load", "hybrid_split.power_in"); ("hybrid_split.power_out_A", "batt1.elec_load")]
|}.
(** simple_series_hybrid.py:271-338 *)
Definition SingleSeriesHybridElectricPropulsionSystem (M : maps) (nn : nat) : group := {|
  g_subs :=
    [relabel "dvs" hybrid_dvs [P "*"] [P "*"];
     comp nn "motor1" (SimpleMotor machine) [] [];
     subgroup "prop1" (SimplePropeller M nn) [P "fltcond|*"] [P "thrust"];
     comp nn "hybrid_split" (SplitFraction splitter) [] [];
     comp nn "eng1" (SimpleTurboshaft psfc turbine) [] [P "fuel_flow"];
     comp nn "gen1" (SimpleGenerator machine) [] [];
     comp nn "batt1" (SimpleBattery 1 5000 50 1) [] [];
     adder nn "eng_gen_resid"
       {| as_out := "eng_gen_residual"; as_ins := ["gen_power_available"; "gen_power_required"]; as_vec := VInt nn; as_len := 1;
          as_sf := Some [1; - (1)]; as_units := Some "kW" |} [] [];
     adders "add_weights" [sum "motors_weight" ["motor1_weight"] 1 "kg"; sum "propellers_weight" ["prop1_weight"] 1 "kg"] [P "*"] [P "*"]];
  g_conns :=
    [("motor1.shaft_power_out", "prop1.shaft_power_in"); ("motor1.elec_load", "hybrid_split.power_in");
     ("eng1.shaft_power_out", "gen1.shaft_power_in"); ("hybrid_split.power_out_A", "batt1.elec_load");
     ("hybrid_split.power_out_B", "eng_gen_resid.gen_power_required"); ("gen1.elec_power_out", "eng_gen_resid.gen_power_available");
     ("motor1.component_weight", "motor1_weight"); ("prop1.component_weight", "prop1_weight");
     ("eng_rating", "eng1.shaft_power_rating"); ("prop_diameter", "prop1.diameter"); ("motor_rating", "motor1.elec_power_rating");
     ("motor_rating", "prop1.power_rating"); ("gen_rating", "gen1.elec_power_rating"); ("batt_weight", "batt1.battery_weight")]
|}.

(** ** simple_all_electric.py *)
(** thermal.py:313-314: default specific heats of a cooled component and its coolant. *)
Definition c_object : R := 921.
Definition c_coolant : R := 3801.
(** simple_all_electric.py:87-90, 183-186; thermal_series_hybrid.py:164-174 (and 375-384) *)
Definition heatsink (nn : nat) (tri : mat) (name : string) : gsub :=
  subgroup name (LiquidCooledComp nn tri false c_object c_coolant) [P "duration"; P "channel_*"; P "n_parallel"] [].
(** simple_all_electric.py:103-105, 200-202; thermal_series_hybrid.py:192-194 *)
Definition coolant_tank (nn : nat) (tri : mat) : gsub :=
  subgroup "reservoir" (CoolantReservoir nn tri) [P "duration"; As "mass" "coolant_mass"] [].
(** ducts.py:49-50: default options. *)
Definition simple_duct (nn : nat) (pin pout : list promo) : gsub :=
  comp nn "duct" (ExplicitIncompressibleDuct (15/100) (98/100)) pin pout.
(** simple_all_electric.py:45-66 and 140-161: the part both systems share. *)
Definition electric_subs (M : maps) (nn : nat) (tri : mat) : list gsub :=
  [relabel "dvs" [("ac|propulsion|motor|rating", "motor1_rating"); ("ac|propulsion|propeller|diameter", "prop1_diameter");
                  ("ac|weights|W_battery", "battery1_weight")] [P "*"] [P "*"];
   comp nn "motor1" (SimpleMotor machine) [P "throttle"] [];
   subgroup "prop1" (SimplePropeller M nn) [P "fltcond|*"] [P "thrust"];
   subgroup "batt1" (SOCBattery nn tri (97/100)) [P "duration"] []].
(** simple_all_electric.py:68-75 and 163-170 *)
Definition electric_conns : list (string * string) :=
  [("motor1_rating", "motor1.elec_power_rating"); ("motor1_rating", "prop1.power_rating"); ("prop1_diameter", "prop1.diameter");
   ("battery1_weight", "batt1.battery_weight"); ("motor1.shaft_power_out", "prop1.shaft_power_in"); ("motor1.elec_load", "batt1.elec_load")].
(** simple_all_electric.py:78-85, 173-180 *)
Definition electric_iv : list string :=
  ["mdot_coolant"; "rho_coolant"; "coolant_mass"; "channel_width"; "channel_height"; "channel_length"; "n_parallel"].
(** simple_all_electric.py:41-108; ducts.py:971: gross thrust factor 0.98. *)
Definition AllElectricCompressible (M : maps) (nn : nat) (tri : mat) : group := {|
  g_subs := electric_subs M nn tri ++
    [indep "iv" electric_iv [P "*"];
     heatsink nn tri "motorheatsink";
     subgroup "duct" (ImplicitCompressibleDuct nn (98/100)) [As "p_inf" "fltcond|p"; As "T_inf" "fltcond|T"; As "Utrue" "fltcond|Utrue"] [];
     coolant_tank nn tri];
  g_conns := electric_conns ++
    [("motor1.heat_out", "motorheatsink.q_in"); ("motor1.component_weight", "motorheatsink.mass");
     ("motorheatsink.T_out", "duct.T_in_hot"); ("rho_coolant", "duct.rho_hot");
     ("duct.T_out_hot", "reservoir.T_in"); ("reservoir.T_out", "motorheatsink.T_in");
     ("mdot_coolant", "motorheatsink.mdot_coolant"); ("mdot_coolant", "duct.mdot_hot"); ("mdot_coolant", "reservoir.mdot_coolant")]
|}.
(** simple_all_electric.py:136-205 *)
Definition AllElectricIncompressible (M : maps) (nn : nat) (tri : mat) : group := {|
  g_subs := electric_subs M nn tri ++
    [indep "iv" (electric_iv ++ ["area_nozzle"]) [P "*"];
     heatsink nn tri "motorheatsink";
     simple_duct nn [P "fltcond|*"] [];
     subgroup "hx" (HXGroup nn) [As "T_in_cold" "fltcond|T"; As "rho_cold" "fltcond|rho"] [];
     coolant_tank nn tri];
  g_conns := electric_conns ++
    [("motor1.heat_out", "motorheatsink.q_in"); ("motor1.component_weight", "motorheatsink.mass");
     ("area_nozzle", "duct.area_nozzle"); ("duct.mdot", "hx.mdot_cold"); ("hx.delta_p_cold", "duct.delta_p_hex");
     ("motorheatsink.T_out", "hx.T_in_hot"); ("rho_coolant", "hx.rho_hot");
     ("hx.T_out_hot", "reservoir.T_in"); ("reservoir.T_out", "motorheatsink.T_in");
     ("mdot_coolant", "motorheatsink.mdot_coolant"); ("mdot_coolant", "hx.mdot_hot"); ("mdot_coolant", "reservoir.mdot_coolant")]
|}.

(** ** thermal_series_hybrid.py *)
(** thermal_series_hybrid.py:66-71, 257-262: design variables of the coolant loop. *)
Definition coolant_dvs : list (string * string) :=
  [("ac|propulsion|thermal|hx|mdot_coolant", "mdot_coolant"); ("ac|propulsion|thermal|hx|coolant_mass", "coolant_mass");
   ("ac|propulsion|thermal|hx|channel_width", "channel_width"); ("ac|propulsion|thermal|hx|channel_height", "channel_height");
   ("ac|propulsion|thermal|hx|channel_length", "channel_length"); ("ac|propulsion|thermal|hx|n_parallel", "n_parallel")].
(** thermal_series_hybrid.py:138-143 and 331-336 *)
Definition heat_adder (nn : nat) : gsub :=
  adders "adder" [sum "motors_weight" ["motor1_weight"; "motor2_weight"] 1 "kg"; sum "propellers_weight" ["prop1_weight"; "prop2_weight"] 1 "kg";
                  sum "motors_heat" ["motor1_heat"; "motor2_heat"] nn "W"] [P "*"] [P "*"].
(** The connections thermal_series_hybrid.py:152-202 and 345-411 share. *)
Definition thermal_conns : list (string * string) :=
  [("motor1.heat_out", "motor1_heat"); ("motor2.heat_out", "motor2_heat");
   ("batt1.heat_out", "batteryheatsink.q_in"); ("batt_weight", "batteryheatsink.mass");
   ("motors_heat", "motorheatsink.q_in"); ("motors_weight", "motorheatsink.mass");
   ("duct.mdot", "hx.mdot_cold"); ("hx.delta_p_cold", "duct.delta_p_hex"); ("rho_coolant", "hx.rho_hot");
   ("batteryheatsink.T_out", "motorheatsink.T_in");
   ("mdot_coolant", "batteryheatsink.mdot_coolant"); ("mdot_coolant", "motorheatsink.mdot_coolant"); ("mdot_coolant", "hx.mdot_hot")].
(** thermal_series_hybrid.py:54-202 *)
Definition TwinSeriesHybridElectricThermalPropulsionSystem (M : maps) (nn : nat) (tri : mat) : group := {|
  g_subs :=
    relabel "dvs" (hybrid_dvs ++ coolant_dvs ++ [("ac|propulsion|battery|specific_energy", "specific_energy")]) [P "*"] [P "*"] ::
    adders "add_power" [sum "motors_elec_load" ["motor1_elec_load"; "motor2_elec_load"] nn "kW"; sum "thrust" ["prop1_thrust"; "prop2_thrust"] nn "N"] [] [P "*"] ::
    heat_adder nn ::
    hybrid_subs M nn tri ++
    [indep "iv" ["rho_coolant"; "ac|propulsion|thermal|duct|area_nozzle"] [P "*"];
     heatsink nn tri "batteryheatsink"; heatsink nn tri "motorheatsink";
     simple_duct nn [P "fltcond|*"] [];
     subgroup "hx" (HXGroup nn) [P "ac|*"; As "T_in_cold" "fltcond|T"; As "rho_cold" "fltcond|rho"] [];
     coolant_tank nn tri];
  g_conns := hybrid_conns "motors_elec_load" ++ thermal_conns ++
    [("ac|propulsion|thermal|duct|area_nozzle", "duct.area_nozzle"); ("motorheatsink.T_out", "hx.T_in_hot");
     ("hx.T_out_hot", "reservoir.T_in"); ("reservoir.T_out", "batteryheatsink.T_in"); ("mdot_coolant", "reservoir.mdot_coolant")]
|}.
(** thermal_series_hybrid.py:244-411.  Line 263 relabels the nozzle area, but nothing
    is connected to the duct's "area_nozzle". *)
Definition TwinSeriesHybridElectricThermalPropulsionRefrigerated (M : maps) (nn : nat) (tri : mat) : group := {|
  g_subs :=
    relabel "dvs" (hybrid_dvs ++
      [("ac|propulsion|thermal|refrig|rating", "refrig_rating"); ("ac|propulsion|thermal|refrig|specific_power", "refrig_spec_pow");
       ("ac|propulsion|thermal|refrig|eff", "refrig_eff_factor")] ++ coolant_dvs ++
      [("ac|propulsion|thermal|duct|area_nozzle", "area_nozzle"); ("ac|propulsion|battery|specific_energy", "specific_energy")]) [P "*"] [P "*"] ::
    adders "add_power" [sum "total_elec_load" ["motor1_elec_load"; "motor2_elec_load"; "refrig_elec_load"] nn "kW";
                        sum "thrust" ["prop1_thrust"; "prop2_thrust"] nn "N"] [] [P "*"] ::
    heat_adder nn ::
    hybrid_subs M nn tri ++
    [indep "iv" ["rho_coolant"] [P "*"];
     subgroup "refrig" (HeatPump nn false c_coolant) [] [];
     heatsink nn tri "batteryheatsink"; heatsink nn tri "motorheatsink";
     simple_duct nn [P "fltcond|*"] [];
     subgroup "hx" (HXGroup nn) [P "ac|*"; As "rho_cold" "fltcond|rho"; As "T_in_cold" "fltcond|T"] []];
  g_conns := hybrid_conns "total_elec_load" ++ thermal_conns ++
    [("refrig.elec_load", "add_power.refrig_elec_load"); ("refrig_eff_factor", "refrig.eff_factor"); ("refrig_rating", "refrig.power_rating");
     ("refrig_spec_pow", "refrig.specific_power"); ("refrig.T_out_cold", "batteryheatsink.T_in"); ("motorheatsink.T_out", "refrig.T_in_cold");
     ("mdot_coolant", "refrig.mdot_coolant"); ("refrig.T_out_hot", "hx.T_in_hot"); ("hx.T_out_hot", "refrig.T_in_hot")]
|}.
