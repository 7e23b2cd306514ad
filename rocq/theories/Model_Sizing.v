(** Model of the sizing analysis of openconcept/examples/B738_sizing.py:178-412: geometry,
    empty weight, maximum lift, takeoff weight and mission of an airliner, solved together.

    Values are SI quantities, angles in rad, except "ac|aero|takeoff_flap_deg" (deg).
    [set_input_defaults] (initial guesses), bounds of outputs and the solvers are left
    out: a solution is what a converged solver reports. *)
From Coq Require Import Reals List Bool PeanoNat String.
From Verif Require Import Base Py RSum Model_Algebra Model_Vectors Model_Integrals Model_Atmos Model_Aero Model_Mission Model_Net Model_Thermal Model_HX
  Model_Ducts Model_HeatPipe Model_Systems Model_Weights Model_Flight Model_Fleet.
Import ListNotations.
Open Scope R_scope.
Open Scope string_scope.
Open Scope list_scope.

Definition inch : R := 254/10000.
Definition knot : R := 1852/3600.
Definition lbf : R := pound * (980665/100000).
(** The units weights_jet_transport.py declares (the input declarations of its components):
    areas in ft**2, lengths in ft, gear lengths in inch, "ac|cabin_pressure" in psi, the
    stall speed in kn, the rating in lbf, ratios, angles and numbers without a unit (or in
    rad), all else in lb. *)
Definition jet_units (x : string) : R :=
  if mem x [wS; hS; vS; fS] then foot ^ 2
  else if mem x [harm; varm; fL; fH] then foot
  else if mem x [mgL; ngL] then inch
  else if String.eqb x "ac|cabin_pressure" then lbf / inch ^ 2
  else if String.eqb x "ac|aero|Vstall_land" then knot
  else if String.eqb x rating then lbf
  else if mem x ["ac|weights|MTOW"; "ac|weights|MLW"; "ac|weights|W_fuel_max"; "OEW"] then pound
  else 1.
(** tail_volume_coefficient_sizing.py:39-45, 103-112: in feet *)
Definition tail_units (x : string) : R :=
  if mem x [wS; hS; vS] then foot ^ 2 else if mem x [harm; varm; "ac|geom|wing|MAC"] then foot else 1.
(** tail_volume_coefficient_sizing.py:36, 100 *)
Definition C_ht_default : R := 1.
Definition C_vt_default : R := 9/100.
(** B738_sizing.py:192-241 *)
Definition sizing_dvs : list string :=
  ["ac|aero|polar|e"; "ac|aero|Mach_max"; "ac|aero|Vstall_land"; "ac|aero|airfoil_Cl_max"; "ac|aero|takeoff_flap_deg"; "ac|propulsion|engine|rating"; "ac|propulsion|num_engines";
   "ac|geom|wing|S_ref"; "ac|geom|wing|AR"; "ac|geom|wing|c4sweep"; "ac|geom|wing|taper"; "ac|geom|wing|toverc"; "ac|geom|hstab|AR"; "ac|geom|hstab|c4sweep"; "ac|geom|hstab|taper";
   "ac|geom|hstab|toverc"; "ac|geom|vstab|AR"; "ac|geom|vstab|c4sweep"; "ac|geom|vstab|taper"; "ac|geom|vstab|toverc"; "ac|geom|fuselage|length"; "ac|geom|fuselage|height";
   "ac|geom|nacelle|length"; "ac|geom|nacelle|diameter"; "ac|geom|maingear|length"; "ac|geom|maingear|num_wheels"; "ac|geom|maingear|num_shock_struts"; "ac|geom|nosegear|length";
   "ac|geom|nosegear|num_wheels"; "ac|weights|W_payload"; "ac|num_passengers_max"; "ac|num_flight_deck_crew"; "ac|num_cabin_crew"; "ac|cabin_pressure"].
(** B738_sizing.py:248-260 *)
Definition lever_arm : add_sys :=
  {| as_out := "c4_to_wing_c4"; as_ins := ["fuselage_length"]; as_vec := VInt 1; as_len := 1; as_sf := Some [5/10]; as_units := Some "m" |}.
(** B738_sizing.py:307-317 *)
Definition landing_weight : add_sys :=
  {| as_out := "ac|weights|MLW"; as_ins := ["ac|weights|MTOW"]; as_vec := VInt 1; as_len := 1; as_sf := Some [8/10]; as_units := Some "kg" |}.
(** B738_sizing.py:384-396 *)
Definition takeoff_weight : add_sys :=
  {| as_out := "MTOW"; as_ins := ["OEW"; "W_payload"; "W_fuel"]; as_vec := VInt 1; as_len := 1; as_sf := None; as_units := Some "kg" |}.
(** B738_sizing.py:319-358 *)
Definition weight_promotes : list promo :=
  map P ["ac|num_passengers_max"; "ac|num_flight_deck_crew"; "ac|num_cabin_crew"; "ac|cabin_pressure"; "ac|aero|Mach_max"; "ac|aero|Vstall_land"; "ac|geom|wing|S_ref"; "ac|geom|wing|AR";
    "ac|geom|wing|c4sweep"; "ac|geom|wing|taper"; "ac|geom|wing|toverc"; "ac|geom|hstab|S_ref"; "ac|geom|hstab|AR"; "ac|geom|hstab|c4sweep"; "ac|geom|hstab|c4_to_wing_c4";
    "ac|geom|vstab|S_ref"; "ac|geom|vstab|AR"; "ac|geom|vstab|c4sweep"; "ac|geom|vstab|toverc"; "ac|geom|vstab|c4_to_wing_c4"; "ac|geom|fuselage|height"; "ac|geom|fuselage|length";
    "ac|geom|fuselage|S_wet"; "ac|geom|maingear|length"; "ac|geom|maingear|num_wheels"; "ac|geom|maingear|num_shock_struts"; "ac|geom|nosegear|length"; "ac|geom|nosegear|num_wheels";
    "ac|propulsion|engine|rating"; "ac|propulsion|num_engines"; "ac|weights|MTOW"; "ac|weights|MLW"].
(** B738_sizing.py:178-412 with the mission group it is given. *)
Definition SizingMissionAnalysis (mission : group) : group := {|
  g_subs :=
    [indep "ac_vars" sizing_dvs [P "*"];
     adder 1 "tail_lever_arm_estimate" lever_arm [As "fuselage_length" "ac|geom|fuselage|length"] [];
     comp 1 "wing_MAC" WingMACTrapezoidal [As "S_ref" "ac|geom|wing|S_ref"; As "AR" "ac|geom|wing|AR"; As "taper" "ac|geom|wing|taper"] [As "MAC" "ac|geom|wing|MAC"];
     converted tail_units (comp 1 "vstab_area" (VStabSizing C_vt_default)
       [P "ac|geom|wing|S_ref"; P "ac|geom|wing|AR"; P "ac|geom|vstab|c4_to_wing_c4"] [P "ac|geom|vstab|S_ref"]);
     converted tail_units (comp 1 "hstab_area" (HStabSizing C_ht_default)
       [P "ac|geom|wing|S_ref"; P "ac|geom|wing|MAC"; P "ac|geom|hstab|c4_to_wing_c4"] [P "ac|geom|hstab|S_ref"]);
     comp 1 "nacelle_wetted_area" CylinderSurfaceArea [As "L" "ac|geom|nacelle|length"; As "D" "ac|geom|nacelle|diameter"] [As "A" "ac|geom|nacelle|S_wet"];
     comp 1 "fuselage_wetted_area" CylinderSurfaceArea [As "L" "ac|geom|fuselage|length"; As "D" "ac|geom|fuselage|height"] [As "A" "ac|geom|fuselage|S_wet"];
     adder 1 "MLW_calc" landing_weight [P "ac|weights|MTOW"] [P "ac|weights|MLW"];
     converted jet_units (subgroup "empty_weight" (JetTransportEmptyWeight jet_defaults) weight_promotes [As "OEW" "ac|weights|OEW"]);
     comp 1 "CL_max_cruise" (CleanCLmax 1) [P "ac|aero|airfoil_Cl_max"; P "ac|geom|wing|c4sweep"] [As "CL_max_clean" "ac|aero|CLmax_cruise"];
     comp 1 "CL_max_takeoff" (FlapCLmax (2/10) (9/10) (1/10) (8/10) 1)
       [As "flap_extension" "ac|aero|takeoff_flap_deg"; P "ac|geom|wing|c4sweep"; P "ac|geom|wing|toverc"; As "CL_max_clean" "ac|aero|CLmax_cruise"] [As "CL_max_flap" "ac|aero|CLmax_TO"];
     adder 1 "MTOW_calc" takeoff_weight [As "OEW" "ac|weights|OEW"; As "W_payload" "ac|weights|W_payload"] [As "MTOW" "ac|weights|MTOW"];
     subgroup "mission" mission [P "ac|*"] []];
  g_conns :=
    [("tail_lever_arm_estimate.c4_to_wing_c4", "ac|geom|hstab|c4_to_wing_c4"); ("tail_lever_arm_estimate.c4_to_wing_c4", "ac|geom|vstab|c4_to_wing_c4");
     ("mission.loiter.fuel_burn_integ.fuel_burn_final", "MTOW_calc.W_fuel"); ("mission.loiter.fuel_burn_integ.fuel_burn_final", "empty_weight.ac|weights|W_fuel_max")] |}.
