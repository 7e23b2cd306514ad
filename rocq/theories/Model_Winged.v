(** Model of the 737-800 examples whose drag comes from OpenAeroStruct:
    openconcept/examples/B738_VLM_drag.py:32-107 and openconcept/examples/B738_aerostructural.py:40-278.

    Every phase trains its tables in the same process: [es p] are the calls made before those of phase [p].
    Angles of the wing are in degrees, the rest is in SI units.  Of the aerostructural example the default
    with surrogates is modelled (use_surrogate=True); its analysis of every node is the group of C85. *)
From Coq Require Import Reals List Bool PeanoNat String.
From Verif Require Import Base Py RSum Model_Algebra Model_Vectors Model_Integrals Model_Atmos Model_Aero Model_Phases Model_Mission Model_Net Model_Thermal Model_Ducts Model_Systems
  Model_Flight Model_Fleet Model_Mesh Model_Training Model_Polar Model_Aerostruct.
Import ListNotations.
Open Scope string_scope.
Open Scope list_scope.
Open Scope R_scope.

(** Training values: Mach numbers, angles of attack, altitudes. *)
Record grid := { gr_Mach : list R; gr_alpha : list R; gr_alt : list R }.
(** B738_VLM_drag.py:44-65, B738_aerostructural.py:55-78 and mission_groups.py:175-287: the engines and the
    integrator both examples share, around the drag [drag] and the weight [weigh]. *)
Definition winged (drag weigh : gsub) (D : deck) (tri : mat) (nn : nat) : group := {|
  g_subs :=
    [integrators nn tri "ode_integ" [fuel_integ] [P "fuel_used_initial"] [P "fuel_used"; P "fuel_used_final"];
     CFM56 D nn "propmodel" [P "fltcond|*"; P "throttle"] [];
     comp nn "doubler" doubler [] [P "*"];
     drag;
     comp nn "OEW" passthru [As "x" "ac|weights|OEW"] [P "OEW"];
     weigh];
  g_conns :=
    [("propmodel.thrust", "doubler.thrust_in"); ("propmodel.fuel_flow", "doubler.fuel_flow_in"); ("fuel_flow", "ode_integ.fuel_flow")] |}.
Definition winged_states : list pstate := [{| ps_abs := std_state "ode_integ" "fuel_used"; ps_prom := promoted_state "fuel_used" |}].
(** B738_VLM_drag.py:70-83, B738_aerostructural.py:95-109 *)
Definition wing_inputs : list string :=
  ["fltcond|CL"; "fltcond|M"; "fltcond|h"; "fltcond|q"; "ac|geom|wing|S_ref"; "ac|geom|wing|AR"; "ac|geom|wing|taper"; "ac|geom|wing|c4sweep"; "ac|geom|wing|twist"; "ac|aero|CD_nonwing"].
Definition box_inputs : list string := ["ac|geom|wing|toverc"; "ac|geom|wing|skin_thickness"; "ac|geom|wing|spar_thickness"].

(** ** B738_VLM_drag.py *)
(** B738_VLM_drag.py:68-72; the other options keep their defaults (drag_polar.py:173-212), the training values are [g]. *)
Definition vlm_polar (nn : nat) (g : grid) (s : surf) : polar := {|
  v_nn := nn; v_geo := Trapezoidal; v_x := 2; v_y := VInt 6; v_sections := 2; v_twist := 3; v_vec := false;
  v_Mach := NdArray (gr_Mach g); v_alpha := NdArray (gr_alpha g); v_alt := NdArray (gr_alt g); v_surf := s |}.
(** B738_VLM_drag.py:32-107 *)
Definition VLMModel (T : tools) (es : string -> list event) (g : grid) (s : surf) (D : deck) (tri : mat) (nn : nat) (p : string) : group :=
  winged (subgroup "drag" (vlm_group T (es p) (vlm_polar nn g s) [6%nat] (gr_Mach g) (gr_alpha g) (gr_alt g)) (map P wing_inputs) [P "drag"]) (burn_weight nn) D tri nn.
Definition VLMAirliner (T : tools) (es : string -> list event) (g : grid) (s : surf) (D : deck) (tri : mat) : aircraft := {|
  ac_model := VLMModel T es g s D tri; ac_times := ["ode_integ.duration"]; ac_states := winged_states |}.

(** ** B738_aerostructural.py *)
(** B738_aerostructural.py:162-173: panels and control points. *)
Record wing_sizes := { ws_x : nat; ws_y : nat; ws_twist : nat; ws_toverc : nat; ws_skin : nat; ws_spar : nat }.
(** B738_aerostructural.py:80-93, 133: no options of the surface. *)
Definition trained (z : wing_sizes) (g : grid) : options :=
  aerostruct_options (ws_x z) (ws_y z) (ws_twist z) (ws_toverc z) (ws_skin z) (ws_spar z) (gr_Mach g) (gr_alpha g) (gr_alt g) [].
(** B738_aerostructural.py:146-158 *)
Definition winged_weight (nn : nat) : add_sys := {|
  as_out := "weight"; as_ins := ["ac|weights|MTOW"; "fuel_used"; "ac|weights|orig_W_wing"; "ac|weights|W_wing"]; as_vec := VList [1%nat; nn; 1%nat; 1%nat]; as_len := 1;
  as_sf := Some [1; - (1); - (1); 1]; as_units := Some "kg" |}.
(** B738_aerostructural.py:43-159 *)
Definition StructModel (T : tools) (es : string -> list event) (z : wing_sizes) (g : grid) (D : deck) (tri : mat) (nn : nat) (p : string) : group :=
  winged (subgroup "drag" (aerostruct_group T (es p) nn (trained z g) (gr_Mach g) (gr_alpha g) (gr_alt g))
      (map P (wing_inputs ++ box_inputs)) [P "drag"; P "ac|weights|W_wing"; As "failure" "ac|struct|failure"])
    (adder nn "weight" (winged_weight nn) [P "*"] [P "weight"]) D tri nn.
Definition StructAirliner (T : tools) (es : string -> list event) (z : wing_sizes) (g : grid) (D : deck) (tri : mat) : aircraft := {|
  ac_model := StructModel T es z g D tri; ac_times := ["ode_integ.duration"]; ac_states := winged_states |}.

(** B738_aerostructural.py:191-217 *)
Definition struct_dvs : list string :=
  ["ac|aero|CLmax_TO"; "ac|aero|polar|e"; "ac|aero|polar|CD0_TO"; "ac|aero|polar|CD0_cruise"; "ac|geom|wing|S_ref"; "ac|geom|wing|AR"; "ac|geom|wing|c4sweep"; "ac|geom|wing|taper";
   "ac|geom|hstab|S_ref"; "ac|geom|hstab|c4_to_wing_c4"; "ac|geom|vstab|S_ref"; "ac|geom|nosegear|length"; "ac|geom|maingear|length"; "ac|weights|MTOW"; "ac|weights|W_fuel_max";
   "ac|weights|MLW"; "ac|weights|OEW"; "ac|propulsion|engine|rating"; "ac|num_passengers_max"; "ac|q_cruise"].
(** B738_aerostructural.py:290-301: lift = load_factor * (MTOW - orig_W_wing + W_wing) * a. *)
Definition maneuver_lift : pcomp :=
  let ins := [("load_factor", Sca); ("MTOW", Sca); ("orig_W_wing", Sca); ("W_wing", Sca); ("a", Sca)] in
  let outs := [("lift", (Sca, fun e : nenv => e "load_factor" * (e "MTOW" - e "orig_W_wing" + e "W_wing") * e "a"))] in
  {| pc_ins := ins; pc_outs := outs; pc_J := cs_partials ins outs |}.
(** B738_aerostructural.py:256-264: the sizes of the mission's wing, no options of the surface. *)
Definition maneuver_wing (z : wing_sizes) : structure_options := {|
  so_x := ws_x z; so_y := ws_y z; so_twist := ws_twist z; so_toverc := ws_toverc z; so_skin := ws_skin z; so_spar := ws_spar z; so_surf := None |}.
(** B738_aerostructural.py:162-318 with the mission group it is given (244-249). *)
Definition StructAnalysis (T : tools) (A : structures) (kt kp : coeffs) (z : wing_sizes) (mission : group) : group := {|
  g_subs :=
    [indep "dv_comp" struct_dvs [P "*"];
     subgroup "analysis" mission [P "*"] [P "*"];
     subgroup "aerostructural_maneuver" (Aerostruct T A kt kp (maneuver_wing z))
       (map P ["ac|geom|wing|S_ref"; "ac|geom|wing|AR"; "ac|geom|wing|taper"; "ac|geom|wing|c4sweep"; "ac|geom|wing|toverc"; "ac|geom|wing|skin_thickness"; "ac|geom|wing|spar_thickness";
          "ac|geom|wing|twist"; "load_factor"]) [As "failure" "2_5g_KS_failure"];
     comp 1 "dyn_pressure" DynamicPressureComp [] [];
     comp 1 "lift" Lift [P "ac|geom|wing|S_ref"] [];
     comp 1 "kg_to_N" maneuver_lift [P "load_factor"; As "MTOW" "ac|weights|MTOW"] [];
     balance2 1 "struct_sizing_AoA" "alpha" "MTOW" "lift" [] []];
  g_conns :=
    [("climb.ac|weights|W_wing", "kg_to_N.W_wing"); ("kg_to_N.lift", "struct_sizing_AoA.MTOW");
     ("aerostructural_maneuver.density.fltcond|rho", "dyn_pressure.fltcond|rho"); ("aerostructural_maneuver.airspeed.Utrue", "dyn_pressure.fltcond|Utrue");
     ("dyn_pressure.fltcond|q", "lift.fltcond|q"); ("aerostructural_maneuver.fltcond|CL", "lift.fltcond|CL"); ("lift.lift", "struct_sizing_AoA.lift");
     ("struct_sizing_AoA.alpha", "aerostructural_maneuver.fltcond|alpha")] |}.
