(** Model of the flight phases and missions as OpenMDAO groups
    (openconcept/mission/phases.py, profiles.py, mission_groups.py and
    atmospherics/compute_atmos_props.py), with an arbitrary aircraft model inside.

    Simplifications: values are SI quantities (OpenMDAO converts units along
    connections); the initial guesses, bounds and [set_input_defaults] of the
    setups are left out; an IndepVarComp output is a value the user may set;
    [kt] and [kp] are the coefficients of the atmosphere's blending polynomials
    and [tri] is the matrix of the Simpson integrators. *)
From Coq Require Import Reals List Bool PeanoNat String.
From Verif Require Import Base Py RSum Model_Algebra Model_Vectors Model_Integrals Model_Atmos Model_Aero Model_Phases
  Model_Mission Model_Net Model_Thermal Model_HX Model_Ducts Model_HeatPipe Model_Systems.
Import ListNotations.
Open Scope R_scope.
Open Scope string_scope.
Open Scope list_scope.

(** ** Building blocks *)
(** integrals.py:517-700: an Integrator with [method="simpson"], [time_setup="duration"]
    and the integrands [l]; a zero-start integrand has no start input (656-659). *)
Record integ_spec := { in_q : string; in_rate : string; in_start : string; in_end : string; in_zero : bool }.
Definition integ_std (q rate : string) (zero : bool) : integ_spec :=
  {| in_q := q; in_rate := rate; in_start := String.append q "_initial"; in_end := String.append q "_final"; in_zero := zero |}.
Definition integrators (nn : nat) (tri : mat) (name : string) (l : list integ_spec) (pin pout : list promo) : gsub := {|
  gs_name := name;
  gs_ins := "duration" :: flat_map (fun s => in_rate s :: if in_zero s then [] else [in_start s]) l;
  gs_outs := flat_map (fun s => [in_end s; in_q s]) l;
  gs_rel := fun I O => forall s, In s l ->
    (forall i, (i < nn)%nat ->
       O (in_q s) i = integ_q nn tri (TDuration (I "duration" 0%nat)) (in_zero s) (I (in_start s) 0%nat) (I (in_rate s)) i) /\
    O (in_end s) 0%nat = integ_q_final nn tri (TDuration (I "duration" 0%nat)) (in_zero s) (I (in_start s) 0%nat) (I (in_rate s));
  gs_pin := pin; gs_pout := pout |}.
(** A component with scalar inputs, of which those in [vecs] are element [k] of a
    vector (phases.py:1437, 1441: [src_indices=[k]]). *)
Definition comp_at (k : nat) (vecs : list string) (name : string) (C : pcomp) (pin pout : list promo) : gsub := {|
  gs_name := name; gs_ins := map fst (pc_ins C); gs_outs := map fst (pc_outs C);
  gs_rel := fun I O => forall o, In o (map fst (pc_outs C)) ->
    O o 0%nat = vcompute C (fun x _ => I x (if mem x vecs then k else 0%nat)) o 0;
  gs_pin := pin; gs_pout := pout |}.
(** phases.py:89-118 (FlipVectorComp) as a subsystem. *)
Definition flip (nn : nat) (name : string) (negative : bool) (pin pout : list promo) : gsub := {|
  gs_name := name; gs_ins := ["vec_in"]; gs_outs := ["vec_out"];
  gs_rel := fun I O => forall i, (i < nn)%nat -> O "vec_out" i = flip_compute nn negative (I "vec_in") i;
  gs_pin := pin; gs_pout := pout |}.

(** ** compute_atmos_props.py *)
(** temperature_comp.py:37-54, pressure_comp.py:35-49 *)
Definition temperature (kt : coeffs) (nn : nat) (name : string) (pin pout : list promo) : gsub := {|
  gs_name := name; gs_ins := ["fltcond|h"; "fltcond|TempIncrement"]; gs_outs := ["fltcond|T"];
  gs_rel := fun I O => forall i, (i < nn)%nat ->
    O "fltcond|T" i = compute_temp kt (I "fltcond|h" i) (get_masks (I "fltcond|h" i)) + I "fltcond|TempIncrement" i;
  gs_pin := pin; gs_pout := pout |}.
Definition pressure (kp : coeffs) (nn : nat) (name : string) (pin pout : list promo) : gsub := {|
  gs_name := name; gs_ins := ["fltcond|h"]; gs_outs := ["fltcond|p"];
  gs_rel := fun I O => forall i, (i < nn)%nat ->
    compute_pressure kp (I "fltcond|h" i) (get_masks (I "fltcond|h" i)) = Some (O "fltcond|p" i);
  gs_pin := pin; gs_pout := pout |}.
(** compute_atmos_props.py:53-92 *)
Definition atmosphere (kt kp : coeffs) (nn : nat) (tas_in : bool) : group := {|
  g_subs :=
    [temperature kt nn "temp" [P "fltcond|h"; P "fltcond|TempIncrement"] [P "fltcond|T"];
     pressure kp nn "pressure" [P "fltcond|h"] [P "fltcond|p"];
     comp nn "density" DensityComp [P "fltcond|p"; P "fltcond|T"] [P "fltcond|rho"];
     comp nn "speedofsound" SpeedOfSoundComp [P "fltcond|T"] [P "fltcond|a"]] ++
    (if tas_in then [comp nn "equivair" EquivalentAirspeedComp [P "*"] [P "*"]]
     else [comp nn "trueair" TrueAirspeedComp [P "*"] [P "*"]]) ++
    [comp nn "dynamicpressure" DynamicPressureComp [P "*"] [P "*"];
     comp nn "machnumber" MachNumberComp [P "*"] [P "*"]];
  g_conns := [] |}.

(** ** Aircraft models *)
(** The user's aircraft model: its group for a number of nodes and a flight phase,
    the names its integrators' "duration" inputs have in it, and its states. *)
Record aircraft := {
  ac_model : nat -> string -> group;
  ac_times : list string;
  ac_states : list pstate
}.
(** mission_groups.py:85-99: connections from "duration" to the integrators' durations
    that are not promoted to "duration" themselves. *)
Definition time_conns (times : list string) : list (string * string) :=
  map (fun t => ("duration", t)) (filter (fun t => negb (String.eqb t "duration")) times).

(** ** phases.py *)
(** Steady flight, phases.py:964-1021; [setter] and [inner] are the subsystem that
    sets the duration and its connections, added from outside (see [setter_of]). *)
Definition SteadyFlightPhase (kt kp : coeffs) (tri : mat) (nn : nat) (A : aircraft) (p : string)
    (setter : list gsub) (inner : list (string * string)) : group := {|
  g_subs :=
    [indep "const_settings" ["propulsor_active"] [P "*"];
     integrators nn tri "ode_integ_phase"
       [integ_std "fltcond|h" "fltcond|vs" false; integ_std "range" "fltcond|groundspeed" false]
       [P "fltcond|vs"; P "fltcond|groundspeed"] [P "fltcond|h"; P "range"];
     subgroup "atmos" (atmosphere kt kp nn false) [P "*"] [P "*"];
     comp nn "gs" Groundspeeds [P "*"] [P "*"];
     subgroup "acmodel" (ac_model A nn p) [P "*"] [P "*"];
     comp nn "clcomp" SteadyFlightCL [P "*"] [P "*"];
     comp nn "lift" Lift [P "*"] [P "*"];
     comp nn "haccel" HorizontalAcceleration [P "*"] [P "*"];
     balance2 nn "steadyflt" "throttle" "zero_accel" "accel_horiz" [P "accel_horiz"; P "zero_accel"] [P "throttle"]] ++ setter;
  g_conns := inner ++ ("duration", "ode_integ_phase.duration") :: time_conns (ac_times A) |}.

(** phases.py:618-631: the speeds shared by the takeoff phases. *)
Definition stall_speed : gsub :=
  comp 1 "stall" StallSpeed [As "CLmax" "ac|aero|CLmax_TO"; As "weight" "ac|weights|MTOW"; P "ac|geom|wing|S_ref"] [P "*"].
Definition speed_mult (name out mult : string) : gsub :=
  multiplier 1 name
    {| ms_out := out; ms_ins := ["Vstall_eas"; mult]; ms_vec := VInt 1; ms_len := 1; ms_sf := 1; ms_div := None;
       ms_units := Some [Some [TUnit "m"; TDiv; TUnit "s"]; None] |} [P "*"] [P "*"].

(** Ground roll, phases.py:574-736; [p] is "v0v1", "v1vr" or "v1v0". *)
Definition ground_shooting (tri : mat) (nn : nat) (p : string) : list gsub :=
  let range := integ_std "range" "fltcond|groundspeed" (String.eqb p "v0v1") in
  if String.eqb p "v1v0" then
    [flip nn "flipaccel" true [As "vec_in" "accel_horiz"] [];
     integrators nn tri "ode_integ_phase"
       [{| in_q := "vel_q"; in_rate := "vel_dqdt"; in_start := "zero_speed"; in_end := "fltcond|Utrue_initial"; in_zero := false |}; range]
       [P "*"] [P "*"];
     flip nn "flipvel" false [] [As "vec_out" "fltcond|Utrue"];
     balance2 1 "v0constraint" "duration" "takeoff|v1" "fltcond|Utrue_initial" [P "*"] [P "duration"]]
  else
    [integrators nn tri "ode_integ_phase" [integ_std "fltcond|Utrue" "accel_horiz" false; range] [P "*"] [P "*"];
     if String.eqb p "v0v1"
     then balance2 1 "v1constraint" "duration" "takeoff|v1" "fltcond|Utrue_final" [P "*"] [P "duration"]
     else balance2 1 "vrconstraint" "duration" "takeoff|vr" "fltcond|Utrue_final" [P "*"] [P "duration"]].
Definition ground_conns (p : string) : list (string * string) :=
  if String.eqb p "v1v0" then [("flipaccel.vec_out", "vel_dqdt"); ("vel_q", "flipvel.vec_in")]
  else if String.eqb p "v0v1" then [("zero_speed", "fltcond|Utrue_initial")] else [].
Definition GroundRollPhase (kt kp : coeffs) (tri : mat) (nn : nat) (A : aircraft) (p : string) : group := {|
  g_subs :=
    [indep "const_settings" ["fltcond|CL"; "vr_vstall_mult"; "fltcond|h"; "fltcond|vs"; "zero_speed"; "braking"; "propulsor_active"; "throttle"] [P "*"];
     subgroup "atmos" (atmosphere kt kp nn true) [P "*"] [P "*"];
     comp nn "gs" Groundspeeds [P "*"] [P "*"];
     subgroup "acmodel" (ac_model A nn p) [P "*"] [P "*"];
     comp nn "lift" Lift [P "*"] [P "*"];
     stall_speed; speed_mult "vrspeed" "takeoff|vr" "vr_vstall_mult";
     comp nn "haccel" HorizontalAcceleration [P "*"] [P "*"]] ++ ground_shooting tri nn p;
  g_conns := ground_conns p ++ time_conns (ac_times A) |}.

(** Rotation with the equations of motion, phases.py:810-892 *)
Definition RotationPhase (kt kp : coeffs) (tri : mat) (nn : nat) (A : aircraft) (p : string) : group := {|
  g_subs :=
    [indep "const_settings" ["CL_rotate_mult"; "h_obs"; "braking"; "propulsor_active"; "throttle"] [P "*"];
     subgroup "atmos" (atmosphere kt kp nn true) [P "*"] [P "*"];
     comp nn "gs" Groundspeeds [P "*"] [P "*"];
     multiplier nn "clcomp"
       {| ms_out := "fltcond|CL"; ms_ins := ["CL_rotate_mult"; "ac|aero|CLmax_TO"]; ms_vec := VList [nn; 1%nat]; ms_len := 1;
          ms_sf := 1; ms_div := None; ms_units := None |} [P "*"] [P "*"];
     subgroup "acmodel" (ac_model A nn p) [P "*"] [P "*"];
     comp nn "lift" Lift [P "*"] [P "*"];
     comp nn "haccel" HorizontalAcceleration [P "*"] [P "*"];
     comp nn "vaccel" VerticalAcceleration [P "*"] [P "*"];
     balance2 1 "clear_obstacle" "duration" "h_obs" "fltcond|h_final" [P "*"] [P "duration"];
     integrators nn tri "intvelocity" [integ_std "fltcond|Utrue" "accel_horiz" false] [P "*"] [P "*"];
     integrators nn tri "intrange" [integ_std "range" "fltcond|groundspeed" false] [P "*"] [P "*"];
     integrators nn tri "intvs" [integ_std "fltcond|vs" "accel_vert" true] [P "*"] [P "*"];
     integrators nn tri "inth" [integ_std "fltcond|h" "fltcond|vs" true] [P "*"] [P "*"]];
  g_conns := time_conns (ac_times A) |}.

(** Rotation with the circular arc, phases.py:1354-1469.  [TakeoffTransition] and
    [TakeoffClimb] are built with their own default obstacle height (see
    [Model_Phases.rotation_phase]). *)
Definition RobustRotationPhase (kt kp : coeffs) (nn : nat) (A : aircraft) (p : string) : group := {|
  g_subs :=
    [indep "const_settings" ["braking"; "propulsor_active"; "throttle"; "v2_vstall_mult"; "vr_vstall_mult"; "fltcond|vs"; "fltcond|cosgamma"; "h_obstacle"] [P "*"];
     linear_interp nn "altitudes" [As "start_val" "h_initial"] [As "vec" "fltcond|h"];
     stall_speed; speed_mult "vrspeed" "takeoff|vr" "vr_vstall_mult"; speed_mult "v2speed" "takeoff|v2" "v2_vstall_mult";
     linear_interp nn "speeds" [As "start_val" "takeoff|vr"; As "end_val" "takeoff|v2"] [As "vec" "fltcond|Ueas"];
     subgroup "atmos" (atmosphere kt kp nn false) [P "*"] [P "*"];
     comp nn "clcomp" SteadyFlightCL [P "weight"; P "fltcond|*"; P "ac|*"] [P "*"];
     subgroup "acmodel" (ac_model A nn p) [P "*"] [P "*"];
     comp nn "climbangle" ClimbAngleComp [P "drag"; P "weight"; P "thrust"] [P "gamma"];
     comp_at 0 ["fltcond|Utrue"; "gamma"] "transition" (TakeoffTransition (1066/100) (12/10))
       [P "fltcond|Utrue"; P "gamma"] [P "h_transition"; P "s_transition"; P "t_transition"];
     comp_at (nn - 1) ["fltcond|Utrue"; "gamma"] "v2climb" (TakeoffClimb (1066/100))
       [P "h_transition"; P "fltcond|Utrue"; P "gamma"] [P "s_climb"; P "t_climb"];
     adder 1 "tod_final" (sum "range_final" ["range_initial"; "s_transition"; "s_climb"] 1 "m") [P "*"] [P "*"];
     adder 1 "duration" (sum "duration" ["t_transition"; "t_climb"] 1 "s") [P "*"] [P "*"];
     adder 1 "h_final" (sum "fltcond|h_final" ["h_obstacle"] 1 "m") [P "*"] [P "*"];
     linear_interp nn "ranges" [As "start_val" "range_initial"; As "end_val" "range_final"] [As "vec" "range"]];
  g_conns := ("h_obstacle", "altitudes.end_val") :: time_conns (ac_times A) |}.

(** phases.py:1086-1139; not a PhaseGroup: durations stay unconnected. *)
Definition ClimbAnglePhase (kt kp : coeffs) (nn : nat) (A : aircraft) (p : string) : group := {|
  g_subs :=
    [indep "const_settings" ["v2_vstall_mult"; "fltcond|h"; "fltcond|cosgamma"; "propulsor_active"; "throttle"] [P "*"];
     stall_speed; speed_mult "vrspeed" "takeoff|v2" "v2_vstall_mult";
     subgroup "atmos" (atmosphere kt kp nn false) [P "*"] [P "*"];
     comp nn "clcomp" SteadyFlightCL [As "weight" "ac|weights|MTOW"; P "fltcond|*"; P "ac|*"] [P "*"];
     subgroup "acmodel" (ac_model A nn p) [P "*"] [P "*"];
     comp nn "climbangle" ClimbAngleComp [P "drag"; As "weight" "ac|weights|MTOW"; P "thrust"] [P "gamma"]];
  g_conns := [("takeoff|v2", "fltcond|Ueas")] |}.

(** ** profiles.py *)
(** profiles.py:125-139, 150-163, 171-187, 197-211, 220-233, 242-256, 276-277: what sets
    the duration of each steady phase, with the connections inside the phase. *)
Definition setter_of (p : string) : list gsub * list (string * string) :=
  let dt name lhs rhs := [balance2 1 name "duration" lhs rhs [] [P "duration"]] in
  if String.eqb p "climb" then (dt "climbdt" "fltcond|h_final" "cruise|h0", [("ode_integ_phase.fltcond|h_final", "climbdt.fltcond|h_final")])
  else if String.eqb p "cruise" then (dt "cruisedt" "range_final" "mission_range", [])
  else if String.eqb p "descent" then (dt "descentdt" "fltcond|h_final" "takeoff|h", [("ode_integ_phase.fltcond|h_final", "descentdt.fltcond|h_final")])
  else if String.eqb p "reserve_climb" then (dt "reserve_climbdt" "fltcond|h_final" "reserve|h0", [("ode_integ_phase.fltcond|h_final", "reserve_climbdt.fltcond|h_final")])
  else if String.eqb p "reserve_cruise" then (dt "reserve_cruisedt" "range_final" "reserve_range", [])
  else if String.eqb p "reserve_descent" then (dt "reserve_descentdt" "fltcond|h_final" "takeoff|h", [("ode_integ_phase.fltcond|h_final", "reserve_descentdt.fltcond|h_final")])
  else ([relabel "loiter_dt" [("duration_in", "duration")] [P "*"] [P "*"]], []).

(** The phase [p] of kind [k]; the ground roll of the BasicMission has
    [flight_phase="v0v1"] (profiles.py:113). *)
Definition phase_group (kt kp : coeffs) (tri : mat) (nn : nat) (A : aircraft) (p : string) (k : pkind) : group :=
  match k with
  | SteadyP => SteadyFlightPhase kt kp tri nn A p (fst (setter_of p)) (snd (setter_of p))
  | GroundP => GroundRollPhase kt kp tri nn A (if String.eqb p "groundroll" then "v0v1" else p)
  | BackwardsP => GroundRollPhase kt kp tri nn A p
  | RobustRotationP => RobustRotationPhase kt kp nn A p
  | RotationP => RotationPhase kt kp tri nn A p
  end.
(** The [promotes_inputs] of the phases, profiles.py:69, 74, 82, 88, 99, 114, 122 and so on. *)
Definition phase_promotes (p : string) : list promo :=
  if String.eqb p "v0v1" || String.eqb p "v1v0" then [P "ac|*"; P "takeoff|v1"] else [P "ac|*"].
Definition phase_sub (kt kp : coeffs) (tri : mat) (nn : nat) (A : aircraft) (x : string * pkind) : gsub :=
  subgroup (fst x) (phase_group kt kp tri nn A (fst x) (snd x)) (phase_promotes (fst x)) [].

(** phases.py:121-170: the solver for the decision speed. *)
Definition bfl : gsub := {|
  gs_name := "bfl"; gs_ins := ["distance_continue"; "distance_abort"; "takeoff|vr"]; gs_outs := ["takeoff|v1"];
  gs_rel := fun I O => bfl_residual (I "distance_continue" 0%nat) (I "distance_abort" 0%nat) (I "takeoff|vr" 0%nat) (O "takeoff|v1" 0%nat) = 0;
  gs_pin := []; gs_pout := [P "takeoff|v1"] |}.
(** profiles.py:259-265 *)
Definition resrange : gsub := {|
  gs_name := "resrange"; gs_ins := ["rangeo"; "rangef"]; gs_outs := ["reserverange"];
  gs_rel := fun I O => O "reserverange" 0%nat = I "rangef" 0%nat - I "rangeo" 0%nat;
  gs_pin := []; gs_pout := [] |}.
(** profiles.py:45-56, 110 *)
Definition mission_params (o : profile) : gsub :=
  indep "missionparams"
    (["takeoff|h"; "cruise|h0"; "mission_range"; "payload"] ++
     (if pf_reserve o then ["reserve_range"; "reserve|h0"; "loiter|h0"; "loiter_duration"] else []) ++
     (if pf_basic o then ["takeoff|v2"] else []) ++
     (if pf_basic o && pf_ground_roll o then ["takeoff|v0"] else [])) [P "*"].

(** OpenMDAO's promotion tables of the mission for the names of the phases' states. *)
Definition prom_table (A : aircraft) (o : profile) (fields : list (istate -> string)) : list (string * string) :=
  flat_map (fun x => flat_map (fun s => map (fun f =>
      (String.append (fst x) (String.append "." (f (ps_abs s))), String.append (fst x) (String.append "." (f (ps_prom s))))) fields)
    (phase_states (snd x) (ac_states A))) (profile_phases o).
Definition lookup (l : list (string * string)) (n : string) : option string :=
  match find (fun c => String.eqb (fst c) n) l with Some c => Some (snd c) | None => None end.
Definition some_pairs (cs : list (option string * option string)) : list (string * string) :=
  flat_map (fun c => match c with (Some x, Some y) => [(x, y)] | _ => [] end) cs.
(** profiles.py:42-297: the subsystems in order and the connections of [Model_Mission.mission]. *)
Definition mission_subs (kt kp : coeffs) (tri : mat) (nn : nat) (A : aircraft) (o : profile) : list gsub :=
  let ph := map (phase_sub kt kp tri nn A) (profile_phases o) in
  mission_params o :: (if pf_takeoff o then [bfl] else []) ++ ph ++
  (if pf_takeoff o then [subgroup "engineoutclimb" (ClimbAnglePhase kt kp 1 A "EngineOutClimbAngle") [P "ac|*"] []] else []) ++
  (if pf_reserve o then [resrange] else []).
Definition mission_group (kt kp : coeffs) (tri : mat) (nn : nat) (A : aircraft) (o : profile) : res group :=
  res_bind (mission (lookup (prom_table A o [is_name; is_end])) (lookup (prom_table A o [is_start])) ""
                    (fun _ => ac_states A) o) (fun cs =>
  setup {| g_subs := mission_subs kt kp tri nn A o; g_conns := some_pairs cs |}).

(** ** Example aircraft, openconcept/examples/ *)
(** minimal.py:17-63 *)
Definition MinimalAircraft : pcomp :=
  let ins := [("fltcond|CL", Vec); ("throttle", Vec); ("fltcond|q", Vec); ("ac|geom|wing|S_ref", Sca); ("ac|weights|TOW", Sca);
              ("ac|propulsion|max_thrust", Sca); ("ac|aero|L_over_D", Sca)] in
  let outs := [("weight", (Vec, fun e : nenv => e "ac|weights|TOW"));
               ("drag", (Vec, fun e : nenv => e "fltcond|q" * e "fltcond|CL" * e "ac|geom|wing|S_ref" / e "ac|aero|L_over_D"));
               ("thrust", (Vec, fun e : nenv => e "throttle" * e "ac|propulsion|max_thrust"))] in
  {| pc_ins := ins; pc_outs := outs; pc_J := cs_partials ins outs |}.
Definition minimal : aircraft := {|
  ac_model := fun nn _ => {| g_subs := [comp nn "aircraft" MinimalAircraft [P "*"] [P "*"]]; g_conns := [] |};
  ac_times := []; ac_states := [] |}.

(** minimal_integrator.py:17-94 *)
Definition FuelFlow : pcomp :=
  let ins := [("TSFC", Sca); ("thrust", Vec)] in let outs := [("fuel_flow", (Vec, fun e : nenv => e "TSFC" * e "thrust"))] in
  {| pc_ins := ins; pc_outs := outs; pc_J := cs_partials ins outs |}.
Definition FuelWeight : pcomp :=
  let ins := [("TOW", Sca); ("fuel_burned", Vec)] in let outs := [("weight", (Vec, fun e : nenv => e "TOW" - e "fuel_burned"))] in
  {| pc_ins := ins; pc_outs := outs; pc_J := cs_partials ins outs |}.
Definition minimal_integrator (tri : mat) : aircraft := {|
  ac_model := fun nn _ => {|
    g_subs :=
      [comp nn "simple_aircraft" MinimalAircraft
         [P "fltcond|CL"; P "throttle"; P "fltcond|q"; P "ac|geom|wing|S_ref"; P "ac|weights|TOW"; P "ac|propulsion|max_thrust"; P "ac|aero|L_over_D"]
         [P "thrust"; P "drag"];
       comp nn "fuel_flow_calc" FuelFlow [As "TSFC" "ac|propulsion|TSFC"; P "thrust"] [];
       integrators nn tri "fuel_integrator" [integ_std "fuel_burned" "fuel_flow" false] [] [];
       comp nn "weight_calc" FuelWeight [As "TOW" "ac|weights|TOW"] [P "weight"]];
    g_conns := [("fuel_flow_calc.fuel_flow", "fuel_integrator.fuel_flow"); ("fuel_integrator.fuel_burned", "weight_calc.fuel_burned")] |};
  ac_times := ["fuel_integrator.duration"];
  ac_states := [{| ps_abs := std_state "fuel_integrator" "fuel_burned"; ps_prom := std_state "fuel_integrator" "fuel_burned" |}] |}.
