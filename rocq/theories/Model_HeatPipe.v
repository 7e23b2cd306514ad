(** Model of openconcept/thermal/heat_pipe.py.  Simplifications: exact reals; powers
    with a fractional exponent are [Rpower] and roots [sqrt] (their arguments are
    positive for every input the theorems speak about); the cubic interpolation of the
    ammonia tables (OpenMDAO's MetaModelStructuredComp) is a parameter; warnings are
    values; [method="cs"] partials are the exact derivative of the modelled expression.
    Temperatures are in degrees Celsius, as in every component of the file. *)
From Coq Require Import Reals List Bool PeanoNat String.
From Verif Require Import Base Py Model_Algebra Model_Vectors Model_Net Model_Thermal Model_HX Model_Ducts Model_Phases.
Import ListNotations.
Open Scope R_scope.
Open Scope string_scope.

(** heat_pipe.py:269-291; the fifth option [wick_conduct] is declared (lines 250-254)
    but never read. *)
Definition radial (outer inner length conduct : R) : R := ln (outer / inner) / (2 * PI * length * conduct).
Definition HeatPipeThermalResistance (length_evap length_cond wall_conduct wick_thickness wick_conduct : R) (vapor : bool) : pcomp :=
  let d e : R := e "inner_diam" in
  let mesh L e := radial (d e) (d e - 2 * wick_thickness) L wall_conduct in
  let pipe L e := radial (d e + 2 * e "wall_thickness") (d e) L wall_conduct in
  let R_evap e := mesh length_evap e + pipe length_evap e in
  let R_cond e := mesh length_cond e + pipe length_cond e in
  let ins := [("inner_diam", Sca); ("wall_thickness", Sca); ("q", Vec); ("delta_T", Vec)] in
  let outs := [("thermal_resistance", (Vec, fun e : nenv => R_evap e + R_cond e + (if vapor then e "delta_T" / e "q" else 0)))] in
  {| pc_ins := ins; pc_outs := outs; pc_J := cs_partials ins outs |}.

(** heat_pipe.py:348, 358-370; options [latent_heat], [visc_base], [visc_inc]. *)
Definition vapor_drop (latent vb vi q temp rho pv d L : R) : R :=
  let mdot := q / latent in
  let area := PI * d ^ 2 / 4 in
  let mean_vel := mdot / rho / area in
  let visc := temp * vi + vb in
  let redh := rho * mean_vel * d / visc in
  let darcy_f := (3164/10000) * Rpower redh (- (1) / 4) in
  let delta_p := L * darcy_f * rho * mean_vel ^ 2 / 2 / d in
  let dt_dp := ((35976/1000) / (pv / 1000)) / 1000 in
  dt_dp * delta_p.
Definition HeatPipeVaporTempDrop (latent vb vi : R) : pcomp :=
  let ins := [("q", Vec); ("temp", Vec); ("rho_vapor", Vec); ("vapor_pressure", Vec); ("inner_diam", Sca); ("length", Sca)] in
  let outs := [("delta_T", (Vec, fun e : nenv =>
    vapor_drop latent vb vi (e "q") (e "temp") (e "rho_vapor") (e "vapor_pressure") (e "inner_diam") (e "length")))] in
  {| pc_ins := ins; pc_outs := outs; pc_J := cs_partials ins outs |}.
(** heat_pipe.py:350-356: whether the component warns. *)
Definition temp_warns (nn : nat) (E : env) : bool :=
  anyb nn (fun i => if Rlt_dec (E "temp" i) (-10) then true else false) ||
  anyb nn (fun i => if Rlt_dec 100 (E "temp" i) then true else false).
(** heat_pipe.py:333-335: default options. *)
Definition latent_ammonia : R := 1371200.
Definition visc_base_ammonia : R := 9 / 10 ^ 6.
Definition visc_inc_ammonia : R := 4 / 10 ^ 8.

(** heat_pipe.py:409-443; options [yield_stress], [stress_safety_factor], [rho_wall]. *)
Definition HeatPipeWeight (sigma_y FOS rho : R) : pcomp :=
  let p e : R := e "design_pressure" in let d e : R := e "inner_diam" in let L e : R := e "length" in {|
  pc_ins := [("design_pressure", Sca); ("inner_diam", Sca); ("length", Sca)];
  pc_outs := [("heat_pipe_weight", (Sca, fun e => L e * PI * d e ^ 2 * p e * FOS * rho / sigma_y));
              ("wall_thickness", (Sca, fun e => p e * d e * FOS / sigma_y))];
  pc_J :=
    [("wall_thickness", "design_pressure", fun e => d e * FOS / sigma_y);
     ("wall_thickness", "inner_diam", fun e => p e * FOS / sigma_y);
     ("heat_pipe_weight", "design_pressure", fun e => L e * PI * d e ^ 2 * FOS * rho / sigma_y);
     ("heat_pipe_weight", "inner_diam", fun e => L e * PI * 2 * d e * p e * FOS * rho / sigma_y);
     ("heat_pipe_weight", "length", fun e => PI * d e ^ 2 * p e * FOS * rho / sigma_y)]
|}.

(** heat_pipe.py:767-799; options [theta], [latent_heat], [surface_tension_base],
    [surface_tension_incr]. *)
Definition flooding (theta latent sb si d temp rL rV : R) : R :=
  let A_vapor := PI / 4 * d ^ 2 in
  let th_rad := theta * PI / 180 in
  let st := sb + si * temp in
  let bond := d * sqrt (GRAV / st * (rL - rV)) in
  let k := Rpower (rL / rV) (14/100) * tanh (Rpower bond (25/100)) ^ 2 in
  let numer := k * A_vapor * latent * Rpower (GRAV * sin (PI / 2 - th_rad) * st * (rL - rV)) (25/100) in
  let denom := (Rpower rL (- (25/100)) + Rpower rV (- (25/100))) ^ 2 in
  numer / denom.
Definition QMaxAnalyticalPart (theta latent sb si : R) : pcomp :=
  let ins := [("inner_diam", Sca); ("temp", Vec); ("rho_liquid", Vec); ("rho_vapor", Vec)] in
  let outs := [("q_max", (Vec, fun e : nenv => flooding theta latent sb si (e "inner_diam") (e "temp") (e "rho_liquid") (e "rho_vapor")))] in
  {| pc_ins := ins; pc_outs := outs; pc_J := cs_partials ins outs |}.
(** heat_pipe.py:762-765: default options. *)
Definition st_base_ammonia : R := 26/1000.
Definition st_incr_ammonia : R := - (23 / 10 ^ 5).

(** heat_pipe.py:834-844: whether the component warns. *)
Definition QMaxWarning (q_max_warn : R) (nn : nat) (E : env) : bool :=
  anyb nn (fun i => if Rlt_dec (q_max_warn * E "q_max" i) (E "q" i) then true else false).

(** ** Ammonia *)
(** heat_pipe.py:480-619: the tables (degrees C, kg/m3, kg/m3, kPa), integers scaled by
    the stated powers of ten. *)
Definition ammonia_table : list (R * (R * (R * R))) := map
  (fun r => match r with (t, (l, (v, p))) => (IZR t, (IZR l / 100, (IZR v / 10 ^ 6, IZR p / 100))) end)
  [(-75, (73094, (78241, 793))); (-70, (72527, (111410, 1092))); (-65, (71953, (155520, 1561))); (-60, (71378, (213210, 2190)));
   (-55, (70791, (285960, 3016))); (-50, (70200, (381580, 4087))); (-45, (69604, (499400, 5454))); (-40, (68999, (645080, 7177)));
   (-35, (68385, (823180, 9319))); (-30, (67764, (1038600, 11960))); (-25, (67137, (1296900, 15160))); (-20, (66503, (1603900, 19020)));
   (-15, (65854, (1965900, 23630))); (-10, (65198, (2387400, 29080))); (-5, (64533, (2882700, 35480))); (0, (63857, (3452800, 42940)));
   (5, (63167, (4108600, 51570))); (10, (62469, (4859300, 61490))); (15, (61755, (5715300, 72830))); (20, (61028, (6687600, 85710)));
   (25, (60285, (7788200, 100300))); (30, (59524, (9031000, 116600))); (35, (58816, (10431000, 135000))); (40, (57948, (12006000, 155400)));
   (45, (57130, (13775000, 178100))); (50, (56287, (15761000, 203200))); (60, (54523, (20500000, 261300))); (70, (52632, (26500000, 331200)));
   (80, (50571, (34100000, 414400))); (90, (48290, (43900000, 512300))); (100, (45693, (56800000, 626400)))]%Z.
(** What the interpolation computes: liquid density, vapour density, pressure in kPa. *)
Record ammonia := { am_liquid : R -> R; am_vapor : R -> R; am_pressure : R -> R }.
(** heat_pipe.py:621-627; partials of the interpolation are not modelled. *)
Definition AmmoniaProperties (A : ammonia) : pcomp := {|
  pc_ins := [("temp", Vec)];
  pc_outs := [("rho_liquid", (Vec, fun e => am_liquid A (e "temp"))); ("rho_vapor", (Vec, fun e => am_vapor A (e "temp")));
              ("vapor_pressure", (Vec, fun e => am_pressure A (e "temp")))];
  pc_J := [] |}.

(** ** Groups *)
(** OpenMDAO converts units where a source in one unit feeds an input in another;
    [converted] makes such a conversion (factor [k]) a subsystem. *)
Definition converted (name : string) (k : R) (x y : string) : gsub := {|
  gs_name := name; gs_ins := [x]; gs_outs := [y];
  gs_rel := fun I O => forall i, O y i = I x i * k;
  gs_pin := [P "*"]; gs_pout := [P "*"] |}.
(** An ElementMultiplyDivideComp with one equation as a subsystem with [n] rows. *)
Definition multiplier (n : nat) (name : string) (s : mul_sys) (pin pout : list promo) : gsub := {|
  gs_name := name; gs_ins := ms_ins s; gs_outs := [ms_out s];
  gs_rel := fun I O => forall i, (i < n)%nat -> mul_compute s I i = Ok (O (ms_out s) i);
  gs_pin := pin; gs_pout := pout |}.

(** heat_pipe.py:678-715.  "design_pressure" is in kPa, its consumer reads MPa. *)
Definition QMaxHeatPipe (A : ammonia) (nn : nat) (theta sigma_y FOS rho : R) : group := {|
  g_subs :=
    [comp nn "ammonia_current" (AmmoniaProperties A) [P "temp"] [P "vapor_pressure"];
     comp 1 "ammonia_design" (AmmoniaProperties A) [As "temp" "design_temp"] [As "vapor_pressure" "design_pressure"];
     comp nn "q_max_calc" (QMaxAnalyticalPart theta latent_ammonia st_base_ammonia st_incr_ammonia) [P "inner_diam"; P "temp"] [P "q_max"];
     converted "kPa_to_MPa" (/ 1000) "design_pressure" "design_pressure_MPa";
     comp 1 "weight_calc" (HeatPipeWeight sigma_y FOS rho) [As "design_pressure" "design_pressure_MPa"; P "*"] [P "*"]];
  g_conns :=
    [("ammonia_current.rho_liquid", "q_max_calc.rho_liquid"); ("ammonia_current.rho_vapor", "q_max_calc.rho_vapor")]
|}.

(** heat_pipe.py:92-101 *)
Definition heat_divide : pcomp := {|
  pc_ins := [("q", Vec); ("n_pipes", Sca)]; pc_outs := [("q_div", (Vec, fun e => e "q" / e "n_pipes"))];
  pc_J := [("q_div", "q", fun e => 1 / e "n_pipes"); ("q_div", "n_pipes", fun e => - e "q" / e "n_pipes" ^ 2)] |}.
(** heat_pipe.py:124-135 *)
Definition q_max_multiplier : pcomp := {|
  pc_ins := [("single_pipe_q_max", Vec); ("n_pipes", Sca)]; pc_outs := [("q_max", (Vec, fun e => e "single_pipe_q_max" * e "n_pipes"))];
  pc_J := [("q_max", "single_pipe_q_max", fun e => e "n_pipes"); ("q_max", "n_pipes", fun e => e "single_pipe_q_max")] |}.
(** heat_pipe.py:172-184 *)
Definition cond_temp : pcomp := {|
  pc_ins := [("T_evap", Vec); ("q", Vec); ("R", Vec)]; pc_outs := [("T_cond", (Vec, fun e => e "T_evap" - e "q" * e "R"))];
  pc_J := [("T_cond", "T_evap", fun _ => 1); ("T_cond", "q", fun e => - e "R"); ("T_cond", "R", fun e => - e "q")] |}.
(** heat_pipe.py:117-122 *)
Definition weight_multiplier : mul_sys := {|
  ms_out := "weight"; ms_ins := ["single_pipe_weight"; "n_pipes"]; ms_vec := VInt 1; ms_len := 1; ms_sf := 1; ms_div := None;
  ms_units := Some [Some [TUnit "kg"]; None] |}.
(** Options of the heat pipe, heat_pipe.py:66-84; [q_max_warn] (line 85) is an argument of
    [QMaxWarning]. *)
Record hp_options := {
  hp_length_evap : R; hp_length_cond : R; hp_wall_conduct : R; hp_wick_thickness : R; hp_wick_conduct : R;
  hp_yield_stress : R; hp_rho_wall : R; hp_safety : R; hp_theta : R }.
(** heat_pipe.py:86-194.  The vapour pressure is in kPa where the surrogate gives it and
    in Pa where the vapour temperature drop reads it. *)
Definition HeatPipe (A : ammonia) (nn : nat) (o : hp_options) : group := {|
  g_subs :=
    [comp nn "heat_divide" heat_divide [P "q"; P "n_pipes"] [];
     subgroup "q_max_calc" (QMaxHeatPipe A nn (hp_theta o) (hp_yield_stress o) (hp_safety o) (hp_rho_wall o))
       [P "inner_diam"; P "length"; As "design_temp" "T_design"; As "temp" "T_evap"] [];
     multiplier 1 "weight_multiplier" weight_multiplier [P "n_pipes"] [P "weight"];
     comp nn "q_max_multiplier" q_max_multiplier [P "n_pipes"] [P "q_max"];
     comp nn "ammonia_surrogate" (AmmoniaProperties A) [As "temp" "T_evap"] [];
     converted "kPa_to_Pa" 1000 "ammonia_surrogate.vapor_pressure" "vapor_pressure_Pa";
     comp nn "delta_T_calc" (HeatPipeVaporTempDrop latent_ammonia visc_base_ammonia visc_inc_ammonia)
       [As "temp" "T_evap"; P "inner_diam"; P "length"] [];
     comp nn "resistance"
       (HeatPipeThermalResistance (hp_length_evap o) (hp_length_cond o) (hp_wall_conduct o) (hp_wick_thickness o) (hp_wick_conduct o) true)
       [P "inner_diam"] [];
     comp nn "cond_temp_calc" cond_temp [P "T_evap"] [P "T_cond"];
     comp nn "q_max_warning" {| pc_ins := [("q", Vec); ("q_max", Vec)]; pc_outs := []; pc_J := [] |} [P "q"; P "q_max"] []];
  g_conns :=
    [("q_max_calc.heat_pipe_weight", "weight_multiplier.single_pipe_weight"); ("q_max_calc.q_max", "q_max_multiplier.single_pipe_q_max");
     ("ammonia_surrogate.rho_vapor", "delta_T_calc.rho_vapor"); ("vapor_pressure_Pa", "delta_T_calc.vapor_pressure");
     ("delta_T_calc.delta_T", "resistance.delta_T"); ("q_max_calc.wall_thickness", "resistance.wall_thickness");
     ("heat_divide.q_div", "delta_T_calc.q"); ("heat_divide.q_div", "resistance.q"); ("heat_divide.q_div", "cond_temp_calc.q");
     ("resistance.thermal_resistance", "cond_temp_calc.R")]
|}.
