(** Model of openconcept/propulsion/ (motor, generator, turboshaft, splitter,
    propeller, rubberized_turbofan) and openconcept/energy_storage/battery.py.

    Simplifications: exact reals; a division by zero (inf or NaN in numpy) is
    Coq's [/ 0], so theorems assume nonzero denominators unless they say
    otherwise.  The propeller and engine maps (OpenMDAO surrogates of tabulated
    data) are arbitrary functions. *)
From Coq Require Import Reals List Bool PeanoNat String.
From Verif Require Import Base Py RSum Model_Algebra Model_Atmos Model_Integrals.
Import ListNotations.
Open Scope R_scope.
Open Scope string_scope.

(** The technology options shared by the components. *)
Record tech := { t_eta : R; t_winc : R; t_wbase : R; t_cinc : R; t_cbase : R }.

(** motor.py:57-104.  (Line 74 passes "elec_power_rating" as the third argument
    of declare_partials, i.e. [dependent], which is then true.) *)
Definition SimpleMotor (o : tech) : pcomp := {|
  pc_ins := [("throttle", Vec); ("elec_power_rating", Sca)];
  pc_outs :=
    [("shaft_power_out", (Vec, fun e => e "throttle" * e "elec_power_rating" * t_eta o));
     ("heat_out", (Vec, fun e => e "throttle" * e "elec_power_rating" * (1 - t_eta o)));
     ("elec_load", (Vec, fun e => e "throttle" * e "elec_power_rating"));
     ("component_cost", (Sca, fun e => e "elec_power_rating" * t_cinc o + t_cbase o));
     ("component_weight", (Sca, fun e => e "elec_power_rating" * t_winc o + t_wbase o));
     ("component_sizing_margin", (Vec, fun e => e "throttle"))];
  pc_J :=
    [("shaft_power_out", "throttle", fun e => e "elec_power_rating" * t_eta o);
     ("shaft_power_out", "elec_power_rating", fun e => e "throttle" * t_eta o);
     ("heat_out", "throttle", fun e => e "elec_power_rating" * (1 - t_eta o));
     ("heat_out", "elec_power_rating", fun e => e "throttle" * (1 - t_eta o));
     ("elec_load", "throttle", fun e => e "elec_power_rating");
     ("elec_load", "elec_power_rating", fun e => e "throttle");
     ("component_cost", "elec_power_rating", fun _ => t_cinc o);
     ("component_weight", "elec_power_rating", fun _ => t_winc o);
     ("component_sizing_margin", "throttle", fun _ => 1 * 1)]
|}.

(** generator.py:55-100 *)
Definition SimpleGenerator (o : tech) : pcomp := {|
  pc_ins := [("shaft_power_in", Vec); ("elec_power_rating", Sca)];
  pc_outs :=
    [("elec_power_out", (Vec, fun e => e "shaft_power_in" * t_eta o));
     ("heat_out", (Vec, fun e => e "shaft_power_in" * (1 - t_eta o)));
     ("component_cost", (Sca, fun e => e "elec_power_rating" * t_cinc o + t_cbase o));
     ("component_weight", (Sca, fun e => e "elec_power_rating" * t_winc o + t_wbase o));
     ("component_sizing_margin", (Vec, fun e => e "shaft_power_in" * t_eta o / e "elec_power_rating"))];
  pc_J :=
    [("elec_power_out", "shaft_power_in", fun _ => t_eta o * 1);
     ("heat_out", "shaft_power_in", fun _ => (1 - t_eta o) * 1);
     ("component_cost", "elec_power_rating", fun _ => t_cinc o);
     ("component_weight", "elec_power_rating", fun _ => t_winc o);
     ("component_sizing_margin", "shaft_power_in", fun e => t_eta o / e "elec_power_rating");
     ("component_sizing_margin", "elec_power_rating", fun e =>
        - (t_eta o * e "shaft_power_in" / e "elec_power_rating" ^ 2))]
|}.

(** turboshaft.py:68-113; [psfc] is the fuel consumption option *)
Definition SimpleTurboshaft (psfc : R) (o : tech) : pcomp := {|
  pc_ins := [("throttle", Vec); ("shaft_power_rating", Sca)];
  pc_outs :=
    [("shaft_power_out", (Vec, fun e => e "throttle" * e "shaft_power_rating"));
     ("fuel_flow", (Vec, fun e => e "throttle" * e "shaft_power_rating" * psfc));
     ("component_cost", (Sca, fun e => e "shaft_power_rating" * t_cinc o + t_cbase o));
     ("component_weight", (Sca, fun e => e "shaft_power_rating" * t_winc o + t_wbase o));
     ("component_sizing_margin", (Vec, fun e => e "throttle"))];
  pc_J :=
    [("shaft_power_out", "throttle", fun e => e "shaft_power_rating" * 1);
     ("shaft_power_out", "shaft_power_rating", fun e => e "throttle");
     ("fuel_flow", "throttle", fun e => e "shaft_power_rating" * psfc * 1);
     ("fuel_flow", "shaft_power_rating", fun e => e "throttle" * psfc);
     ("component_cost", "shaft_power_rating", fun _ => t_cinc o);
     ("component_weight", "shaft_power_rating", fun _ => t_winc o);
     ("component_sizing_margin", "throttle", fun _ => 1 * 1)]
|}.

(** ** splitter.py *)
(** splitter.py:74-75, 92-109, 137-140, 172-173: what both rules share. *)
Definition split_outs (o : tech) : list (string * (kind * (nenv -> R))) :=
  [("heat_out", (Vec, fun e => e "power_in" * (1 - t_eta o)));
   ("component_cost", (Sca, fun e => e "power_rating" * t_cinc o + t_cbase o));
   ("component_weight", (Sca, fun e => e "power_rating" * t_winc o + t_wbase o));
   ("component_sizing_margin", (Vec, fun e => e "power_in" / e "power_rating"))].
Definition split_J (o : tech) : list (string * string * (nenv -> R)) :=
  [("heat_out", "power_in", fun _ => (1 - t_eta o) * 1);
   ("component_cost", "power_rating", fun _ => t_cinc o);
   ("component_weight", "power_rating", fun _ => t_winc o);
   ("component_sizing_margin", "power_in", fun e => 1 / e "power_rating");
   ("component_sizing_margin", "power_rating", fun e => - (e "power_in" / e "power_rating" ^ 2))].
(** splitter.py:78-79, 97-100, 120-122, 146-150 *)
Definition SplitFraction (o : tech) : pcomp := {|
  pc_ins := [("power_in", Vec); ("power_rating", Sca); ("power_split_fraction", Vec)];
  pc_outs :=
    ("power_out_A", (Vec, fun e => e "power_in" * e "power_split_fraction" * t_eta o)) ::
    ("power_out_B", (Vec, fun e => e "power_in" * (1 - e "power_split_fraction") * t_eta o)) :: split_outs o;
  pc_J :=
    ("power_out_A", "power_in", fun e => e "power_split_fraction" * t_eta o) ::
    ("power_out_A", "power_split_fraction", fun e => e "power_in" * t_eta o) ::
    ("power_out_B", "power_in", fun e => (1 - e "power_split_fraction") * t_eta o) ::
    ("power_out_B", "power_split_fraction", fun e => - e "power_in" * t_eta o) :: split_J o
|}.
(** splitter.py:80-81, 101-104, 123-136, 151-171: [not_enough_idx] and [enough_idx] are
    complementary, so each entry takes one of two values. *)
Definition SplitFixed (o : tech) : pcomp :=
  let sel (a b : nenv -> R) (e : nenv) := if Rlt_dec (e "power_in") (e "power_split_amount") then a e else b e in
  {|
  pc_ins := [("power_in", Vec); ("power_rating", Sca); ("power_split_amount", Vec)];
  pc_outs :=
    ("power_out_A", (Vec, sel (fun e => e "power_in" * t_eta o) (fun e => e "power_split_amount" * t_eta o))) ::
    ("power_out_B", (Vec, sel (fun _ => 0) (fun e => (e "power_in" - e "power_split_amount") * t_eta o))) :: split_outs o;
  pc_J :=
    ("power_out_A", "power_in", sel (fun _ => t_eta o * 1) (fun _ => 0)) ::
    ("power_out_A", "power_split_amount", sel (fun _ => 0) (fun _ => t_eta o * 1)) ::
    ("power_out_B", "power_in", sel (fun _ => 0) (fun _ => t_eta o * 1)) ::
    ("power_out_B", "power_split_amount", sel (fun _ => 0) (fun _ => - t_eta o * 1)) :: split_J o
|}.
(** splitter.py:77-84 *)
Definition PowerSplit (rule : string) (o : tech) : res pcomp :=
  if String.eqb rule "fraction" then Ok (SplitFraction o)
  else if String.eqb rule "fixed" then Ok (SplitFixed o)
  else Err ValueError.

(** ** propeller.py *)
(** propeller.py:239-287 *)
Definition prop_cp (e : nenv) : R :=
  e "shaft_power_in" / e "fltcond|rho" / (e "rpm" / 60) ^ 3 / e "diameter" ^ 5.
Definition prop_J (e : nenv) : R := 60 * e "fltcond|Utrue" / e "rpm" / e "diameter".
Definition PropCoefficients : pcomp := {|
  pc_ins := [("shaft_power_in", Vec); ("diameter", Sca); ("rpm", Vec); ("fltcond|rho", Vec); ("fltcond|Utrue", Vec)];
  pc_outs :=
    [("cp", (Vec, prop_cp)); ("J", (Vec, prop_J)); ("prop_Vtip", (Vec, fun e => e "rpm" / 60 * PI * e "diameter"))];
  pc_J :=
    [("cp", "shaft_power_in", fun e => 1 / e "fltcond|rho" / (e "rpm" / 60) ^ 3 / e "diameter" ^ 5);
     ("cp", "fltcond|rho", fun e => - prop_cp e / e "fltcond|rho");
     ("cp", "rpm", fun e => -3 * prop_cp e / e "rpm");
     ("cp", "diameter", fun e => -5 * prop_cp e / e "diameter");
     ("J", "fltcond|Utrue", fun e => prop_J e / e "fltcond|Utrue");
     ("J", "rpm", fun e => - prop_J e / e "rpm");
     ("J", "diameter", fun e => - prop_J e / e "diameter");
     ("prop_Vtip", "rpm", fun e => 1 / 60 * PI * e "diameter" * 1);
     ("prop_Vtip", "diameter", fun e => e "rpm" / 60 * PI)]
|}.

(** propeller.py:138-160 (and 166-178): the three index sets are complementary. *)
Definition jmin : R := 1/10.
Definition jmax : R := 2/10.
Definition by_regime {A} (j : R) (static interp dynamic : A) : A :=
  if Rle_dec j jmin then static else if Rge_dec j jmax then dynamic else interp.
Definition interp1 (j : R) : R := (jmax - j) / (jmax - jmin).
Definition interp2 (j : R) : R := (j - jmin) / (jmax - jmin).
Definition ct1 (e : nenv) : R := e "ct_over_cp" * e "cp".
Definition ct2 (e : nenv) : R := e "cp" * e "eta_prop" / e "J".
Definition prop_ct (e : nenv) : R :=
  by_regime (e "J") (ct1 e) (interp1 (e "J") * ct1 e + interp2 (e "J") * ct2 e) (ct2 e).
(** propeller.py:162 *)
Definition prop_thrust (e : nenv) : R :=
  prop_ct e * e "fltcond|rho" * (e "rpm" / 60) ^ 2 * e "diameter" ^ 4.
(** propeller.py:180-195 *)
Definition dctdcp (e : nenv) : R :=
  by_regime (e "J") (e "ct_over_cp")
    (interp1 (e "J") * e "ct_over_cp" + interp2 (e "J") * (e "eta_prop" / e "J")) (e "eta_prop" / e "J").
(** propeller.py:197-204: the thrust as recomputed in compute_partials. *)
Definition thrust_over_ct (e : nenv) : R := e "fltcond|rho" * (e "rpm" / 60) ^ 2 * e "diameter" ^ 4.
Definition prop_thrust' (e : nenv) : R :=
  e "cp" * dctdcp e * e "fltcond|rho" * (e "rpm" / 60) ^ 2 * e "diameter" ^ 4.
(** propeller.py:119-232 *)
Definition ThrustCalc : pcomp := {|
  pc_ins := [("cp", Vec); ("eta_prop", Vec); ("J", Vec); ("fltcond|rho", Vec); ("rpm", Vec); ("diameter", Sca); ("ct_over_cp", Vec)];
  pc_outs := [("thrust", (Vec, prop_thrust))];
  pc_J :=
    [("thrust", "fltcond|rho", fun e => prop_thrust' e / e "fltcond|rho");
     ("thrust", "rpm", fun e => 2 * prop_thrust' e / e "rpm");
     ("thrust", "diameter", fun e => 4 * prop_thrust' e / e "diameter");
     ("thrust", "cp", fun e => dctdcp e * e "fltcond|rho" * (e "rpm" / 60) ^ 2 * e "diameter" ^ 4);
     ("thrust", "ct_over_cp", fun e => by_regime (e "J")
        (prop_thrust' e / e "ct_over_cp")
        (thrust_over_ct e * interp1 (e "J") * (ct1 e / e "ct_over_cp")) 0);
     ("thrust", "eta_prop", fun e => by_regime (e "J") 0
        (thrust_over_ct e * interp2 (e "J") * (ct2 e / e "eta_prop")) (prop_thrust' e / e "eta_prop"));
     ("thrust", "J", fun e => by_regime (e "J") 0
        (thrust_over_ct e * (- ct1 e / (jmax - jmin) + ct2 e / (jmax - jmin) - interp2 (e "J") * ct2 e / e "J"))
        (- prop_thrust' e / e "J"))]
|}.

(** propeller.py:85-112.  [x ** 0.782] for x > 0. *)
Definition WeightCalc (num_blades : R) : pcomp :=
  let k := 108/1000 in let ex := 782/1000 in
  let arg e := e "diameter" * e "power_rating" * Rpower num_blades (1/2) in {|
  pc_ins := [("power_rating", Sca); ("diameter", Sca)];
  pc_outs := [("component_weight", (Sca, fun e => k * Rpower (arg e) ex))];
  pc_J :=
    [("component_weight", "power_rating", fun e => ex * k * Rpower (arg e) (ex - 1) * (e "diameter" * Rpower num_blades (1/2)));
     ("component_weight", "diameter", fun e => ex * k * Rpower (arg e) (ex - 1) * (e "power_rating" * Rpower num_blades (1/2)))]
|}.

(** propeller.py:61-68: which maps are used.  The first [if] is not connected to
    the [else]. *)
Inductive prop_map := Raymer | HighPower.
Definition propeller_setup (n_blades : nat) : res prop_map :=
  let propmap := if Nat.eqb n_blades 3 then Some Raymer else None in
  if Nat.eqb n_blades 4 then Ok HighPower else Err NotImplementedError.

(** propeller.py:69-79: the group, run in order.  [eta_map cp J] and [static_map
    cp] are the surrogates. *)
Definition run_propeller (eta_map : R -> R -> R) (static_map : R -> R) (E : env) : env :=
  let E1 := run_comp PropCoefficients E in
  let E2 := put E1 "eta_prop" (fun i => eta_map (E1 "cp" i) (E1 "J" i)) in
  let E3 := put E2 "ct_over_cp" (fun i => static_map (E2 "cp" i)) in
  run_comp ThrustCalc E3.

(** ** rubberized_turbofan.py *)
Inductive engine := N3 | CFM56.
(** rubberized_turbofan.py:76-82 *)
Definition orig_rating (e : engine) : R := match e with N3 => 28620 | CFM56 => 27300 end.
(** rubberized_turbofan.py:71-73 *)
Definition lhv_scale (hydrogen : bool) : R := if hydrogen then 43 / 120 else 1.
(** rubberized_turbofan.py:115-128 *)
Definition scale_thrust (nn : nat) : mul_sys :=
  {| ms_out := "thrust"; ms_ins := ["unit_thrust"; "rating_thrust"; "orig_rating_thrust"]; ms_vec := VList [nn; 1; 1]%nat; ms_len := 1;
     ms_sf := 1; ms_div := Some [false; false; true];
     ms_units := Some [Some [TUnit "lbf"]; Some [TUnit "lbf"]; Some [TUnit "lbf"]] |}.
Definition scale_fuel (nn : nat) (hydrogen : bool) : mul_sys :=
  {| ms_out := "fuel_flow"; ms_ins := ["unit_fuel_flow"; "rating_fuel_flow"; "orig_rating_fuel_flow"]; ms_vec := VList [nn; 1; 1]%nat; ms_len := 1;
     ms_sf := lhv_scale hydrogen; ms_div := Some [false; false; true];
     ms_units := Some [Some [TUnit "lbm"; TDiv; TUnit "s"]; Some [TUnit "lbf"]; Some [TUnit "lbf"]] |}.
(** rubberized_turbofan.py:105-131: what the scaling component sees: the deck's
    outputs, the promoted rating, and the default of the unconnected input.
    (Names are this module's.) *)
Definition scale_inputs (eng : engine) (deck_thrust deck_fuel : nat -> R) (rating : R) : env := fun x i =>
  if String.eqb x "unit_thrust" then deck_thrust i
  else if String.eqb x "unit_fuel_flow" then deck_fuel i
  else if String.eqb x "rating_thrust" then rating
  else if String.eqb x "rating_fuel_flow" then rating
  else orig_rating eng.
Definition turbofan_thrust (eng : engine) (nn : nat) (deck_thrust deck_fuel : nat -> R) (rating : R) (i : nat) : res R :=
  mul_compute (scale_thrust nn) (scale_inputs eng deck_thrust deck_fuel rating) i.
Definition turbofan_fuel (eng : engine) (hydrogen : bool) (nn : nat) (deck_thrust deck_fuel : nat -> R) (rating : R) (i : nat) : res R :=
  mul_compute (scale_fuel nn hydrogen) (scale_inputs eng deck_thrust deck_fuel rating) i.

(** ** battery.py *)
(** battery.py:165-203 *)
Definition SimpleBattery (eta p_b c_inc c_base : R) : pcomp := {|
  pc_ins := [("battery_weight", Sca); ("elec_load", Vec); ("specific_energy", Sca)];
  pc_outs :=
    [("heat_out", (Vec, fun e => e "elec_load" * (1 - eta)));
     ("component_cost", (Sca, fun e => e "battery_weight" * c_inc + c_base));
     ("component_sizing_margin", (Vec, fun e => e "elec_load" / (p_b * e "battery_weight")));
     ("max_energy", (Sca, fun e => e "battery_weight" * e "specific_energy"))];
  pc_J :=
    [("heat_out", "elec_load", fun _ => (1 - eta) * 1);
     ("component_cost", "battery_weight", fun _ => c_inc);
     ("component_sizing_margin", "elec_load", fun e => 1 / (p_b * e "battery_weight"));
     ("component_sizing_margin", "battery_weight", fun e => - (e "elec_load" / (p_b * e "battery_weight" ^ 2)));
     ("max_energy", "battery_weight", fun e => e "specific_energy");
     ("max_energy", "specific_energy", fun e => e "battery_weight")]
|}.
(** battery.py:84-96 *)
Definition soc_divider (nn : nat) : mul_sys :=
  {| ms_out := "dSOCdt"; ms_ins := ["elec_load"; "max_energy"]; ms_vec := VList [nn; 1]%nat; ms_len := 1;
     ms_sf := - (1); ms_div := Some [false; true];
     ms_units := Some [Some [TUnit "W"]; Some [TUnit "kJ"]] |}.
(** OpenMDAO unit conversions on the promoted connections: W*h -> kJ and
    W/kJ -> 1/s. *)
Definition Wh_to_kJ : R := 36/10.
Definition W_per_kJ_to_per_s : R := 1/1000.
(** battery.py:59-112: state of charge at node [i]; [tri] is the Simpson matrix. *)
Definition soc (nn : nat) (tri : mat) (eta p_b c_inc c_base : R) (duration soc0 : R) (E : env) (i : nat) : res R :=
  let E1 := run_comp (SimpleBattery eta p_b c_inc c_base) E in
  let E2 := put E1 "max_energy" (fun j => Wh_to_kJ * E1 "max_energy" j) in
  res_bind (mul_compute (soc_divider nn) E2 0) (fun _ =>
    Ok (integ_q nn tri (TDuration duration) false soc0
          (fun j => W_per_kJ_to_per_s * match mul_compute (soc_divider nn) E2 j with Ok r => r | Err _ => 0 end) i)).
