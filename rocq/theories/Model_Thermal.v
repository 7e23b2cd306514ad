(** Model of openconcept/thermal: thermal.py, hose.py, pump.py, manifold.py,
    chiller.py, motor_cooling.py and battery_cooling.py.  Simplifications: exact
    reals; initial guesses and [lower=] bounds of outputs (hints to OpenMDAO's
    solvers) are left out; partials declared with [method="cs"] are the exact
    derivative of the modelled expression (complex step is exact up to rounding). *)
From Coq Require Import Reals List Bool PeanoNat String.
From Verif Require Import Base Py RSum Model_Integrals Model_Vectors Model_Net.
Import ListNotations.
Open Scope R_scope.
Open Scope string_scope.

(** [declare_partials(..., method="cs")]: the derivative of the output's expression. *)
Definition cs (f : nenv -> R) (x : string) : nenv -> R := fun e => Derive (fun t => f (upd e x t)) (e x).
Definition cs_partials (ins : list (string * kind)) (outs : list (string * (kind * (nenv -> R)))) :
    list (string * string * (nenv -> R)) :=
  flat_map (fun o => map (fun x => (fst o, fst x, cs (snd (snd o)) (fst x))) ins) outs.

(** ** thermal.py *)
(** thermal.py:38-70 *)
Definition PerfectHeatTransferComp (c : R) : pcomp :=
  let T e : R := e "T_in" in let q e : R := e "q" in let m e : R := e "mdot_coolant" in
  let out e := T e + q e / c / m e in
  let Jq e := 1 / c / m e in let Jm e := - q e / c / m e ^ 2 in {|
  pc_ins := [("T_in", Vec); ("q", Vec); ("mdot_coolant", Vec)];
  pc_outs := [("T_out", (Vec, out)); ("T_average", (Vec, fun e => (T e + out e) / 2))];
  pc_J :=
    [("T_out", "T_in", fun _ => 1); ("T_average", "T_in", fun _ => 1);
     ("T_out", "q", Jq); ("T_out", "mdot_coolant", Jm);
     ("T_average", "q", fun e => Jq e / 2); ("T_average", "mdot_coolant", fun e => Jm e / 2)]
|}.

(** thermal.py:98-124 *)
Definition ThermalComponentWithMass (c : R) : pcomp :=
  let qi e : R := e "q_in" in let qo e : R := e "q_out" in let m e : R := e "mass" in {|
  pc_ins := [("q_in", Vec); ("q_out", Vec); ("mass", Sca)];
  pc_outs := [("dTdt", (Vec, fun e => (qi e - qo e) / m e / c))];
  pc_J :=
    [("dTdt", "mass", fun e => - (qi e - qo e) / m e ^ 2 / c);
     ("dTdt", "q_in", fun e => 1 / m e / c);
     ("dTdt", "q_out", fun e => - (1) / m e / c)]
|}.

(** thermal.py:149-161: residual of T_object and its declared partials. *)
Definition massless_residual : pcomp := {|
  pc_ins := [("q_in", Vec); ("q_out", Vec); ("T_object", Vec)];
  pc_outs := [("T_object", (Vec, fun e => e "q_in" - e "q_out"))];
  pc_J := [("T_object", "q_in", fun _ => 1); ("T_object", "q_out", fun _ => - (1))]
|}.
(** ThermalComponentMassless as an implicit component: converged means zero residual. *)
Definition ThermalComponentMassless (nn : nat) (name : string) (pin pout : list promo) : gsub := {|
  gs_name := name; gs_ins := ["q_in"; "q_out"]; gs_outs := ["T_object"];
  gs_rel := fun I O => forall i, (i < nn)%nat ->
    vcompute massless_residual (fun x => if String.eqb x "T_object" then O x else I x) "T_object" i = 0;
  gs_pin := pin; gs_pout := pout |}.

(** thermal.py:238-256: product of conductance, [surface_area * h]. *)
Definition plate_UA (k Nu w h l n : R) : R :=
  2 * (w * l + h * l) * n * (Nu * k / (2 * w * h / (w + h))).
(** thermal.py:207-258 *)
Definition ColdPlate (k Nu c : R) : pcomp :=
  let Cmin e : R := e "mdot_coolant" * c in
  let ntu e : R := plate_UA k Nu (e "channel_width") (e "channel_height") (e "channel_length") (e "n_parallel") / Cmin e in
  let q e : R := (1 - exp (- ntu e)) * Cmin e * (e "T_surface" - e "T_in") in
  let ins := [("T_in", Vec); ("T_surface", Vec); ("channel_width", Sca); ("channel_height", Sca);
              ("channel_length", Sca); ("n_parallel", Sca); ("mdot_coolant", Vec)] in
  let outs := [("q", (Vec, q)); ("T_out", (Vec, fun e : nenv => e "T_in" + q e / e "mdot_coolant" / c))] in
  {| pc_ins := ins; pc_outs := outs; pc_J := cs_partials ins outs |}.
(** thermal.py:210-211: default options. *)
Definition default_k : R := 405/1000.
Definition default_Nu : R := 754/100.

(** The integrators of these groups: [Integrator(num_nodes=nn, method="simpson",
    time_setup="duration")] with one integrand, see Model_Integrals. *)
Definition integrator (nn : nat) (tri : mat) (name q rate start final : string) (pin pout : list promo) : gsub := {|
  gs_name := name; gs_ins := ["duration"; start; rate]; gs_outs := [q; final];
  gs_rel := fun I O =>
    (forall i, (i < nn)%nat -> O q i = integ_q nn tri (TDuration (I "duration" 0%nat)) false (I start 0%nat) (I rate) i) /\
    O final 0%nat = integ_q_final nn tri (TDuration (I "duration" 0%nat)) false (I start 0%nat) (I rate);
  gs_pin := pin; gs_pout := pout |}.
(** OpenMDAO's BalanceComp(out, lhs_name=lhs, rhs_val=0): out is the unknown,
    converged means lhs = 0. *)
Definition balance (nn : nat) (name out lhs : string) (pin pout : list promo) : gsub := {|
  gs_name := name; gs_ins := [lhs]; gs_outs := [out];
  gs_rel := fun I O => forall i, (i < nn)%nat -> I lhs i = 0;
  gs_pin := pin; gs_pout := pout |}.

(** thermal.py:311-346; [c_obj], [c_cool] the specific heats. *)
Definition LiquidCooledComp (nn : nat) (tri : mat) (quasi : bool) (c_obj c_cool : R) : group := {|
  g_subs :=
    (if quasi then [ThermalComponentMassless nn "base" [P "q_in"] [As "T_object" "T"]]
     else [comp nn "base" (ThermalComponentWithMass c_obj) [P "q_in"; P "mass"] [];
           integrator nn tri "ode_integ" "T" "dTdt" "T_initial" "T_final" [P "*"] [P "*"]]) ++
    [comp nn "hex" (ColdPlate default_k default_Nu c_cool)
       [P "T_in"; As "T_surface" "T"; P "n_parallel"; P "channel*"; P "mdot_coolant"] [P "T_out"]];
  g_conns := (if quasi then [] else [("base.dTdt", "dTdt")]) ++ [("hex.q", "base.q_out")]
|}.

(** thermal.py:436-453 *)
Definition CoolantReservoirRate : pcomp :=
  let Ti e : R := e "T_in" in let T e : R := e "T_out" in let M e : R := e "mass" in let m e : R := e "mdot_coolant" in {|
  pc_ins := [("T_in", Vec); ("T_out", Vec); ("mass", Sca); ("mdot_coolant", Vec)];
  pc_outs := [("dTdt", (Vec, fun e => m e / M e * (Ti e - T e)))];
  pc_J :=
    [("dTdt", "mass", fun e => - m e / M e ^ 2 * (Ti e - T e));
     ("dTdt", "mdot_coolant", fun e => (Ti e - T e) / M e);
     ("dTdt", "T_in", fun e => m e / M e);
     ("dTdt", "T_out", fun e => - m e / M e)]
|}.
(** thermal.py:381-398 *)
Definition CoolantReservoir (nn : nat) (tri : mat) : group := {|
  g_subs := [comp nn "rate" CoolantReservoirRate [P "T_in"; P "T_out"; P "mass"; P "mdot_coolant"] [];
             integrator nn tri "ode_integ" "T_out" "dTdt" "T_initial" "T_final" [P "*"] [P "*"]];
  g_conns := [("rate.dTdt", "dTdt")]
|}.

(** ** hose.py *)
(** hose.py:69-77; [Redh ** (-1/4)] for positive Redh. *)
Definition hose_dp (d L mu mdot rho : R) : R :=
  let xs := PI * (d / 2) ^ 2 in
  let U := mdot / rho / xs in
  let Re := rho * U * d / mu in
  let f := 3164/10000 * Rpower Re (- (1) / 4) in
  f * rho * U ^ 2 * L / 2 / d.
(** hose.py:79-125.  The pressure drop's partials are computed by perturbing all
    entries of an input at once; its expression works entry by entry, so this is
    the derivative by the entry itself. *)
Definition SimpleHose (sigma rho_hose : R) : pcomp :=
  let d e : R := e "hose_diameter" in let L e : R := e "hose_length" in let p e : R := e "hose_design_pressure" in
  let rho e : R := e "rho_coolant" in
  let dp e : R := hose_dp (d e) (L e) (e "mu_coolant") (e "mdot_coolant") (rho e) in
  let t e := d e * p e / 2 / sigma in
  let t_d e := p e / 2 / sigma in let t_p e := d e / 2 / sigma in
  let w e := (d e + t e) * PI * t e * rho_hose * L e + (d e / 2) ^ 2 * PI * rho e * L e in {|
  pc_ins := [("hose_diameter", Sca); ("hose_length", Sca); ("hose_design_pressure", Sca);
             ("mdot_coolant", Vec); ("rho_coolant", Vec); ("mu_coolant", Sca)];
  pc_outs := [("delta_p", (Vec, dp)); ("component_weight", (Sca, w))];
  pc_J :=
    [("component_weight", "rho_coolant", fun e => (d e / 2) ^ 2 * PI * L e);
     ("component_weight", "hose_design_pressure", fun e =>
        (d e + t e) * PI * t_p e * rho_hose * L e + PI * t e * rho_hose * L e * t_p e);
     ("component_weight", "hose_length", fun e => (d e + t e) * PI * t e * rho_hose + (d e / 2) ^ 2 * PI * rho e);
     ("component_weight", "hose_diameter", fun e =>
        (d e + t e) * PI * t_d e * rho_hose * L e + (1 + t_d e) * PI * t e * rho_hose * L e + d e / 2 * PI * rho e * L e);
     ("delta_p", "rho_coolant", cs dp "rho_coolant");
     ("delta_p", "mdot_coolant", cs dp "mdot_coolant");
     ("delta_p", "hose_diameter", cs dp "hose_diameter");
     ("delta_p", "hose_length", cs dp "hose_length");
     ("delta_p", "mu_coolant", cs dp "mu_coolant")]
|}.

(** ** pump.py *)
(** pump.py:49-94 *)
Definition SimplePump (eta base inc : R) : pcomp :=
  let P e : R := e "power_rating" in let m e : R := e "mdot_coolant" in
  let dp e : R := e "delta_p" in let rho e : R := e "rho_coolant" in
  let load e := m e / rho e * dp e / eta in
  let Jm e := dp e / rho e / eta in let Jd e := m e / rho e / eta in let Jr e := - m e * dp e / rho e ^ 2 / eta in {|
  pc_ins := [("power_rating", Sca); ("mdot_coolant", Vec); ("delta_p", Vec); ("rho_coolant", Vec)];
  pc_outs := [("elec_load", (Vec, load)); ("component_weight", (Sca, fun e => base + inc * P e));
              ("component_sizing_margin", (Vec, fun e => load e / P e))];
  pc_J :=
    [("component_weight", "power_rating", fun _ => inc);
     ("elec_load", "mdot_coolant", Jm); ("elec_load", "delta_p", Jd); ("elec_load", "rho_coolant", Jr);
     ("component_sizing_margin", "mdot_coolant", fun e => Jm e / P e);
     ("component_sizing_margin", "delta_p", fun e => Jd e / P e);
     ("component_sizing_margin", "rho_coolant", fun e => Jr e / P e);
     ("component_sizing_margin", "power_rating", fun e => - m e * dp e / rho e / eta / P e ^ 2)]
|}.

(** ** manifold.py *)
(** manifold.py:36-63, without the range check. *)
Definition FlowSplit : pcomp :=
  let m e : R := e "mdot_in" in let f e : R := e "mdot_split_fraction" in {|
  pc_ins := [("mdot_in", Vec); ("mdot_split_fraction", Vec)];
  pc_outs := [("mdot_out_A", (Vec, fun e => m e * f e)); ("mdot_out_B", (Vec, fun e => m e * (1 - f e)))];
  pc_J :=
    [("mdot_out_A", "mdot_in", f); ("mdot_out_A", "mdot_split_fraction", m);
     ("mdot_out_B", "mdot_in", fun e => 1 - f e); ("mdot_out_B", "mdot_split_fraction", fun e => - m e)]
|}.
(** manifold.py:50-56: compute with the check over all [nn] entries. *)
Definition anyb (nn : nat) (p : nat -> bool) : bool := existsb p (seq 0 nn).
Definition flow_split (nn : nat) (E : env) : res (nat -> R * R) :=
  if anyb nn (fun i => if Rlt_dec (E "mdot_split_fraction" i) 0 then true else false) ||
     anyb nn (fun i => if Rlt_dec 1 (E "mdot_split_fraction" i) then true else false)
  then Err RuntimeWarning
  else Ok (fun i => (vcompute FlowSplit E "mdot_out_A" i, vcompute FlowSplit E "mdot_out_B" i)).
(** manifold.py:97-133 *)
Definition FlowCombine : pcomp :=
  let A e : R := e "mdot_in_A" in let B e : R := e "mdot_in_B" in
  let TA e : R := e "T_in_A" in let TB e : R := e "T_in_B" in let m e := A e + B e in {|
  pc_ins := [("mdot_in_A", Vec); ("mdot_in_B", Vec); ("T_in_A", Vec); ("T_in_B", Vec)];
  pc_outs := [("mdot_out", (Vec, fun e => A e + B e));
              ("T_out", (Vec, fun e => (A e * TA e + B e * TB e) / (A e + B e)))];
  pc_J :=
    [("mdot_out", "mdot_in_A", fun _ => 1); ("mdot_out", "mdot_in_B", fun _ => 1);
     ("T_out", "mdot_in_A", fun e => (m e * TA e - A e * TA e - B e * TB e) / m e ^ 2);
     ("T_out", "mdot_in_B", fun e => (m e * TB e - A e * TA e - B e * TB e) / m e ^ 2);
     ("T_out", "T_in_A", fun e => A e / m e); ("T_out", "T_in_B", fun e => B e / m e)]
|}.

(** ** chiller.py *)
(** chiller.py:46-93 *)
Definition LinearSelector : pcomp :=
  let b e : R := e "bypass" in let Th e : R := e "T_in_hot" in let Tc e : R := e "T_in_cold" in
  let Rc e : R := e "T_out_refrig_cold" in let Rh e : R := e "T_out_refrig_hot" in let P e : R := e "power_rating" in {|
  pc_ins := [("T_in_cold", Vec); ("T_in_hot", Vec); ("T_out_refrig_cold", Vec); ("T_out_refrig_hot", Vec);
             ("power_rating", Sca); ("bypass", Vec)];
  pc_outs := [("elec_load", (Vec, fun e => (1 - b e) * P e / (95/100)));
              ("T_out_cold", (Vec, fun e => b e * Th e + (1 - b e) * Rc e));
              ("T_out_hot", (Vec, fun e => b e * Tc e + (1 - b e) * Rh e))];
  pc_J :=
    [("T_out_cold", "bypass", fun e => Th e - Rc e); ("T_out_cold", "T_in_hot", b);
     ("T_out_cold", "T_out_refrig_cold", fun e => 1 - b e);
     ("T_out_hot", "bypass", fun e => Tc e - Rh e); ("T_out_hot", "T_in_cold", b);
     ("T_out_hot", "T_out_refrig_hot", fun e => 1 - b e);
     ("elec_load", "bypass", fun e => - P e / (95/100)); ("elec_load", "power_rating", fun e => (1 - b e) / (95/100))]
|}.
(** chiller.py:117-142 *)
Definition COPHeatPump : pcomp := {|
  pc_ins := [("COP", Vec); ("power_rating", Sca)];
  pc_outs := [("q_in_1", (Vec, fun e => - e "COP" * e "power_rating"));
              ("q_in_2", (Vec, fun e => (e "COP" + 1) * e "power_rating"))];
  pc_J :=
    [("q_in_1", "COP", fun e => - e "power_rating"); ("q_in_1", "power_rating", fun e => - e "COP");
     ("q_in_2", "COP", fun e => e "power_rating"); ("q_in_2", "power_rating", fun e => e "COP" + 1)]
|}.
(** chiller.py:163-174 *)
Definition HeatPumpWeight : pcomp := {|
  pc_ins := [("power_rating", Sca); ("specific_power", Sca)];
  pc_outs := [("component_weight", (Sca, fun e => e "power_rating" / e "specific_power"))];
  pc_J :=
    [("component_weight", "power_rating", fun e => 1 / e "specific_power");
     ("component_weight", "specific_power", fun e => - e "power_rating" / e "specific_power" ^ 2)]
|}.
(** chiller.py:332-339.  [COP_raw = T_c / delta_T]: for delta_T = 0 numpy gives
    inf (or nan) and the result is nan; [cop] is [None] there. *)
Definition cop_a (Tc Th eff : R) : R :=
  let dT := Th - Tc in Tc / dT * tanh dT * eff + (1 + tanh (- (dT + 3))) / 2 * 10.
Definition soft10 (a : R) : R :=
  (a * exp (- (15/10) * a) + 10 * exp (- (15/10) * 10)) / (exp (- (15/10) * a) + exp (- (15/10) * 10)).
Definition cop (Tc Th eff : R) : option R :=
  if Req_EM_T (Th - Tc) 0 then None else Some (soft10 (cop_a Tc Th eff)).
(** chiller.py:318-339; at T_h = T_c the value below is arbitrary (see [cop]). *)
Definition COPExplicit : pcomp :=
  let ins := [("T_c", Vec); ("T_h", Vec); ("eff_factor", Sca)] in
  let outs := [("COP", (Vec, fun e : nenv => soft10 (cop_a (e "T_c") (e "T_h") (e "eff_factor"))))] in
  {| pc_ins := ins; pc_outs := outs; pc_J := cs_partials ins outs |}.
(** The same with the undefined case: no value satisfies it where numpy gives nan. *)
Definition cop_sub (nn : nat) (name : string) (pin pout : list promo) : gsub := {|
  gs_name := name; gs_ins := map fst (pc_ins COPExplicit); gs_outs := map fst (pc_outs COPExplicit);
  gs_rel := fun I O => forall i, (i < nn)%nat -> Some (O "COP" i) = cop (I "T_c" i) (I "T_h" i) (I "eff_factor" 0%nat);
  gs_pin := pin; gs_pout := pout |}.
(** Independent variables of a group ([IndepVarComp]): outputs without inputs. *)
Definition indep (name : string) (outs : list string) (pout : list promo) : gsub := {|
  gs_name := name; gs_ins := []; gs_outs := outs; gs_rel := fun _ _ => True; gs_pin := []; gs_pout := pout |}.
(** linearinterp.py:30-45 as a subsystem. *)
Definition linear_interp (nn : nat) (name : string) (pin pout : list promo) : gsub := {|
  gs_name := name; gs_ins := ["start_val"; "end_val"]; gs_outs := ["vec"];
  gs_rel := fun I O => forall i, (i < nn)%nat -> O "vec" i = lin_compute nn (I "start_val" 0%nat) (I "end_val" 0%nat) i;
  gs_pin := pin; gs_pout := pout |}.
(** chiller.py:240-290 *)
Definition HeatPump (nn : nat) (nonlinear : bool) (c : R) : group := {|
  g_subs :=
    (if nonlinear then [] else
       [indep "control" ["bypass_start"; "bypass_end"] []; linear_interp nn "li" [] [As "vec" "bypass"]]) ++
    [comp nn "weightpower" HeatPumpWeight [P "power_rating"; P "specific_power"] [P "component_weight"];
     comp nn "hot_side" (PerfectHeatTransferComp c) [As "T_in" "T_in_hot"; P "mdot_coolant"] [];
     comp nn "cold_side" (PerfectHeatTransferComp c) [As "T_in" "T_in_cold"; P "mdot_coolant"] [];
     cop_sub nn "copmatch" [P "eff_factor"] [P "COP"];
     comp nn "heat_pump" COPHeatPump [P "power_rating"; P "COP"] [];
     comp nn "bypass_comp" LinearSelector [P "T_in_cold"; P "T_in_hot"; P "power_rating"; P "bypass"]
       [P "T_out_cold"; P "T_out_hot"; P "elec_load"]];
  g_conns :=
    (if nonlinear then [] else [("control.bypass_start", "li.start_val"); ("control.bypass_end", "li.end_val")]) ++
    [("hot_side.T_out", "copmatch.T_h"); ("cold_side.T_out", "copmatch.T_c");
     ("heat_pump.q_in_1", "cold_side.q"); ("heat_pump.q_in_2", "hot_side.q");
     ("hot_side.T_out", "bypass_comp.T_out_refrig_hot"); ("cold_side.T_out", "bypass_comp.T_out_refrig_cold")]
|}.

(** ** motor_cooling.py *)
(** motor_cooling.py:183-265; [c] coolant and [cm] motor specific heat, [const]
    the quotient of the two case coefficients. *)
Definition MotorCoolingJacket (c cm const : R) : pcomp :=
  let qi e : R := e "q_in" in let Ti e : R := e "T_in" in let T e : R := e "T" in
  let m e : R := e "mdot_coolant" in let P e : R := e "power_rating" in let W e : R := e "motor_weight" in
  let NTU e := const * P e / m e / c in
  let eff e := 1 - exp (- NTU e) in
  let q e := (T e - Ti e) * eff e * m e * c in
  let NTU_P e := const / m e / c in let NTU_m e := - const * P e / m e ^ 2 / c in
  let eff_P e := exp (- NTU e) * NTU_P e in let eff_m e := exp (- NTU e) * NTU_m e in
  let q_T e := eff e * m e * c in let q_Ti e := - eff e * m e * c in
  let q_P e := (T e - Ti e) * eff_P e * m e * c in
  let q_m e := (T e - Ti e) * c * (eff e + eff_m e * m e) in {|
  pc_ins := [("q_in", Vec); ("T_in", Vec); ("T", Vec); ("mdot_coolant", Vec); ("power_rating", Sca); ("motor_weight", Sca)];
  pc_outs := [("q", (Vec, q)); ("T_out", (Vec, fun e => Ti e + q e / m e / c)); ("dTdt", (Vec, fun e => (qi e - q e) / W e / cm))];
  pc_J :=
    [("q", "T", q_T); ("q", "T_in", q_Ti); ("q", "power_rating", q_P); ("q", "mdot_coolant", q_m);
     ("T_out", "T", fun e => q_T e / m e / c); ("T_out", "T_in", fun e => 1 + q_Ti e / m e / c);
     ("T_out", "power_rating", fun e => q_P e / m e / c);
     ("T_out", "mdot_coolant", fun e => (q_m e * m e - q e) / c / m e ^ 2);
     ("dTdt", "q_in", fun e => 1 / W e / cm); ("dTdt", "T", fun e => - q_T e / W e / cm);
     ("dTdt", "T_in", fun e => - q_Ti e / W e / cm); ("dTdt", "power_rating", fun e => - q_P e / W e / cm);
     ("dTdt", "mdot_coolant", fun e => - q_m e / W e / cm);
     ("dTdt", "motor_weight", fun e => - (qi e - q e) / W e ^ 2 / cm)]
|}.
(** motor_cooling.py:55-90 *)
Definition LiquidCooledMotor (nn : nat) (tri : mat) (quasi : bool) (c cm const : R) : group := {|
  g_subs :=
    [comp nn "hex" (MotorCoolingJacket c cm const)
       [P "q_in"; P "T_in"; P "T"; P "power_rating"; P "mdot_coolant"; P "motor_weight"] [P "T_out"; P "dTdt"];
     if quasi then balance nn "thermal_bal" "T" "dTdt" [P "dTdt"] [P "T"]
     else integrator nn tri "ode_integ" "T" "dTdt" "T_initial" "T_final" [P "*"] [P "*"]];
  g_conns := []
|}.

(** ** battery_cooling.py *)
(** battery_cooling.py:198-211: options of the battery. *)
Record cell_opts := {
  cpf : R; fk : R; nus : R; krc : R; Dc : R; Hc : R; mc : R; cpc : R; wfrac : R }.
(** battery_cooling.py:198-211, the defaults *)
Definition default_cell : cell_opts :=
  {| cpf := 3801; fk := 405/1000; nus := 754/100; krc := 3/10; Dc := 21/1000; Hc := 70/1000; mc := 70/1000;
     cpc := 875; wfrac := 65/100 |}.
(** battery_cooling.py:247: number of cells *)
Definition n_cells (o : cell_opts) (W : R) : R := W * wfrac o / mc o.
(** battery_cooling.py:248-269: conductance from one cell's surface to the inlet flow. *)
Definition k_cell (o : cell_opts) (W n_cpb t mdot : R) : R :=
  let n_band := n_cells o W / n_cpb / 2 in
  let mdot_b := mdot / n_band in
  let hconv := nus o * fk o / 2 / t in
  let A := Hc o * (n_cpb * Dc o) * 2 in
  let NTU := hconv * A / mdot_b / cpf o in
  mdot_b * cpf o * (1 - exp (- NTU)) / 2 / n_cpb.
(** battery_cooling.py:274: conduction from a cell's mean to its surface temperature *)
Definition k_cyl (o : cell_opts) : R := 8 * PI * Hc o * krc o.
(** battery_cooling.py:217-297 *)
Definition Bandolier (o : cell_opts) : pcomp :=
  let Ti e : R := e "T_in" in let T e : R := e "T_battery" in let m e : R := e "mdot_coolant" in
  let N e := n_cells o (e "battery_weight") in
  let K e : R := k_cell o (e "battery_weight") (e "n_cpb") (e "t_channel") (m e) in
  let Ts e := (k_cyl o * T e + K e * Ti e) / (k_cyl o + K e) in
  let q e := (Ts e - Ti e) * K e * N e in
  let ins := [("q_in", Vec); ("T_in", Vec); ("T_battery", Vec); ("mdot_coolant", Vec);
              ("battery_weight", Sca); ("n_cpb", Sca); ("t_channel", Sca)] in
  let outs := [("dTdt", (Vec, fun e : nenv => (e "q_in" / N e - (Ts e - Ti e) * K e) / mc o / cpc o));
               ("T_surface", (Vec, Ts)); ("T_core", (Vec, fun e => (T e - Ts e) + T e)); ("q", (Vec, q));
               ("T_out", (Vec, fun e => Ti e + q e / m e / cpf o))] in
  {| pc_ins := ins; pc_outs := outs; pc_J := cs_partials ins outs |}.
(** battery_cooling.py:84-130 *)
Definition LiquidCooledBattery (nn : nat) (tri : mat) (quasi : bool) (o : cell_opts) : group := {|
  g_subs :=
    [comp nn "hex" (Bandolier o)
       [P "q_in"; P "mdot_coolant"; P "T_in"; As "T_battery" "T"; P "battery_weight"; P "n_cpb"; P "t_channel"]
       [P "T_core"; P "T_surface"; P "T_out"; P "dTdt"];
     if quasi then balance nn "thermal_bal" "T" "dTdt" [P "dTdt"] [P "T"]
     else integrator nn tri "ode_integ" "T" "dTdt" "T_initial" "T_final" [P "*"] [P "*"]];
  g_conns := []
|}.
