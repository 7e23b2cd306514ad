(** Specification vocabulary for the hybrid single-aisle airliner. *)
From Coq Require Import Reals List Bool PeanoNat String.
From Verif Require Import Base Model_Mission Model_Flight Spec_HX Spec_Flight Model_Fleet Spec_Fleet Model_SingleAisle.
Import ListNotations.
Open Scope R_scope.
Open Scope string_scope.
Open Scope list_scope.

(** A control that runs linearly over the [n] nodes of a phase. *)
Definition ramp (n : nat) (a b : R) (i : nat) : R := a + (b - a) * (INR i / INR (n - 1)).
(** What the hybrid motor of one engine draws: a share of its rating that runs linearly over the phase. *)
Definition motor_draw (n : nat) (W : env) (i : nat) : R :=
  ramp n (W "hybrid_throttle_start" 0%nat) (W "hybrid_throttle_end" 0%nat) i * W "ac|propulsion|motor|rating" 0%nat.
(** What a pump of efficiency 35 % draws to raise a flow of coolant by a pressure. *)
Definition pump_draw (mdot rho dp : R) : R := mdot * dp / rho / (35/100).
(** The energy the full battery of one side holds. *)
Definition side_capacity (W : env) : R := W "ac|propulsion|battery|weight" 0%nat * W "battery.specific_energy" 0%nat.
(** What has flowed by node [i] of a phase, at the rate [f]. *)
Definition flowed (n : nat) (W : env) (f : nat -> R) (i : nat) : R := W "duration" 0%nat / INR (n - 1) * area f i.
Definition aisle_book : fuel_book :=
  {| fb_mass := "ac|design_mission|TOW"; fb_flow := "fuel_flow"; fb_used := "fuel_used"; fb_start := "fuel_used_initial"; fb_end := "fuel_used_final" |}.
(** The parts of one side that are added to the empty weight. *)
Definition side_parts : list string :=
  ["hybrid_motor"; "motor_hose"; "motor_coolant_pump"; "hx_motor"; "hx_fault_prot"; "refrig"; "battery_hose"; "battery_coolant_pump"; "hx_battery"].
Definition parts_weight (W : env) : R := fold_right (fun x t => W (String.append x ".component_weight") 0%nat + t) 0 side_parts.

(** In a phase [p] with values [W] at [n] nodes: thrust and fuel flow are those of two engines, each helped
    by its motor; the drag is that of the polar less the net thrust of the four cooling ducts; the battery of a side
    feeds the motor, its fault protection, the refrigerator and the pumps; both sides' parts count in the empty weight. *)
Record single_aisle_accounts (H : hybrid_deck) (n : nat) (p : string) (W : env) : Prop := {
  sa_engines : forall i, (i < n)%nat -> let at_ f := f (W "throttle" i) (W "fltcond|h" i) (W "fltcond|M" i) (95/100 * motor_draw n W i) in
    W "thrust" i = 2 * at_ (hk_thrust H) /\ W "fuel_flow" i = 2 * at_ (hk_fuel H);
  sa_drag : forall i, (i < n)%nat ->
    W "drag" i = phase_drag p W i - 2 * (W "motor_duct.force.F_net" i + W "variable_duct.force.F_net" i);
  sa_load : forall i, (i < n)%nat ->
    W "elec_load" i = motor_draw n W i + 5/1000 * motor_draw n W i + W "refrig.elec_load" i
      + pump_draw (W "mdot_coolant_motor" i) (W "rho_coolant" i) (W "motor_hose.delta_p" i - W "hx_motor.delta_p_hot" i)
      + pump_draw (W "mdot_coolant_battery" i) (W "rho_coolant" i) (W "battery_hose.delta_p" i - W "hx_battery.delta_p_hot" i);
  sa_charge : side_capacity W <> 0 -> forall i, (i < n)%nat ->
    side_capacity W * W "battery.SOC" i = side_capacity W * W "battery.SOC_initial" 0%nat - flowed n W (W "elec_load") i;
  sa_charge_end : W "battery.SOC_final" 0%nat = W "battery.SOC" (n - 1)%nat;
  sa_temperatures : forall s, In s ["motorheatsink"; "batteryheatsink"] ->
    W (String.append s ".T") 0%nat = W (String.append s ".T_initial") 0%nat /\ W (String.append s ".T_final") 0%nat = W (String.append s ".T") (n - 1)%nat;
  sa_OEW : W "OEW" 0%nat = W "ac|weights|OEW" 0%nat + 2 * parts_weight W;
  sa_motor_weight : W "hybrid_motor.component_weight" 0%nat = W "ac|propulsion|motor|rating" 0%nat / 5000;
  sa_margin : W "margin" 0%nat = W "ac|design_mission|TOW" 0%nat - W "OEW" 0%nat - W "fuel_used" (n - 1)%nat - 2 * W "ac|propulsion|battery|weight" 0%nat }.

(** Where a user finds the variables of the three heat exchangers: the air is that of a duct, behind the
    exchanger of the fault protection for that of the motor; the coolant is that of a loop. *)
Definition renamed (l : list (string * string)) (own x : string) : string :=
  match assoc x l with Some y => y | None => String.append own x end.
Definition fins (wide long tall : string) : list (string * string) :=
  [("ac|propulsion|thermal|hx|n_wide_cold", String.append (String.append "ac|propulsion|thermal|" wide) "|n_wide_cold");
   ("ac|propulsion|thermal|hx|n_long_cold", String.append (String.append "ac|propulsion|thermal|" long) "|n_long_cold");
   ("ac|propulsion|thermal|hx|n_tall", String.append (String.append "ac|propulsion|thermal|" tall) "|n_tall")].
Definition hx_motor_at : string -> string :=
  renamed ([("mdot_cold", "motor_duct.mdot"); ("rho_cold", "motor_duct.sta2.rho"); ("T_in_cold", "hx_fault_prot.T_out_cold");
    ("mdot_hot", "mdot_coolant_motor"); ("rho_hot", "rho_coolant"); ("T_in_hot", "motorheatsink.T_out")] ++ fins "hx_motor" "hx_motor" "hx_motor") "hx_motor.".
Definition hx_fault_at : string -> string :=
  renamed ([("mdot_cold", "motor_duct.mdot"); ("rho_cold", "motor_duct.sta2.rho"); ("T_in_cold", "motor_duct.sta2.T");
    ("mdot_hot", "mdot_coolant_fault_prot"); ("rho_hot", "rho_coolant"); ("T_in_hot", "motorfaultprot.T_out")] ++ fins "hx_motor" "hx_fault_prot" "hx_motor") "hx_fault_prot.".
Definition hx_battery_at : string -> string :=
  renamed ([("mdot_cold", "variable_duct.mdot"); ("rho_cold", "variable_duct.sta2.rho"); ("T_in_cold", "variable_duct.sta2.T");
    ("mdot_hot", "mdot_coolant_battery"); ("rho_hot", "rho_coolant"); ("T_in_hot", "refrig.T_out_hot")] ++ fins "hx" "hx" "hx") "hx_battery.".
(** The heat exchangers are sized, and their coolant has the specific heat the other components assume. *)
Definition cooled (n : nat) (W : env) : Prop :=
  forall at_, In at_ [hx_motor_at; hx_fault_at; hx_battery_at] -> hx_positive n (fun x => W (at_ x)) /\ W (at_ "cp_hot") 0%nat = 3801.

(** In a phase with values [W] at [n] nodes: the heat the motor and the battery store is what they lose, with the heat of the
    refrigerator, less what their heat exchangers take; the air of the ducts takes up what the heat exchangers give. *)
Record single_aisle_heat (n : nat) (W : env) : Prop := {
  ht_motor : forall i, (i < n)%nat ->
    W "ac|propulsion|motor|rating" 0%nat / 5000 * 921 * (W "motorheatsink.T" i - W "motorheatsink.T_initial" 0%nat) =
    flowed n W (fun j => 5/100 * motor_draw n W j - W "hx_motor.heat_transfer" j) i;
  ht_fault : forall i, (i < n)%nat -> W "hx_fault_prot.heat_transfer" i = 5/1000 * motor_draw n W i;
  ht_battery : forall i, (i < n)%nat ->
    W "ac|propulsion|battery|weight" 0%nat * (65/100) * 875 * (W "batteryheatsink.T" i - W "batteryheatsink.T_initial" 0%nat) =
    flowed n W (fun j => 5/100 * W "elec_load" j + 95/100 * W "refrig.elec_load" j - W "hx_battery.heat_transfer" j) i;
  ht_refrigerator : forall i, (i < n)%nat ->
    W "refrig.elec_load" i = (1 - ramp n (W "refrig.control.bypass_start" 0%nat) (W "refrig.control.bypass_end" 0%nat) i) *
      (W "ac|propulsion|thermal|heatpump|power_rating" 0%nat / (95/100));
  ht_motor_air : W "motor_duct.cp" 0%nat <> 0 -> forall i, (i < n)%nat ->
    W "motor_duct.cp" 0%nat * W "motor_duct.mdot" i * (W "motor_duct.sta3.Tt_out" i - W "motor_duct.inlet.Tt" i) =
    W "motor_duct.heat_in_1" i + W "motor_duct.heat_in_2" i + W "hx_motor.heat_transfer" i + W "hx_fault_prot.heat_transfer" i;
  ht_battery_air : W "variable_duct.cp" 0%nat <> 0 -> forall i, (i < n)%nat ->
    W "variable_duct.cp" 0%nat * W "variable_duct.mdot" i * (W "variable_duct.sta3.Tt_out" i - W "variable_duct.inlet.Tt" i) =
    W "variable_duct.heat_in_1" i + W "variable_duct.heat_in_2" i + W "hx_battery.heat_transfer" i }.
