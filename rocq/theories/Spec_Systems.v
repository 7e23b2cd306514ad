(** What a propulsion system has to deliver, independent of how it is wired.
    Quantities in SI units, propeller speed in rpm. *)
From Coq Require Import Reals String.
From Verif Require Import Base.
Open Scope R_scope.
Open Scope string_scope.

(** Constant speed propeller of diameter [D] taking up the power [P] at airspeed [U]:
    [eta cp J] is its efficiency map and [k cp] its static map (thrust coefficient over
    power coefficient).  Up to an advance ratio of 0.1 the static map gives the thrust,
    from 0.2 on the efficiency does, in between the two are blended linearly. *)
Definition propeller_thrust (eta : R -> R -> R) (k : R -> R) (rho U D rpm P : R) : R :=
  let n := rpm / 60 in
  let cp := P / (rho * n ^ 3 * D ^ 5) in
  let J := U / (n * D) in
  let static := k cp * P / (n * D) in
  let dynamic := eta cp J * P / U in
  if Rle_dec J (1/10) then static
  else if Rle_dec (2/10) J then dynamic
  else (2/10 - J) / (1/10) * static + (J - 1/10) / (1/10) * dynamic.

(** Weight of a four-bladed propeller, in kg: 0.108 (D P sqrt 4)^0.782 lb with the
    diameter in ft and the power in hp. *)
Definition propeller_weight (P D : R) : R :=
  45359237/100000000 * (108/1000 * Rpower (D / (3048/10000) * (P / (7456998715822702 / 10 ^ 13)) * 2) (782/1000)).

(** Fuel burnt per joule of shaft work: 0.6 lb/(hp h), with 1 lb/(hp h) = 1.68965774e-7 kg/J. *)
Definition fuel_per_joule : R := 6/10 * (168965774 / 10 ^ 15).
(** Turboshaft engine weight from its rating; motors and generators weigh 1 kg per 5 kW. *)
Definition engine_weight (rating : R) : R := 104 + 14/100000 * rating.
Definition machine_weight (rating : R) : R := rating / 5000.

(** The energy flows of a twin series hybrid at node [i]; [extra] is the electric power
    drawn by anything but the motors.  Motors and generator are 97% efficient; the
    second propulsor runs at the throttle times the activity factor. *)
Record hybrid_flows (eta : R -> R -> R) (k : R -> R) (V : env) (i : nat) (load : string) (extra : R) : Prop := {
  hf_load : V load i = (1 + V "propulsor_active" i) * V "throttle" i * V "ac|propulsion|motor|rating" 0%nat + extra;
  hf_battery : V "battery_load" i = V "hybrid_split.power_split_fraction" i * V load i;
  hf_generator : V "gen1.elec_power_out" i + V "battery_load" i = V load i;
  hf_engine : 97/100 * V "eng1.shaft_power_out" i = V "gen1.elec_power_out" i;
  hf_throttle : V "eng_throttle_set.eng_throttle" i * V "ac|propulsion|engine|rating" 0%nat = V "eng1.shaft_power_out" i;
  hf_fuel : V "fuel_flow" i = fuel_per_joule * V "eng1.shaft_power_out" i;
  hf_thrust :
    let T s P := propeller_thrust eta k (V "fltcond|rho" i) (V "fltcond|Utrue" i) (V "ac|propulsion|propeller|diameter" 0%nat) (V s i) P in
    let P := 97/100 * (V "throttle" i * V "ac|propulsion|motor|rating" 0%nat) in
    V "thrust" i = T "prop1.rpm" P + T "prop2.rpm" (V "propulsor_active" i * P);
  hf_heat : forall s, s = "motor1.heat_out" \/ s = "motor2.heat_out" -> 
    V s i = 3/100 * ((if String.eqb s "motor1.heat_out" then 1 else V "propulsor_active" i) * V "throttle" i * V "ac|propulsion|motor|rating" 0%nat);
  hf_battery_heat : V "batt1.heat_out" i = 3/100 * V "battery_load" i }.
Arguments hf_load {_ _ _ _ _ _}. Arguments hf_battery {_ _ _ _ _ _}. Arguments hf_generator {_ _ _ _ _ _}. Arguments hf_engine {_ _ _ _ _ _}.
Arguments hf_throttle {_ _ _ _ _ _}. Arguments hf_fuel {_ _ _ _ _ _}. Arguments hf_thrust {_ _ _ _ _ _}. Arguments hf_heat {_ _ _ _ _ _}.
Arguments hf_battery_heat {_ _ _ _ _ _}.
(** Its weights and margins. *)
Record hybrid_weights (V : env) : Prop := {
  hw_motors : V "motors_weight" 0%nat = 2 * machine_weight (V "ac|propulsion|motor|rating" 0%nat);
  hw_propellers : V "propellers_weight" 0%nat =
    2 * propeller_weight (V "ac|propulsion|motor|rating" 0%nat) (V "ac|propulsion|propeller|diameter" 0%nat);
  hw_engine : V "eng1.component_weight" 0%nat = engine_weight (V "ac|propulsion|engine|rating" 0%nat);
  hw_generator : V "gen1.component_weight" 0%nat = machine_weight (V "ac|propulsion|generator|rating" 0%nat) }.
(** What can be computed at all: nonzero density, propeller speed and diameter. *)
Definition propeller_runs (V : env) (i : nat) (rpm diameter : string) : Prop :=
  V "fltcond|rho" i <> 0 /\ V rpm i <> 0 /\ V diameter 0%nat <> 0.
