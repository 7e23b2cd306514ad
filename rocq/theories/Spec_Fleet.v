(** Specification vocabulary for the example aircraft. *)
From Coq Require Import Reals List Bool PeanoNat String.
From Verif Require Import Base RSum Model_Mission Model_Net Model_Systems Model_Flight Spec_Flight Model_Fleet.
Import ListNotations.
Open Scope R_scope.
Open Scope string_scope.
Open Scope list_scope.

(** The names an aircraft model gives to the mass at takeoff, to its fuel flow, and to
    the fuel used so far with its values at the start and at the end of a phase. *)
Record fuel_book := { fb_mass : string; fb_flow : string; fb_used : string; fb_start : string; fb_end : string }.
Definition plain_book : fuel_book :=
  {| fb_mass := "ac|weights|MTOW"; fb_flow := "fuel_flow"; fb_used := "fuel_used"; fb_start := "fuel_used_initial"; fb_end := "fuel_used_final" |}.
Definition sized_book : fuel_book :=
  {| fb_mass := "ac|weights|MTOW"; fb_flow := "propulsion_multiplier.fuel_flow"; fb_used := "fuel_burn_integ.fuel_burn";
     fb_start := "fuel_burn_integ.fuel_burn_initial"; fb_end := "fuel_burn_integ.fuel_burn_final" |}.
(** The example aircraft that burn fuel, with their names. *)
Definition fuel_burners (M : maps) (D : deck) (tri : mat) : list (aircraft * fuel_book) :=
  [(minimal_integrator tri,
    {| fb_mass := "ac|weights|TOW"; fb_flow := "fuel_flow_calc.fuel_flow"; fb_used := "fuel_integrator.fuel_burned";
       fb_start := "fuel_integrator.fuel_burned_initial"; fb_end := "fuel_integrator.fuel_burned_final" |});
   (TBM850 M tri,
    {| fb_mass := "ac|weights|MTOW"; fb_flow := "propmodel.fuel_flow"; fb_used := "intfuel.fuel_used";
       fb_start := "intfuel.fuel_used_initial"; fb_end := "fuel_used_final" |});
   (Caravan M tri, plain_book); (KingAir M tri, plain_book); (HybridTwin M tri, plain_book); (HybridTwinThermal M tri, plain_book);
   (HybridTwinActive M tri, plain_book); (B738 D tri, plain_book);
   (SizedB738 D tri, sized_book)].
(** In a phase with values [W] at [n] nodes: the aircraft weighs what it weighed at
    takeoff less the fuel used; the fuel used grows by the fuel flow. *)
Record books (n : nat) (B : fuel_book) (W : env) : Prop := {
  bk_weight : forall i, (i < n)%nat -> W "weight" i = W (fb_mass B) 0%nat - W (fb_used B) i;
  bk_flow : evolves n (W "duration" 0%nat) (W (fb_start B) 0%nat) (W (fb_flow B)) (W (fb_used B));
  bk_end : W (fb_end B) 0%nat = W (fb_used B) (n - 1)%nat }.
(** The fuel a phase burns, from its fuel flow and its duration. *)
Definition burned (n : nat) (B : fuel_book) (W : env) : R := W "duration" 0%nat / INR (n - 1) * area (W (fb_flow B)) (n - 1).
(** All the example aircraft. *)
Definition fleet (M : maps) (D : deck) (tri : mat) : list aircraft :=
  [minimal; minimal_integrator tri; TBM850 M tri; Caravan M tri; KingAir M tri; HybridTwin M tri; HybridTwinThermal M tri;
   HybridTwinActive M tri; ElectricTBM M tri; B738 D tri; SizedB738 D tri].

(** The names of the power an aircraft model draws from its battery and of the battery's energy per mass. *)
Record charge_book := { cb_load : string; cb_energy : string }.
Definition hybrid_charge : charge_book := {| cb_load := "propmodel.battery_load"; cb_energy := "ac|propulsion|battery|specific_energy" |}.
Definition battery_fliers (M : maps) (tri : mat) : list (aircraft * charge_book) :=
  [(HybridTwin M tri, hybrid_charge); (HybridTwinThermal M tri, hybrid_charge); (HybridTwinActive M tri, hybrid_charge);
   (ElectricTBM M tri, {| cb_load := "propmodel.motor1.elec_load"; cb_energy := "propmodel.batt1.specific_energy" |})].
(** The energy the full battery holds, and what a phase draws from it. *)
Definition capacity (C : charge_book) (W : env) : R := W "ac|weights|W_battery" 0%nat * W (cb_energy C) 0%nat.
Definition drawn (n : nat) (C : charge_book) (W : env) : R := W "duration" 0%nat / INR (n - 1) * area (W (cb_load C)) (n - 1).
(** In a phase with values [W] at [n] nodes: the charge of the battery falls by the energy drawn. *)
Record charges (n : nat) (C : charge_book) (W : env) : Prop := {
  ch_charge : capacity C W <> 0 -> forall i, (i < n)%nat ->
    capacity C W * W "propmodel.batt1.SOC" i = capacity C W * W "propmodel.batt1.SOC_initial" 0%nat - W "duration" 0%nat / INR (n - 1) * area (W (cb_load C)) i;
  ch_end : W "propmodel.batt1.SOC_final" 0%nat = W "propmodel.batt1.SOC" (n - 1)%nat }.

(** Drag of a wing of area [S] and aspect ratio [AR] at dynamic pressure [q]: a parabola in the lift coefficient. *)
Definition parabolic_drag (q S CD0 e AR CL : R) : R := q * S * (CD0 + CL ^ 2 / (PI * e * AR)).
(** The zero-lift drag coefficient of a phase: of the takeoff configuration until the aircraft has rotated. *)
Definition phase_CD0 (p : string) (W : env) : R :=
  if in_list p ["groundroll"; "v0v1"; "v1v0"; "v1vr"; "rotate"] then W "ac|aero|polar|CD0_TO" 0%nat else W "ac|aero|polar|CD0_cruise" 0%nat.
Definition phase_drag (p : string) (W : env) (i : nat) : R :=
  parabolic_drag (W "fltcond|q" i) (W "ac|geom|wing|S_ref" 0%nat) (phase_CD0 p W) (W "ac|aero|polar|e" 0%nat) (W "ac|geom|wing|AR" 0%nat) (W "fltcond|CL" i).
(** Values in the units of the empty-weight formulas, the weights of the powertrain and the takeoff power being [parts]. *)
Definition ga_inputs (W : env) (parts : list (string * R)) (x : string) : R :=
  match assoc x parts with Some v => v / ga_units x | None => W x 0%nat / ga_units x end.
