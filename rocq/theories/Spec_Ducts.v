(** Vocabulary for the statements about ducts. *)
From Coq Require Import Reals List String.
From Verif Require Import Base.
Import ListNotations.
Open Scope R_scope.
Open Scope string_scope.

(** Ratio of specific heats and gas constant of air, and the specific heat at
    constant pressure they imply. *)
Definition gamma_air : R := 14/10.
Definition R_air : R := 28705/100.
Definition cp_air : R := gamma_air * R_air / (gamma_air - 1).

(** A stream of air with static temperature [T], pressure [p], density [rho], speed
    of sound [a] and Mach number [M] that moves at speed [v]; [Tt] and [pt] are the
    temperature and pressure it has after being brought to rest without losses:
    ideal gas law, conservation of energy and constancy of entropy. *)
Record air_stream (T p rho a M v Tt pt : R) : Prop := {
  air_T : 0 < T;
  air_p : 0 < p;
  air_gas : p = rho * R_air * T;
  air_sound : 0 < a /\ a ^ 2 = gamma_air * R_air * T;
  air_mach : v = M * a;
  air_energy : cp_air * Tt = cp_air * T + v ^ 2 / 2;
  air_entropy : pt / p = Rpower (Tt / T) (gamma_air / (gamma_air - 1))
}.

(** Pressure ratio below which a convergent nozzle is choked. *)
Definition choking_ratio (gam : R) : R := Rpower (2 / (gam + 1)) (gam / (gam - 1)).

(** Where a user of the duct finds the variables of the heat exchanger inside it:
    its cold side is the duct's air at station 2; its hot side and one size are the
    duct's own inputs and output; the rest carries the prefix "hx.". *)
Definition hx_in_duct (x : string) : string :=
  if String.eqb x "mdot_cold" then "mdot"
  else if String.eqb x "T_in_cold" then "sta2.T"
  else if String.eqb x "rho_cold" then "sta2.rho"
  else if existsb (String.eqb x) ["mdot_hot"; "T_in_hot"; "rho_hot"; "ac|propulsion|thermal|hx|n_wide_cold"; "T_out_hot"] then x
  else String.append "hx." x.
