(** Vocabulary for the statements about the heat exchanger. *)
From Coq Require Import Reals List String.
From Verif Require Import Base.
Import ListNotations.
Open Scope R_scope.
Open Scope string_scope.

(** Everything the user gives to the heat exchanger except the two inlet
    temperatures: sizes, counts, material and fluid properties ... *)
Definition hx_scalars : list string :=
  ["ac|propulsion|thermal|hx|n_wide_cold"; "ac|propulsion|thermal|hx|n_long_cold"; "ac|propulsion|thermal|hx|n_tall";
   "channel_width_hot"; "channel_height_hot"; "fin_length_hot"; "channel_width_cold"; "channel_height_cold"; "fin_length_cold";
   "fin_thickness"; "plate_thickness"; "case_thickness"; "material_rho"; "material_k";
   "mu_cold"; "mu_hot"; "k_cold"; "k_hot"; "cp_cold"; "cp_hot"].
(** ... and, at each analysis point, mass flows and densities. *)
Definition hx_flows : list string := ["mdot_cold"; "mdot_hot"; "rho_cold"; "rho_hot"].
Definition hx_positive (nn : nat) (V : env) : Prop :=
  (forall x, In x hx_scalars -> 0 < V x 0%nat) /\ (forall x i, In x hx_flows -> (i < nn)%nat -> 0 < V x i).
