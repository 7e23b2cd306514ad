(** Specification vocabulary for the sized airliner. *)
From Coq Require Import Reals List Bool PeanoNat String.
From Verif Require Import Base Py RSum Model_Mission Model_Net Model_Weights Model_Flight Spec_Flight Props_Targets Model_Drag Spec_Drag Model_Fleet Spec_Fleet Model_Sizing.
Import ListNotations.
Open Scope R_scope.
Open Scope string_scope.
Open Scope list_scope.

(** The configuration of a phase: flaps and gear are out until the aircraft has rotated. *)
Definition phase_options (p : string) : drag_options :=
  if in_list p ["groundroll"; "v0v1"; "v1v0"; "v1vr"; "rotate"] then configured drag_defaults true else configured drag_defaults false.
(** Sizes of the tails of a wing of area [S], aspect ratio [AR] and taper [t] on a fuselage
    of length [L], the tails half of it behind the wing: tail volume coefficients 1 and 0.09. *)
Definition hstab_size (S AR t L : R) : R := 1 * mean_chord S AR t * S / (L / 2).
Definition vstab_size (S AR L : R) : R := 9/100 * sqrt (AR * S) * S / (L / 2).
(** Lift gained by flaps of 0.2 chord on 0.9 of the wing's area extended by [d] degrees, and by
    slats of 0.1 chord on 0.8 of its span; wing with quarter-chord sweep [w] and thickness ratio [tc]. *)
Definition flap_gain (d w tc : R) : R :=
  let k2 := 4/10 + 234/10000 * d - 204/1000000 * d ^ 2 in
  (1 + 233/100 * tc - 779/10 * tc ^ 2 + 1120 * tc ^ 3 - 3430 * tc ^ 4) * (4 * (2/10)) * k2 * (136/100 * k2 - 389/1000 * k2 ^ 2)
  * (9/10) * (1 - 8/100 * cos w ^ 2) * Rpower (cos w) (3/4).
Definition slat_gain (w : R) : R := 711/100 * (1/10) * (8/10) ^ 2 * cos w ^ 2.
(** What the empty weight is estimated from, in SI units: design variables, the sizes of
    the tails, the lever arms, the surface of the fuselage as a cylinder, the maximum
    landing weight as 0.8 of the maximum takeoff weight, and the [fuel]. *)
Definition sized_input (V : env) (fuel : R) (x : string) : R :=
  let s x := V x 0%nat in
  let S := s "ac|geom|wing|S_ref" in let AR := s "ac|geom|wing|AR" in let t := s "ac|geom|wing|taper" in let L := s "ac|geom|fuselage|length" in
  if String.eqb x "ac|geom|hstab|S_ref" then hstab_size S AR t L
  else if String.eqb x "ac|geom|vstab|S_ref" then vstab_size S AR L
  else if String.eqb x "ac|geom|hstab|c4_to_wing_c4" || String.eqb x "ac|geom|vstab|c4_to_wing_c4" then L / 2
  else if String.eqb x "ac|geom|fuselage|S_wet" then PI * s "ac|geom|fuselage|height" * L
  else if String.eqb x "ac|weights|MLW" then 8/10 * s "ac|weights|MTOW"
  else if String.eqb x "ac|weights|W_fuel_max" then fuel
  else s x.
(** The fuel burned from the start of the mission to the end of the loiter. *)
Definition all_legs (o : profile) : list string := main_legs o ++ reserve_legs o ++ ["loiter"].
