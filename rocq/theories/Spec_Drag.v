(** Specification vocabulary for the zero-lift drag build-ups and the wave drag. *)
From Coq Require Import Reals List Bool String.
From Verif Require Import Base Model_Drag Model_Aero.
Import ListNotations.
Open Scope R_scope.
Open Scope string_scope.

(** Sutherland's law for the dynamic viscosity of air, and the Reynolds number. *)
Definition sutherland (T : R) : R := 1458 / 10 ^ 9 * (T * sqrt T) / (T + 1004/10).
Definition reynolds (U rho T L : R) : R := rho * U * L / sutherland T.
(** Average friction coefficient of a plate: turbulent over the whole length, with the
    front fraction [lam] replaced by a laminar boundary layer. *)
Definition turbulent (Re : R) : R := 523/1000 / (ln (6/100 * Re)) ^ 2.
Definition laminar (Re : R) : R := 132824/100000 / sqrt Re.
Definition friction (lam Re : R) : R :=
  if Rlt_dec 0 lam then turbulent Re + lam * (laminar (lam * Re) - turbulent (lam * Re)) else turbulent Re.
(** Form factors (Torenbeek): body of length [L] and height [D]; lifting surface. *)
Definition form_body (L D : R) : R := 1 + 22/10 * (D / L) + 38/10 * (D / L) ^ 3.
Definition form_wing (tc : R) : R := 1 + 27/10 * tc + 100 * tc ^ 4.
(** Mean aerodynamic chord of a trapezoid of area [S], aspect ratio [AR], tip to root chord ratio [t]. *)
Definition mean_chord (S AR t : R) : R := let root := 2 * sqrt (S / AR) / (1 + t) in 2 / 3 * root * (1 + t + t ^ 2) / (1 + t).
(** Flap drag (Roskam): [delta] in degrees, [sweep] in radians. *)
Definition flap_drag (cf Q frac delta sweep : R) : R :=
  Q * frac * cos sweep * (575 / 10 ^ 6 * cf ^ 2 - 745 / 10 ^ 7 * cf + 123 / 10 ^ 7) * delta ^ 2.

(** Drag areas (drag coefficient times the area it refers to) of the parts of a jet
    transport at node [i]: wetted area times form factor times friction coefficient;
    lifting surfaces are wetted on both sides. *)
Section DragAreas.
Variables (o : drag_options) (V : env) (i : nat).
Definition Re_of (L : R) : R := reynolds (V "fltcond|Utrue" i) (V "fltcond|rho" i) (V "fltcond|T" i) L.
Definition s_ (x : string) : R := V x 0%nat.
Definition fuselage_area : R :=
  s_ "ac|geom|fuselage|S_wet" * (do_Q_fuselage o * form_body (s_ "ac|geom|fuselage|length") (s_ "ac|geom|fuselage|height"))
  * friction (do_lam_fuselage o) (Re_of (s_ "ac|geom|fuselage|length")).
Definition lifting_area (S AR t tc Q lam : R) : R := 2 * S * (Q * form_wing tc) * friction lam (Re_of (mean_chord S AR t)).
Definition hstab_area : R :=
  lifting_area (s_ "ac|geom|hstab|S_ref") (s_ "ac|geom|hstab|AR") (s_ "ac|geom|hstab|taper") (s_ "ac|geom|hstab|toverc") (do_Q_tail o) (do_lam_hstab o).
Definition vstab_area : R :=
  lifting_area (s_ "ac|geom|vstab|S_ref") (s_ "ac|geom|vstab|AR") (s_ "ac|geom|vstab|taper") (s_ "ac|geom|vstab|toverc") (do_Q_tail o) (do_lam_vstab o).
Definition wing_area : R :=
  lifting_area (s_ "ac|geom|wing|S_ref") (s_ "ac|geom|wing|AR") (s_ "ac|geom|wing|taper") (s_ "ac|geom|wing|toverc") (do_Q_wing o) (do_lam_wing o).
Definition nacelle_area (FF lam : R) : R :=
  s_ "ac|propulsion|num_engines" * s_ "ac|geom|nacelle|S_wet" * FF * friction lam (Re_of (s_ "ac|geom|nacelle|length")).
(** Additional drag coefficient with gear and flaps extended. *)
Definition takeoff_drag (gear cf Q frac : R) : R :=
  gear + flap_drag cf Q frac (s_ "ac|aero|takeoff_flap_deg") (s_ "ac|geom|wing|c4sweep").
Definition jet_drag : R :=
  do_fudge o *
  ((fuselage_area + hstab_area + vstab_area + nacelle_area (do_FF_nacelle o) (do_lam_nacelle o) + (if do_wing o then wing_area else 0))
   / s_ "ac|geom|wing|S_ref"
   + (if do_takeoff o then takeoff_drag (2/100) (do_flap_chord o) (do_Q_flap o) (do_flapped o) else 0)).
End DragAreas.
Definition bwb_drag (o : bwb_drag_options) (V : env) (i : nat) : R :=
  bo_fudge o *
  (nacelle_area V i (bo_FF_nacelle o) (bo_lam_nacelle o) / V "ac|geom|wing|S_ref" 0%nat
   + (if bo_takeoff o then takeoff_drag V (1/100) (bo_flap_chord o) (bo_Q_flap o) (bo_flapped o) else 0)).

(** Slopes of the friction laws. *)
Definition turbulent_slope (Re : R) : R := - (1046/1000) / (Re * ln (6/100 * Re) ^ 3).
Definition laminar_slope (Re : R) : R := - (132824/200000) / (Re * sqrt Re).

(** The inputs the class docstrings document. *)
Definition flight_inputs : list string := ["fltcond|Utrue"; "fltcond|rho"; "fltcond|T"].
Definition jet_scalars (wing : bool) : list string :=
  (["ac|geom|fuselage|length"; "ac|geom|fuselage|height"; "ac|geom|fuselage|S_wet";
   "ac|geom|hstab|S_ref"; "ac|geom|hstab|AR"; "ac|geom|hstab|taper"; "ac|geom|hstab|toverc";
   "ac|geom|vstab|S_ref"; "ac|geom|vstab|AR"; "ac|geom|vstab|taper"; "ac|geom|vstab|toverc";
   "ac|geom|wing|S_ref"; "ac|geom|nacelle|length"; "ac|geom|nacelle|S_wet"; "ac|propulsion|num_engines"]
  ++ if wing then ["ac|geom|wing|AR"; "ac|geom|wing|taper"; "ac|geom|wing|toverc"] else [])%list.
Definition bwb_scalars : list string :=
  ["ac|geom|wing|S_ref"; "ac|geom|nacelle|length"; "ac|geom|nacelle|S_wet"; "ac|propulsion|num_engines"].
Definition takeoff_inputs (takeoff : bool) : list string :=
  if takeoff then ["ac|geom|wing|c4sweep"; "ac|aero|takeoff_flap_deg"] else [].
(** A moving aircraft in air, all of its dimensions positive. *)
Definition flying (V : env) (i : nat) (scalars : list string) : Prop :=
  (forall x, In x flight_inputs -> 0 < V x i) /\ (forall x, In x scalars -> 0 < V x 0%nat).
(** The options make sense: positive factors. *)
Definition jet_factors (o : drag_options) : Prop :=
  0 < do_fudge o /\ 0 < do_FF_nacelle o /\ 0 < do_Q_fuselage o /\ 0 < do_Q_tail o /\ 0 < do_Q_wing o.
(** The lengths whose boundary layers the build-up estimates, with the laminar fractions. *)
Definition jet_layers (o : drag_options) (V : env) : list (R * R) :=
  let s x := V x 0%nat in
  ([(do_lam_fuselage o, s "ac|geom|fuselage|length"); (do_lam_nacelle o, s "ac|geom|nacelle|length");
   (do_lam_hstab o, mean_chord (s "ac|geom|hstab|S_ref") (s "ac|geom|hstab|AR") (s "ac|geom|hstab|taper"));
   (do_lam_vstab o, mean_chord (s "ac|geom|vstab|S_ref") (s "ac|geom|vstab|AR") (s "ac|geom|vstab|taper"))]
  ++ if do_wing o then [(do_lam_wing o, mean_chord (s "ac|geom|wing|S_ref") (s "ac|geom|wing|AR") (s "ac|geom|wing|taper"))] else [])%list.
(** The friction laws apply: Reynolds number beyond the pole of the turbulent law at
    Re = 16.7; a laminar front part of at most the whole length, whose own Reynolds number is at least
    [exp 3 / 0.06] (about 335). *)
Definition in_range (lam Re : R) : Prop := 1 < 6/100 * Re /\ (0 < lam -> lam <= 1 /\ exp 3 <= 6/100 * (lam * Re)).
(** Two aircraft or flight conditions with the same values of the inputs [l]. *)
Definition same_inputs (V V' : env) (l : list string) : Prop := forall x j, In x l -> V x j = V' x j.

(** Reynolds number of a friction component's inputs at node [i]. *)
Definition component_Re (E : env) (i : nat) : R := reynolds (E "fltcond|Utrue" i) (E "fltcond|rho" i) (E "fltcond|T" i) (E "L" 0%nat).
