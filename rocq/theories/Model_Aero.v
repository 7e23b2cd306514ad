(** Model of openconcept/aerodynamics/aerodynamics.py (PolarDrag, StallSpeed; Lift
    is in [Model_Phases]), aerodynamics/CL_max_estimation.py, stability/,
    geometry/ and costs/costs_commuter.py.

    Simplifications: exact reals; [x ** y] with a non-integer [y] is [Rpower x y],
    which is numpy's value for x > 0 only, and every theorem about it assumes that. *)
From Coq Require Import Reals List Bool PeanoNat String.
From Verif Require Import Base Py RSum Model_Phases.
Import ListNotations.
Open Scope R_scope.
Open Scope string_scope.

(** ** aerodynamics.py *)
(** aerodynamics.py:45-96 *)
Definition PolarDrag (vec_CD0 : bool) : pcomp := {|
  pc_ins := [("fltcond|CL", Vec); ("fltcond|q", Vec); ("ac|geom|wing|S_ref", Sca);
             ("CD0", if vec_CD0 then Vec else Sca); ("e", Sca); ("ac|geom|wing|AR", Sca)];
  pc_outs :=
    [("drag", (Vec, fun e => e "fltcond|q" * e "ac|geom|wing|S_ref"
                             * (e "CD0" + e "fltcond|CL" ^ 2 / PI / e "e" / e "ac|geom|wing|AR")))];
  pc_J :=
    [("drag", "fltcond|q", fun e => e "ac|geom|wing|S_ref" * (e "CD0" + e "fltcond|CL" ^ 2 / PI / e "e" / e "ac|geom|wing|AR"));
     ("drag", "fltcond|CL", fun e => e "fltcond|q" * e "ac|geom|wing|S_ref" * (2 * e "fltcond|CL" / PI / e "e" / e "ac|geom|wing|AR"));
     ("drag", "CD0", fun e => e "fltcond|q" * e "ac|geom|wing|S_ref");
     ("drag", "e", fun e => - (e "fltcond|q" * e "ac|geom|wing|S_ref" * e "fltcond|CL" ^ 2 / PI / e "e" ^ 2 / e "ac|geom|wing|AR"));
     ("drag", "ac|geom|wing|S_ref", fun e => e "fltcond|q" * (e "CD0" + e "fltcond|CL" ^ 2 / PI / e "e" / e "ac|geom|wing|AR"));
     ("drag", "ac|geom|wing|AR", fun e => - (e "fltcond|q" * e "ac|geom|wing|S_ref" * e "fltcond|CL" ^ 2 / PI / e "e" / e "ac|geom|wing|AR" ^ 2))]
|}.

(** aerodynamics.py:172-208 *)
Definition StallSpeed : pcomp :=
  let rho := 1225/1000 in
  let arg e := 2 * e "weight" * GRAV / rho / e "ac|geom|wing|S_ref" / e "CLmax" in {|
  pc_ins := [("weight", Sca); ("ac|geom|wing|S_ref", Sca); ("CLmax", Sca)];
  pc_outs := [("Vstall_eas", (Sca, fun e => sqrt (arg e)))];
  pc_J :=
    [("Vstall_eas", "weight", fun e => 1 / sqrt (arg e) * GRAV / rho / e "ac|geom|wing|S_ref" / e "CLmax");
     ("Vstall_eas", "ac|geom|wing|S_ref", fun e => - (1 / sqrt (arg e) * e "weight" * GRAV / rho / e "ac|geom|wing|S_ref" ^ 2 / e "CLmax"));
     ("Vstall_eas", "CLmax", fun e => - (1 / sqrt (arg e) * e "weight" * GRAV / rho / e "ac|geom|wing|S_ref" / e "CLmax" ^ 2))]
|}.

(** ** CL_max_estimation.py *)
(** CL_max_estimation.py:49-67 *)
Definition CleanCLmax (fudge : R) : pcomp := {|
  pc_ins := [("ac|aero|airfoil_Cl_max", Sca); ("ac|geom|wing|c4sweep", Sca)];
  pc_outs := [("CL_max_clean", (Sca, fun e => fudge * (9/10) * e "ac|aero|airfoil_Cl_max" * cos (e "ac|geom|wing|c4sweep")))];
  pc_J :=
    [("CL_max_clean", "ac|aero|airfoil_Cl_max", fun e => fudge * (9/10) * cos (e "ac|geom|wing|c4sweep"));
     ("CL_max_clean", "ac|geom|wing|c4sweep", fun e => - fudge * (9/10) * e "ac|aero|airfoil_Cl_max" * sin (e "ac|geom|wing|c4sweep"))]
|}.

(** CL_max_estimation.py:126-144: the airfoil increment and its factors. *)
Definition fl_base (tc : R) : R := 1 + 233/100 * tc - 779/10 * tc ^ 2 + 1120 * tc ^ 3 - 3430 * tc ^ 4.
Definition fl_k2 (delta : R) : R := 4/10 + 234/10000 * delta - 204/1000000 * delta ^ 2.
Definition fl_k3 (k2 : R) : R := 136/100 * k2 - 389/1000 * k2 ^ 2.
(** CL_max_estimation.py:115-203 *)
Definition FlapCLmax (flap_chord area_frac slat_chord slat_span fudge : R) : pcomp :=
  let k1 := 4 * flap_chord in
  let k2 e := fl_k2 (e "flap_extension") in let k3 e := fl_k3 (k2 e) in
  let base e := fl_base (e "ac|geom|wing|toverc") in
  let dcl e := base e * k1 * k2 e * k3 e in
  let cs e := cos (e "ac|geom|wing|c4sweep") in
  let per_cl e := area_frac * (1 - 8/100 * cs e ^ 2) * Rpower (cs e) (75/100) in
  let dk2 e := 234/10000 - 2 * (204/1000000) * e "flap_extension" in
  let dk3 e := (136/100 - 2 * (389/1000) * k2 e) * dk2 e in {|
  pc_ins := [("flap_extension", Sca); ("ac|geom|wing|c4sweep", Sca); ("CL_max_clean", Sca); ("ac|geom|wing|toverc", Sca)];
  pc_outs := [("CL_max_flap", (Sca, fun e =>
     fudge * (e "CL_max_clean" + dcl e * area_frac * (1 - 8/100 * cs e ^ 2) * Rpower (cs e) (75/100)
              + 711/100 * slat_chord * slat_span ^ 2 * cs e ^ 2)))];
  pc_J :=
    [("CL_max_flap", "CL_max_clean", fun _ => fudge);
     ("CL_max_flap", "flap_extension", fun e => per_cl e * (base e * k1 * (k2 e * dk3 e + dk2 e * k3 e)) * fudge);
     ("CL_max_flap", "ac|geom|wing|toverc", fun e => per_cl e *
        (k1 * k2 e * k3 e * (233/100 - 2 * (779/10) * e "ac|geom|wing|toverc" + 3 * 1120 * e "ac|geom|wing|toverc" ^ 2
                             - 4 * 3430 * e "ac|geom|wing|toverc" ^ 3)) * fudge);
     ("CL_max_flap", "ac|geom|wing|c4sweep", fun e =>
        (dcl e * area_frac * (sin (e "ac|geom|wing|c4sweep") * (22/100 * cs e ^ 2 - 75/100) / Rpower (cs e) (25/100))
         - 711/100 * slat_chord * slat_span ^ 2 * 2 * cs e * sin (e "ac|geom|wing|c4sweep")) * fudge)]
|}.

(** ** stability/tail_volume_coefficient_sizing.py *)
(** tail_volume_coefficient_sizing.py:38-66 *)
Definition HStabSizing (C_ht : R) : pcomp :=
  let L e : R := e "ac|geom|hstab|c4_to_wing_c4" in {|
  pc_ins := [("ac|geom|wing|S_ref", Sca); ("ac|geom|wing|MAC", Sca); ("ac|geom|hstab|c4_to_wing_c4", Sca)];
  pc_outs := [("ac|geom|hstab|S_ref", (Sca, fun e => C_ht * e "ac|geom|wing|MAC" * e "ac|geom|wing|S_ref" / L e))];
  pc_J :=
    [("ac|geom|hstab|S_ref", "ac|geom|wing|S_ref", fun e => C_ht * e "ac|geom|wing|MAC" / L e);
     ("ac|geom|hstab|S_ref", "ac|geom|wing|MAC", fun e => C_ht * e "ac|geom|wing|S_ref" / L e);
     ("ac|geom|hstab|S_ref", "ac|geom|hstab|c4_to_wing_c4", fun e => - C_ht * e "ac|geom|wing|MAC" * e "ac|geom|wing|S_ref" / L e ^ 2)]
|}.
(** tail_volume_coefficient_sizing.py:103-138 *)
Definition VStabSizing (C_vt : R) : pcomp :=
  let L e : R := e "ac|geom|vstab|c4_to_wing_c4" in let AR e : R := e "ac|geom|wing|AR" in let S e : R := e "ac|geom|wing|S_ref" in {|
  pc_ins := [("ac|geom|wing|S_ref", Sca); ("ac|geom|wing|AR", Sca); ("ac|geom|vstab|c4_to_wing_c4", Sca)];
  pc_outs := [("ac|geom|vstab|S_ref", (Sca, fun e => C_vt * sqrt (AR e) * Rpower (S e) (15/10) / L e))];
  pc_J :=
    [("ac|geom|vstab|S_ref", "ac|geom|wing|S_ref", fun e => 15/10 * (C_vt * sqrt (AR e * S e)) / L e);
     ("ac|geom|vstab|S_ref", "ac|geom|wing|AR", fun e => 5/10 * (C_vt * Rpower (AR e) (- (5/10)) * Rpower (S e) (15/10) / L e));
     ("ac|geom|vstab|S_ref", "ac|geom|vstab|c4_to_wing_c4", fun e => - C_vt * sqrt (AR e) * Rpower (S e) (15/10) / L e ^ 2)]
|}.

(** ** geometry *)
(** wing_planform.py:24-57 *)
Definition mac_of (c_root c_tip : R) : R := 2/3 * (c_root + c_tip - c_root * c_tip / (c_root + c_tip)).
Definition WingMACTrapezoidal : pcomp :=
  let S e : R := e "S_ref" in let AR e : R := e "AR" in let tp e : R := e "taper" in
  let cr e := sqrt (S e / AR e) * 2 / (1 + tp e) in let ct e := tp e * cr e in
  let dcr_dS e := 5/10 / sqrt (S e * AR e) * 2 / (1 + tp e) in
  let dcr_dAR e := - (5/10) * Rpower (S e) (5/10) / Rpower (AR e) (15/10) * 2 / (1 + tp e) in
  let dcr_dtaper e := - sqrt (S e / AR e) * 2 / (1 + tp e) ^ 2 in
  let dMAC_dcr e := 2/3 * (1 - ct e ^ 2 / (cr e + ct e) ^ 2) in
  let dMAC_dct e := 2/3 * (1 - cr e ^ 2 / (cr e + ct e) ^ 2) in {|
  pc_ins := [("S_ref", Sca); ("AR", Sca); ("taper", Sca)];
  pc_outs := [("MAC", (Sca, fun e => mac_of (cr e) (ct e)))];
  pc_J :=
    [("MAC", "S_ref", fun e => (dMAC_dcr e + dMAC_dct e * tp e) * dcr_dS e);
     ("MAC", "AR", fun e => (dMAC_dcr e + dMAC_dct e * tp e) * dcr_dAR e);
     ("MAC", "taper", fun e => (dMAC_dcr e + dMAC_dct e * tp e) * dcr_dtaper e + dMAC_dct e * cr e)]
|}.
(** wing_planform.py:77-90 *)
Definition WingSpan : pcomp := {|
  pc_ins := [("S_ref", Sca); ("AR", Sca)];
  pc_outs := [("span", (Sca, fun e => Rpower (e "S_ref") (5/10) * Rpower (e "AR") (5/10)))];
  pc_J :=
    [("span", "S_ref", fun e => 5/10 * Rpower (e "S_ref") (5/10 - 1) * Rpower (e "AR") (5/10));
     ("span", "AR", fun e => Rpower (e "S_ref") (5/10) * (5/10) * Rpower (e "AR") (5/10 - 1))]
|}.
(** wing_planform.py:110-121 *)
Definition WingAspectRatio : pcomp := {|
  pc_ins := [("S_ref", Sca); ("span", Sca)];
  pc_outs := [("AR", (Sca, fun e => e "span" ^ 2 / e "S_ref"))];
  pc_J :=
    [("AR", "span", fun e => 2 * e "span" / e "S_ref");
     ("AR", "S_ref", fun e => - (e "span" ^ 2) / e "S_ref" ^ 2)]
|}.
(** wetted_area.py:24-36 *)
Definition CylinderSurfaceArea : pcomp := {|
  pc_ins := [("L", Sca); ("D", Sca)];
  pc_outs := [("A", (Sca, fun e => PI * e "D" * e "L"))];
  pc_J := [("A", "L", fun e => PI * e "D"); ("A", "D", fun e => PI * e "L")]
|}.

(** A wing given by sections: [sec_n] sections, leading edges [sec_x], spanwise
    positions [sec_y] (all but the root) and chords [sec_c], numbered from the tip. *)
Record sections := { sec_n : nat; sec_x : nat -> R; sec_y : nat -> R; sec_c : nat -> R }.
(** wing_planform.py:192, 278, 352: [np.hstack((y_sec, [0.0]))] *)
Definition full_y (s : sections) (i : nat) : R := if Nat.ltb i (sec_n s - 1) then sec_y s i else 0.
(** wing_planform.py:175-182, 263-270, 337-344: [i_start], [i_end] (exclusive, given inclusive). *)
Definition i_end (s : sections) (idx_end : option nat) : nat :=
  match idx_end with None => sec_n s | Some k => (k + 1)%nat end.
(** Number of panels between the sections kept by the slice [i_start : i_end]
    (Python clips the slice at the end of the array). *)
Definition n_panels (s : sections) (start : nat) (idx_end : option nat) : nat :=
  (Nat.min (i_end s idx_end) (sec_n s) - start - 1)%nat.

(** wing_planform.py:275-289 *)
Definition sections_area (frac_start frac_end : R) (start : nat) (idx_end : option nat) (s : sections) : R :=
  2 * rsum (n_panels s start idx_end) (fun k => let a := (start + k)%nat in
        5/10 * (sec_c s a + sec_c s (a + 1)%nat) * (frac_end - frac_start) * (full_y s (a + 1)%nat - full_y s a)).

(** wing_planform.py:349-394 *)
Definition half_area (start : nat) (idx_end : option nat) (s : sections) : R :=
  rsum (n_panels s start idx_end) (fun k => let a := (start + k)%nat in
    5/10 * (sec_c s a + sec_c s (a + 1)%nat) * (full_y s (a + 1)%nat - full_y s a)).
Definition sections_MAC (start : nat) (idx_end : option nat) (s : sections) : R :=
  rsum (n_panels s start idx_end) (fun k => let a := (start + k)%nat in
    let c1 := sec_c s a in let c2 := sec_c s (a + 1)%nat in
    (full_y s (a + 1)%nat - full_y s a) * (c1 ^ 2 + c1 * c2 + c2 ^ 2) / (3 * half_area start idx_end s)).
Definition sections_x_c4MAC (start : nat) (idx_end : option nat) (s : sections) : R :=
  rsum (n_panels s start idx_end) (fun k => let a := (start + k)%nat in
    let c1 := sec_c s a in let c2 := sec_c s (a + 1)%nat in
    let x1 := sec_x s a in let x2 := sec_x s (a + 1)%nat in
    (full_y s (a + 1)%nat - full_y s a) *
    (c1 * c2 + 4 * c1 * x1 + 2 * c1 * x2 + 2 * c2 * x1 + 4 * c2 * x2 + c1 ^ 2 + c2 ^ 2) / (12 * half_area start idx_end s)).

(** wing_planform.py:188-209 (angles in degrees) *)
Definition to_rad : R := PI / 180.
Definition panel_sweep (s : sections) (a : nat) : R :=
  let xc4 i := sec_x s i + sec_c s i * (25/100) in
  atan ((xc4 a - xc4 (a + 1)%nat) / (full_y s (a + 1)%nat - full_y s a)) / to_rad.
Definition panel_area (s : sections) (a : nat) : R :=
  5/10 * (sec_c s a + sec_c s (a + 1)%nat) * (full_y s (a + 1)%nat - full_y s a).
Definition sections_sweep (start : nat) (idx_end : option nat) (s : sections) : R :=
  let np := n_panels s start idx_end in
  acos (rsum np (fun k => cos (panel_sweep s (start + k) * to_rad) * panel_area s (start + k))
        / rsum np (fun k => panel_area s (start + k))) / to_rad.

(** ** costs_commuter.py *)
(** Inputs of TurbopropOperatingCost; [CompWeight i] is ["component_" + str(i + 1) + "_weight"] etc. *)
Inductive cost_in := CompWeight (i : nat) | CompCost (i : nat) | BattCost (i : nat) | BattEnergy (i : nat) | FuelBurn | OEW.
Inductive cost_out := TripBattery | Electricity | FuelCost | AirframeNR | TotalNR | TripEnergy | TripDOC.
Record cost_opts := {
  n_components : nat; n_batteries : option nat; af_cost_kg : R; fuel_cost_per_kg : R;
  elec_cost_per_MJ : R; life_years : R; daily_cycles : R; batt_cycles : R; premium : R }.
(** costs_commuter.py:43-107: which inputs and outputs exist. *)
Definition cost_has_in (o : cost_opts) (x : cost_in) : bool :=
  match x with
  | CompWeight i | CompCost i => Nat.ltb i (n_components o)
  | BattCost i | BattEnergy i => match n_batteries o with Some m => Nat.ltb i m | None => false end
  | FuelBurn | OEW => true
  end.
Definition cost_has_out (o : cost_opts) (y : cost_out) : bool :=
  match y with
  | TripBattery | Electricity => match n_batteries o with Some _ => true | None => false end
  | _ => true
  end.
(** costs_commuter.py:109-153: the loops, then the totals. *)
Fixpoint adj_oew (e : cost_in -> R) (n : nat) : R :=
  match n with O => e OEW | S n' => adj_oew e n' - e (CompWeight n') end.
Fixpoint sum_in (f : nat -> R) (n : nat) : R := match n with O => 0 | S n' => sum_in f n' + f n' end.
Definition cost_compute (o : cost_opts) (e : cost_in -> R) (y : cost_out) : R :=
  let airframe := adj_oew e (n_components o) * af_cost_kg o * premium o in
  let total := airframe + sum_in (fun i => e (CompCost i)) (n_components o) * premium o in
  let nr := total / daily_cycles o / 365 / life_years o in
  let fuel := e FuelBurn * fuel_cost_per_kg o in
  let m := match n_batteries o with Some m => m | None => 0%nat end in
  let elec := sum_in (fun i => e (BattEnergy i)) m * elec_cost_per_MJ o in
  let batt := sum_in (fun i => e (BattCost i)) m / batt_cycles o in
  let energy := match n_batteries o with Some _ => elec + fuel | None => fuel end in
  match y with
  | FuelCost => fuel | AirframeNR => airframe | TotalNR => total
  | Electricity => elec | TripBattery => batt | TripEnergy => energy
  | TripDOC => match n_batteries o with Some _ => energy + nr + batt | None => energy + nr end
  end.
(** costs_commuter.py:54-107: the constants given to [declare_partials]; pairs not
    declared are zero. *)
Definition cost_jac (o : cost_opts) (y : cost_out) (x : cost_in) : R :=
  if negb (cost_has_in o x) then 0 else
  match x, y with
  | CompWeight _, (AirframeNR | TotalNR) => - af_cost_kg o * premium o
  | CompWeight _, TripDOC => - af_cost_kg o * premium o / daily_cycles o / 365 / life_years o
  | CompCost _, TotalNR => premium o
  | CompCost _, TripDOC => premium o / daily_cycles o / 365 / life_years o
  | BattEnergy _, (Electricity | TripEnergy | TripDOC) => elec_cost_per_MJ o
  | BattCost _, (TripBattery | TripDOC) => 1 / batt_cycles o
  | OEW, (AirframeNR | TotalNR) => af_cost_kg o * premium o
  | OEW, TripDOC => af_cost_kg o * premium o / daily_cycles o / 365 / life_years o
  | FuelBurn, (FuelCost | TripEnergy | TripDOC) => fuel_cost_per_kg o
  | _, _ => 0
  end.
