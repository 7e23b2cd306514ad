(** Model of openconcept/energy_storage/hydrogen/structural.py and
    LH2_tank_no_boil_off.py.  Simplifications: exact reals; [lower=0.0] bounds
    (hints for OpenMDAO's solvers) are left out; where Python would produce NaN
    (a fractional power of a negative number) the value below is arbitrary, and
    the theorems assume the base to be non-negative. *)
From Coq Require Import Reals List Bool PeanoNat String.
From Verif Require Import Base Py RSum Model_Algebra Model_Atmos Model_Integrals.
Import ListNotations.
Open Scope R_scope.
Open Scope string_scope.

(** numpy [x ** y] for x >= 0 and y > 0 ([0 ** y = 0]). *)
Definition upow (x y : R) : R := if Rle_dec x 0 then 0 else Rpower x y.

(** structural.py:237, 257, 348, 379, 440, 451: surface of a cylinder with hemispherical caps. *)
Definition shell_area (r L : R) : R := 4 * PI * r ^ 2 + 2 * PI * r * L.

(** structural.py:206-264 *)
Definition PressureVesselWall (SF sigma density : R) : pcomp :=
  let p e : R := e "design_pressure_differential" in let r e : R := e "radius" in let L e : R := e "length" in
  let t e := p e * r e * SF / sigma in
  let A e := shell_area (r e) (L e) in
  let dAdr e := 8 * PI * r e + 2 * PI * L e in let dAdL e := 2 * PI * r e in {|
  pc_ins := [("design_pressure_differential", Sca); ("radius", Sca); ("length", Sca)];
  pc_outs := [("thickness", (Sca, t)); ("weight", (Sca, fun e => A e * t e * density))];
  pc_J :=
    [("thickness", "design_pressure_differential", fun e => r e * SF / sigma);
     ("thickness", "radius", fun e => p e * SF / sigma);
     ("weight", "design_pressure_differential", fun e => A e * (r e * SF / sigma) * density);
     ("weight", "radius", fun e => (dAdr e * t e + A e * (p e * SF / sigma)) * density);
     ("weight", "length", fun e => dAdL e * t e * density)]
|}.

(** structural.py:337 *)
Definition t_cyl (SF Y p r L : R) : R := upow (p * SF * L * upow r (15/10) / (92/100 * Y)) (1 / (25/10)).
(** structural.py:340 *)
Definition t_sph (SF Y p r : R) : R := r * sqrt (p * SF / (365/1000 * Y)).
(** structural.py:323-385; [Y] is Young's modulus.  [t_cyl.item() > t_sph.item()]
    chooses the branch of the partials. *)
Definition VacuumWall (SF stiff Y density : R) : pcomp :=
  let p e : R := e "design_pressure_differential" in let r e : R := e "radius" in let L e : R := e "length" in
  let tc e := t_cyl SF Y (p e) (r e) (L e) in let ts e := t_sph SF Y (p e) (r e) in
  let first e := Rpower (p e * SF * L e * upow (r e) (15/10) / (92/100 * Y)) (1 / (25/10) - 1) / (25/10) in
  let short e (v : R) : R := if Rlt_dec (L e) (1/1000000) then 0 else v in
  let dtc_dp e := short e (first e * SF * L e * upow (r e) (15/10) / (92/100 * Y)) in
  let dtc_dr e := short e (first e * p e * SF * L e * upow (r e) (5/10) / (92/100 * Y) * (15/10)) in
  let dtc_dL e := short e (first e * p e * SF * upow (r e) (15/10) / (92/100 * Y)) in
  let dts_dp e := 5/10 * r e * Rpower (p e * SF / (365/1000 * Y)) (- (5/10)) * SF / (365/1000 * Y) in
  let dts_dr e := ts e / r e in
  let pick e (a b : R) : R := if Rlt_dec (ts e) (tc e) then a else b in
  let t e := stiff * Rmax (tc e) (ts e) in
  let A e := shell_area (r e) (L e) in
  let dAdr e := 8 * PI * r e + 2 * PI * L e in let dAdL e := 2 * PI * r e in
  let Jp e := pick e (dtc_dp e) (dts_dp e) * stiff in
  let Jr e := pick e (dtc_dr e) (dts_dr e) * stiff in
  let JL e := pick e (dtc_dL e) 0 * stiff in {|
  pc_ins := [("design_pressure_differential", Sca); ("radius", Sca); ("length", Sca)];
  pc_outs := [("thickness", (Sca, t)); ("weight", (Sca, fun e => A e * t e * density))];
  pc_J :=
    [("thickness", "design_pressure_differential", Jp); ("thickness", "radius", Jr); ("thickness", "length", JL);
     ("weight", "design_pressure_differential", fun e => A e * Jp e * density);
     ("weight", "radius", fun e => (dAdr e * t e + A e * Jr e) * density);
     ("weight", "length", fun e => (dAdL e * t e + A e * JL e) * density)]
|}.

(** structural.py:416-455 *)
Definition MLIWeight (W_foil W_spacer : R) : pcomp :=
  let r e : R := e "radius" in let L e : R := e "length" in let N e : R := e "N_layers" in
  let A e := shell_area (r e) (L e) in {|
  pc_ins := [("radius", Sca); ("length", Sca); ("N_layers", Sca)];
  pc_outs := [("weight", (Sca, fun e => (W_foil + W_spacer) * N e * A e))];
  pc_J :=
    [("weight", "N_layers", fun e => (W_foil + W_spacer) * A e);
     ("weight", "radius", fun e => (W_foil + W_spacer) * N e * (8 * PI * r e + 2 * PI * L e));
     ("weight", "length", fun e => (W_foil + W_spacer) * N e * (2 * PI * r e))]
|}.

(** structural.py:72-80: options of the tank group. *)
Record tank_opts := {
  fudge : R; stiffening : R; inner_SF : R; inner_yield : R; inner_density : R;
  outer_SF : R; outer_Y : R; outer_density : R
}.
(** structural.py:72-80, the defaults. *)
Definition default_tank : tank_opts :=
  {| fudge := 11/10; stiffening := 8/10; inner_SF := 15/10; inner_yield := 413700000; inner_density := 2796;
     outer_SF := 2; outer_Y := 80000000000; outer_density := 2699 |}.
(** structural.py:96-106 *)
Definition outer_radius_comp : add_sys :=
  {| as_out := "outer_radius"; as_ins := ["radius"; "vacuum_gap"]; as_vec := VInt 1; as_len := 1; as_sf := Some [1; 1]; as_units := Some "m" |}.
(** structural.py:124-136 *)
Definition total_weight_comp (w : R) : add_sys :=
  {| as_out := "weight"; as_ins := ["W_outer"; "W_inner"; "W_MLI"]; as_vec := VInt 1; as_len := 1; as_sf := Some [w; w; w]; as_units := Some "kg" |}.
(** structural.py:82-142: the group VacuumTankWeight, its subsystems in order.
    The promoted aliases and connections are applied with [put]. *)
Definition vacuum_tank (o : tank_opts) (E : env) : res (R * R * R * R * R) :=
  let inner := vcompute (PressureVesselWall (inner_SF o) (inner_yield o) (inner_density o))
                 (put E "design_pressure_differential" (E "max_expected_operating_pressure")) in
  res_bind (add_compute outer_radius_comp E 0) (fun ro =>
  let outer := vcompute (VacuumWall (outer_SF o) (stiffening o) (outer_Y o) (outer_density o))
                 (put (put E "design_pressure_differential" (E "environment_design_pressure")) "radius" (fun _ => ro)) in
  let mli := vcompute (MLIWeight (18/1000) (12/1000)) E in
  res_bind (add_compute (total_weight_comp (fudge o))
     (put (put (put E "W_inner" (inner "weight")) "W_outer" (outer "weight")) "W_MLI" (mli "weight")) 0) (fun w =>
  Ok (w, ro, inner "weight" 0%nat, outer "weight" 0%nat, mli "weight" 0%nat))).
Definition tank_weight (o : tank_opts) (E : env) : res R := res_bind (vacuum_tank o E) (fun t => Ok (fst (fst (fst (fst t))))).

(** ** LH2_tank_no_boil_off.py *)
(** LH2_tank_no_boil_off.py:246, 257 *)
Definition tank_volume (r L : R) : R := 4/3 * PI * r ^ 3 + PI * r ^ 2 * L.
(** LH2_tank_no_boil_off.py:219-270 *)
Definition InitialLH2Mass (fill0 rho : R) : pcomp :=
  let r e : R := e "radius" in let L e : R := e "length" in
  let V e := tank_volume (r e) (L e) in
  let V_r e := 4 * PI * r e ^ 2 + 2 * PI * r e * L e in let V_L e := PI * r e ^ 2 in
  let m e := V e * fill0 * rho - e "delta_m_liq" in {|
  pc_ins := [("radius", Sca); ("length", Sca); ("delta_m_liq", Vec)];
  pc_outs := [("m_liq", (Vec, m)); ("fill_level", (Vec, fun e => m e / (rho * V e)))];
  pc_J :=
    [("m_liq", "delta_m_liq", fun _ => - (1));
     ("m_liq", "radius", fun e => V_r e * fill0 * rho);
     ("m_liq", "length", fun e => V_L e * fill0 * rho);
     ("fill_level", "delta_m_liq", fun e => - (1) / (rho * V e));
     ("fill_level", "radius", fun e => V_r e * fill0 * rho / (rho * V e) - m e / (rho * V e) ^ 2 * rho * V_r e);
     ("fill_level", "length", fun e => V_L e * fill0 * rho / (rho * V e) - m e / (rho * V e) ^ 2 * rho * V_L e)]
|}.
(** LH2_tank_no_boil_off.py:168-178 *)
Definition tank_sum (nn : nat) : add_sys :=
  {| as_out := "total_weight"; as_ins := ["m_liq"; "tank_weight"]; as_vec := VList [nn; 1%nat]; as_len := 1; as_sf := None; as_units := Some "kg" |}.
(** LH2_tank_no_boil_off.py:117-184: the group LH2TankNoBoilOff; [tri] is the
    Simpson matrix, [delta0] the promoted initial value of the integrator (linked
    between phases). *)
Definition lh2_tank (nn : nat) (tri : mat) (fill0 rho : R) (o : tank_opts) (duration delta0 : R) (E : env) : res env :=
  res_bind (tank_weight o E) (fun tw =>
  let E1 := put E "tank_weight" (fun _ => tw) in
  let E2 := put E1 "delta_m_liq" (integ_q nn tri (TDuration duration) false delta0 (E "m_dot_liq")) in
  let E3 := run_comp (InitialLH2Mass fill0 rho) E2 in
  res_bind (add_compute (tank_sum nn) E3 0) (fun _ =>
  Ok (put E3 "total_weight" (fun i => match add_compute (tank_sum nn) E3 i with Ok w => w | Err _ => 0 end)))).
