(** Model of the components of openconcept/mission/phases.py.

    Simplifications: exact reals; a division by zero (inf or NaN in numpy) is
    Coq's [/ 0], so theorems assume nonzero denominators. *)
From Verif Require Import Base.
Open Scope R_scope.
Open Scope string_scope.

(** utilities/constants.py:7 *)
Definition GRAV : R := 980665/100000.

(** phases.py:38-57 *)
Definition ClimbAngleComp : pcomp := {|
  pc_ins := [("drag", Vec); ("weight", Vec); ("thrust", Vec)];
  pc_outs := [("gamma", (Vec, fun e => asin ((e "thrust" - e "drag") / e "weight" / GRAV)))];
  pc_J :=
    let q e := (e "thrust" - e "drag") / e "weight" / GRAV in
    let d e := 1 / sqrt (1 - q e ^ 2) in
    [("gamma", "thrust", fun e => d e / e "weight" / GRAV);
     ("gamma", "drag", fun e => - d e / e "weight" / GRAV);
     ("gamma", "weight", fun e => - d e * (e "thrust" - e "drag") / e "weight" ^ 2 / GRAV)]
|}.

(** ** BFLImplicitSolve (scalar variables) *)
Definition speedtol : R := 1/10.
(** phases.py:153-169.  The second [if] overwrites the residual. *)
Definition bfl_residual (dcont dabort vr v1 : R) : R :=
  let r0 := if Rlt_dec vr (v1 + speedtol) then vr - v1 else dcont - dabort in
  if Rge_dec vr v1 then
    if Rlt_dec (vr - v1) speedtol then
      if Rgt_dec (dabort - dcont) 0 then dcont - dabort else r0
    else r0
  else r0.
(** phases.py:171-195: the four partials (wrt dcont, dabort, vr, v1). *)
Record bfl_partials := { b_cont : R; b_abort : R; b_vr : R; b_v1 : R }.
Definition bfl_linearize (dcont dabort vr v1 : R) : bfl_partials :=
  let bal := {| b_cont := 1; b_abort := -1; b_vr := 0; b_v1 := 0 |} in
  let p0 := if Rlt_dec vr (v1 + speedtol) then {| b_cont := 0; b_abort := 0; b_vr := 1; b_v1 := -1 |} else bal in
  if Rge_dec vr v1 then
    if Rlt_dec (vr - v1) speedtol then
      if Rgt_dec (dabort - dcont) 0 then bal else p0
    else p0
  else p0.

(** phases.py:234-276.  [np.sqrt] of a negative number is NaN, so
    [np.isnan(groundspeed)] is [inside < 0]. *)
Definition gs_inside (e : nenv) : R := e "fltcond|Utrue" ^ 2 - e "fltcond|vs" ^ 2.
Definition gs_fixed (e : nenv) : R := sqrt (if Rlt_dec (gs_inside e) 0 then 1/100 else gs_inside e).
Definition gs_J_vs (e : nenv) : R :=
  if Rlt_dec (gs_inside e) 0 then 0 else (1/2) / gs_fixed e * (-2) * e "fltcond|vs".
Definition gs_J_U (e : nenv) : R :=
  if Rlt_dec (gs_inside e) 0 then 0 else (1/2) / gs_fixed e * 2 * e "fltcond|Utrue".
Definition Groundspeeds : pcomp := {|
  pc_ins := [("fltcond|vs", Vec); ("fltcond|Utrue", Vec)];
  pc_outs :=
    [("fltcond|groundspeed", (Vec, gs_fixed));
     ("fltcond|singamma", (Vec, fun e => if Rlt_dec (gs_inside e) 0 then 1 else e "fltcond|vs" / e "fltcond|Utrue"));
     ("fltcond|cosgamma", (Vec, fun e => gs_fixed e / e "fltcond|Utrue"))];
  pc_J :=
    [("fltcond|groundspeed", "fltcond|vs", gs_J_vs);
     ("fltcond|groundspeed", "fltcond|Utrue", gs_J_U);
     ("fltcond|singamma", "fltcond|vs", fun e => if Rlt_dec (gs_inside e) 0 then 0 else 1 / e "fltcond|Utrue");
     ("fltcond|singamma", "fltcond|Utrue", fun e =>
        if Rlt_dec (gs_inside e) 0 then 0 else - e "fltcond|vs" / e "fltcond|Utrue" ^ 2);
     ("fltcond|cosgamma", "fltcond|vs", fun e => gs_J_vs e / e "fltcond|Utrue");
     ("fltcond|cosgamma", "fltcond|Utrue", fun e =>
        (gs_J_U e * e "fltcond|Utrue" - gs_fixed e) / e "fltcond|Utrue" ^ 2)]
|}.

(** phases.py:309-350 *)
Definition floor_vec (e : nenv) : R := if Rlt_dec (GRAV - e "lift" / e "weight") 0 then 0 else 1.
Definition HorizontalAcceleration : pcomp := {|
  pc_ins := [("weight", Vec); ("drag", Vec); ("lift", Vec); ("thrust", Vec); ("fltcond|singamma", Vec); ("braking", Vec)];
  pc_outs := [("accel_horiz", (Vec, fun e =>
      e "thrust" / e "weight" - e "drag" / e "weight"
      - floor_vec e * e "braking" * (GRAV - e "lift" / e "weight") - GRAV * e "fltcond|singamma"))];
  pc_J :=
    [("accel_horiz", "fltcond|singamma", fun _ => - GRAV * 1);
     ("accel_horiz", "thrust", fun e => 1 / e "weight");
     ("accel_horiz", "drag", fun e => -1 / e "weight");
     ("accel_horiz", "braking", fun e => - floor_vec e * (GRAV - e "lift" / e "weight"));
     ("accel_horiz", "lift", fun e => floor_vec e * e "braking" / e "weight");
     ("accel_horiz", "weight", fun e =>
        (e "drag" - e "thrust" - floor_vec e * e "braking" * e "lift") / e "weight" ^ 2)]
|}.

(** np.clip(x, lo, hi) = minimum(maximum(x, lo), hi) *)
Definition clip (x lo hi : R) : R := Rmin (Rmax x lo) hi.
(** phases.py:384-424 *)
Definition raw_vert (e : nenv) : R :=
  (e "lift" * e "fltcond|cosgamma" + (e "thrust" - e "drag") * e "fltcond|singamma" - GRAV * e "weight") / e "weight".
Definition VerticalAcceleration : pcomp := {|
  pc_ins := [("weight", Vec); ("drag", Vec); ("lift", Vec); ("thrust", Vec); ("fltcond|singamma", Vec); ("fltcond|cosgamma", Vec)];
  pc_outs := [("accel_vert", (Vec, fun e => clip (raw_vert e) (- GRAV) (25/10 * GRAV)))];
  pc_J :=
    [("accel_vert", "thrust", fun e => e "fltcond|singamma" / e "weight");
     ("accel_vert", "drag", fun e => - e "fltcond|singamma" / e "weight");
     ("accel_vert", "lift", fun e => e "fltcond|cosgamma" / e "weight");
     ("accel_vert", "fltcond|singamma", fun e => (e "thrust" - e "drag") / e "weight");
     ("accel_vert", "fltcond|cosgamma", fun e => e "lift" / e "weight");
     ("accel_vert", "weight", fun e =>
        - (e "lift" * e "fltcond|cosgamma" + (e "thrust" - e "drag") * e "fltcond|singamma") / e "weight" ^ 2)]
|}.

(** phases.py:462-503 *)
Definition SteadyFlightCL : pcomp := {|
  pc_ins := [("weight", Vec); ("fltcond|q", Vec); ("ac|geom|wing|S_ref", Sca); ("fltcond|cosgamma", Vec)];
  pc_outs := [("fltcond|CL", (Vec, fun e => e "fltcond|cosgamma" * GRAV * e "weight" / e "fltcond|q" / e "ac|geom|wing|S_ref"))];
  pc_J :=
    [("fltcond|CL", "weight", fun e => e "fltcond|cosgamma" * GRAV / e "fltcond|q" / e "ac|geom|wing|S_ref");
     ("fltcond|CL", "fltcond|q", fun e =>
        - e "fltcond|cosgamma" * GRAV * e "weight" / e "fltcond|q" ^ 2 / e "ac|geom|wing|S_ref");
     ("fltcond|CL", "ac|geom|wing|S_ref", fun e =>
        - e "fltcond|cosgamma" * GRAV * e "weight" / e "fltcond|q" / e "ac|geom|wing|S_ref" ^ 2);
     ("fltcond|CL", "fltcond|cosgamma", fun e => GRAV * e "weight" / e "fltcond|q" / e "ac|geom|wing|S_ref")]
|}.

(** aerodynamics/aerodynamics.py:128-148 (used by the phases) *)
Definition Lift : pcomp := {|
  pc_ins := [("fltcond|CL", Vec); ("fltcond|q", Vec); ("ac|geom|wing|S_ref", Sca)];
  pc_outs := [("lift", (Vec, fun e => e "fltcond|q" * e "ac|geom|wing|S_ref" * e "fltcond|CL"))];
  pc_J :=
    [("lift", "fltcond|q", fun e => e "ac|geom|wing|S_ref" * e "fltcond|CL");
     ("lift", "fltcond|CL", fun e => e "fltcond|q" * e "ac|geom|wing|S_ref");
     ("lift", "ac|geom|wing|S_ref", fun e => e "fltcond|q" * e "fltcond|CL")]
|}.

(** ** TakeoffTransition, phases.py:1171-1229; options [hobs], [lf] *)
Definition tt_R (lf : R) (e : nenv) : R := e "fltcond|Utrue" ^ 2 / (lf - 1) / GRAV.
Definition tt_dR (lf : R) (e : nenv) : R := 2 * e "fltcond|Utrue" / (lf - 1) / GRAV.
Definition tt_ht (lf : R) (e : nenv) : R := tt_R lf e * (1 - cos (e "gamma")).
Definition tt_st (hobs lf : R) (e : nenv) : R :=
  if Rgt_dec (tt_ht lf e) hobs then sqrt (tt_R lf e ^ 2 - (tt_R lf e - hobs) ^ 2)
  else tt_R lf e * sin (e "gamma").
Definition tt_dst_U (hobs lf : R) (e : nenv) : R :=
  if Rgt_dec (tt_ht lf e) hobs then
    1 / 2 / sqrt (tt_R lf e ^ 2 - (tt_R lf e - hobs) ^ 2)
      * (2 * tt_R lf e * tt_dR lf e - 2 * (tt_R lf e - hobs) * tt_dR lf e)
  else tt_dR lf e * sin (e "gamma").
Definition tt_dst_g (hobs lf : R) (e : nenv) : R :=
  if Rgt_dec (tt_ht lf e) hobs then 0 else tt_R lf e * cos (e "gamma").
Definition TakeoffTransition (hobs lf : R) : pcomp := {|
  pc_ins := [("fltcond|Utrue", Sca); ("gamma", Sca)];
  pc_outs :=
    [("s_transition", (Sca, tt_st hobs lf));
     ("h_transition", (Sca, fun e => if Rgt_dec (tt_ht lf e) hobs then hobs else tt_ht lf e));
     ("t_transition", (Sca, fun e => tt_st hobs lf e / e "fltcond|Utrue"))];
  pc_J :=
    [("s_transition", "gamma", tt_dst_g hobs lf);
     ("s_transition", "fltcond|Utrue", tt_dst_U hobs lf);
     ("h_transition", "gamma", fun e => if Rgt_dec (tt_ht lf e) hobs then 0 else tt_R lf e * sin (e "gamma"));
     ("h_transition", "fltcond|Utrue", fun e => if Rgt_dec (tt_ht lf e) hobs then 0 else tt_dR lf e * (1 - cos (e "gamma")));
     ("t_transition", "gamma", fun e => tt_dst_g hobs lf e / e "fltcond|Utrue");
     ("t_transition", "fltcond|Utrue", fun e =>
        (tt_dst_U hobs lf e * e "fltcond|Utrue" - tt_st hobs lf e) / e "fltcond|Utrue" ^ 2)]
|}.

(** phases.py:1254-1288 *)
Definition tc_s (hobs : R) (e : nenv) : R := (hobs - e "h_transition") / tan (e "gamma").
Definition tc_s_g (hobs : R) (e : nenv) : R :=
  - (hobs - e "h_transition") / tan (e "gamma") ^ 2 * (1 / cos (e "gamma")) ^ 2.
Definition TakeoffClimb (hobs : R) : pcomp := {|
  pc_ins := [("h_transition", Sca); ("gamma", Sca); ("fltcond|Utrue", Sca)];
  pc_outs := [("s_climb", (Sca, tc_s hobs)); ("t_climb", (Sca, fun e => tc_s hobs e / e "fltcond|Utrue"))];
  pc_J :=
    [("s_climb", "gamma", tc_s_g hobs);
     ("s_climb", "h_transition", fun e => -1 / tan (e "gamma"));
     ("t_climb", "gamma", fun e => tc_s_g hobs e / e "fltcond|Utrue");
     ("t_climb", "h_transition", fun e => -1 / tan (e "gamma") / e "fltcond|Utrue");
     ("t_climb", "fltcond|Utrue", fun e => - tc_s hobs e / e "fltcond|Utrue" ^ 2)]
|}.

(** ** RobustRotationPhase.setup, the distance chain, phases.py:1336-1469.
    Option [h_obstacle] is declared (1339-1342) and never read; the transition
    and climb components are built with their own defaults (1428-1434), the
    node-0 speed and angle go to the transition, the last node's to the climb;
    the final height is the constant 35 ft (1371, 1451-1456). *)
Definition ft : R := 3048/10000.
Record rotation_out := { ro_range_final : R; ro_duration : R; ro_h_final : R }.
Definition rotation_phase (h_obstacle_option : R) (n : nat) (U gamma : nat -> R) (range_initial : R) : rotation_out :=
  let e0 : nenv := fun x => if String.eqb x "fltcond|Utrue" then U 0%nat else gamma 0%nat in
  let TT := TakeoffTransition (1066/100) (12/10) in
  let s := nval TT "s_transition" e0 in
  let h := nval TT "h_transition" e0 in
  let t := nval TT "t_transition" e0 in
  let e1 : nenv := fun x => if String.eqb x "fltcond|Utrue" then U (n - 1)%nat
                            else if String.eqb x "gamma" then gamma (n - 1)%nat else h in
  let TC := TakeoffClimb (1066/100) in
  {| ro_range_final := range_initial + s + nval TC "s_climb" e1;
     ro_duration := t + nval TC "t_climb" e1;
     ro_h_final := 35 * ft |}.
