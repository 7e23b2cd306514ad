(** Specification vocabulary for the aerostructural analysis of a wing. *)
From Coq Require Import Reals List Bool PeanoNat String.
From Verif Require Import Base Py Model_Algebra Model_Mesh Model_Training Model_Polar Model_Aerostruct.
Import ListNotations.
Open Scope string_scope.
Open Scope list_scope.
Open Scope R_scope.

Definition entries (m : nat) (f : nat -> R) : list R := map f (seq 0 m).
Definition on_mesh (nx ny : nat) (m m' : mesh) : Prop := forall ix j d, (ix < nx)%nat -> (j < ny)%nat -> (d < 3)%nat -> m ix j d = m' ix j d.
Definition box_results : list string :=
  ["A"; "Iy"; "Iz"; "J"; "Qz"; "A_enc"; "A_int"; "htop"; "hbottom"; "hfront"; "hrear"; "skin_thickness"; "spar_thickness"].
Definition beam_results (ny : nat) : list (string * nat) :=
  [("nodes", (3 * ny)%nat); ("local_stiff_transformed", (144 * (ny - 1))%nat); ("structural_mass", 1%nat); ("cg_location", 3%nat); ("element_mass", (ny - 1)%nat)].

(** The structure of the wing with the design variables in [V]: the trapezoidal planform, turned by the twist; wing boxes of
    the given thicknesses in it; the beam these boxes make. *)
Record wing_structure (T : tools) (A : structures) (o : structure_options) (V : env) (m toverc : nat -> R) (box beam : env) : Prop := {
  ws_mesh : let nx := (so_x o + 1)%nat in let ny := (so_y o + 1)%nat in exists plane twist,
    on_mesh nx ny plane (trapezoid_mesh nx ny {| tz_S := V "ac|geom|wing|S_ref" 0%nat; tz_AR := V "ac|geom|wing|AR" 0%nat;
      tz_taper := V "ac|geom|wing|taper" 0%nat; tz_sweep := V "ac|geom|wing|c4sweep" 0%nat |}) /\
    (forall j, (j < ny)%nat -> twist j = t_spline T (so_twist o) ny (V "ac|geom|wing|twist") j) /\
    on_mesh nx ny (as_mesh ny m) (t_rotate T nx ny plane twist);
  ws_toverc : forall j, (j < so_y o)%nat -> toverc j = t_spline T (so_toverc o) (so_y o) (V "ac|geom|wing|toverc") j;
  ws_box : forall x i, In x box_results -> (i < so_y o)%nat -> box x i = st_box A (so_x o + 1) (so_y o + 1) (structure_dict o)
    [("mesh", entries (3 * ((so_x o + 1) * (so_y o + 1))) m); ("t_over_c", entries (so_y o) toverc);
     ("skin_thickness_cp", entries (so_skin o) (V "ac|geom|wing|skin_thickness")); ("spar_thickness_cp", entries (so_spar o) (V "ac|geom|wing|spar_thickness"))] x i;
  ws_beam : forall x k i, In (x, k) (beam_results (so_y o + 1)) -> (i < k)%nat -> beam x i = st_beam A (so_x o + 1) (so_y o + 1) (structure_dict o)
    (("mesh", entries (3 * ((so_x o + 1) * (so_y o + 1))) m) :: map (fun x => (x, entries (so_y o) (box x))) ["A"; "Iy"; "Iz"; "J"; "A_int"]) x i }.

(** What the point is analysed with: the flow, the flight, and the structure. *)
Definition point_inputs (o : structure_options) (v rho re a : R) (V : env) (m toverc : nat -> R) (box beam : env) (fuel : R) : list (string * list R) :=
  let n := so_y o in
  [("v", [v]); ("rho", [rho]); ("re", [re]); ("speed_of_sound", [a]); ("Mach_number", [V "fltcond|M" 0%nat]); ("alpha", [V "fltcond|alpha" 0%nat]); ("W0", [V "W0" 0%nat]);
   ("load_factor", [V "load_factor" 0%nat]); ("coupled.load_factor", [V "load_factor" 0%nat]); ("total_perf.wing_structural_mass", [beam "structural_mass" 0%nat]);
   ("empty_cg", entries 3 (V "empty_cg")); ("coupled.wing.mesh", entries (3 * ((so_x o + 1) * (n + 1))) m);
   ("coupled.wing.local_stiff_transformed", entries (144 * n) (beam "local_stiff_transformed")); ("coupled.wing.nodes", entries (3 * (n + 1)) (beam "nodes"));
   ("wing_perf.nodes", entries (3 * (n + 1)) (beam "nodes")); ("total_perf.wing_cg_location", entries 3 (beam "cg_location")); ("wing_perf.t_over_c", entries n toverc)] ++
  map (fun x => (String.append "wing_perf." x, entries n (box x))) ["spar_thickness"; "A_enc"; "Qz"; "J"; "htop"; "hbottom"; "hfront"; "hrear"] ++
  [("total_perf.L_equals_W.fuelburn", [fuel])] ++
  match assoc "struct_weight_relief" (structure_dict o) with Some (SBool false) => [] | _ => [("coupled.wing.element_mass", entries n (beam "element_mass"))] end.

(** Variables of the design of the wing. *)
Definition wing_design : list string :=
  ["ac|geom|wing|S_ref"; "ac|geom|wing|AR"; "ac|geom|wing|taper"; "ac|geom|wing|c4sweep"; "ac|geom|wing|twist"; "ac|geom|wing|toverc"; "ac|geom|wing|skin_thickness"; "ac|geom|wing|spar_thickness"].
(** Turning a mesh takes the points of the mesh and the twists at them. *)
Definition turns_points (T : tools) : Prop := forall nx ny m m' t t', on_mesh nx ny m m' -> (forall j, (j < ny)%nat -> t j = t' j) -> on_mesh nx ny (t_rotate T nx ny m t) (t_rotate T nx ny m' t').
