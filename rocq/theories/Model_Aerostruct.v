(** Model of the aerostructural analysis of a wing, the group Aerostruct
    (openconcept/aerodynamics/openaerostruct/aerostructural.py:759-1314).

    Parameters: OpenAeroStruct's WingboxGroup, SpatialBeamSetup and AerostructPoint, its [Rotate] component
    and OpenMDAO's b-splines ([tools]).  The names of the variables are those of the surface called "wing".
    Arrays are given to OpenAeroStruct with the sizes the code declares.  The initial values
    (aerostructural.py:1289-1296) and the solver of the point are not modelled, its converged result is. *)
From Coq Require Import Reals List Bool PeanoNat String ZArith.
From Verif Require Import Base Py Model_Algebra Model_Vectors Model_Atmos Model_Aero Model_Net Model_Thermal Model_Ducts Model_Mesh Model_Training Model_Polar.
Import ListNotations.
Open Scope string_scope.
Open Scope list_scope.
Open Scope R_scope.

(** ** The airfoil of the wing box *)
(** aerostructural.py:902-956 and 957-1011: fractions of the chord; 1012-1066 and 1067-1121: heights. *)
Definition upper_x : list R := map (fun x => IZR x / 100) [10; 11; 12; 13; 14; 15; 16; 17; 18; 19; 20; 21; 22; 23; 24; 25; 26; 27; 28; 29; 30; 31; 32; 33; 34; 35; 36; 37; 38; 39; 40; 41; 42; 43; 44; 45; 46; 47; 48; 49; 50; 51; 52; 53; 54; 55; 56; 57; 58; 59; 60]%Z.
Definition lower_x : list R := map (fun x => IZR x / 100) [10; 11; 12; 13; 14; 15; 16; 17; 18; 19; 20; 21; 22; 23; 24; 25; 26; 27; 28; 29; 30; 31; 32; 33; 34; 35; 36; 37; 38; 39; 40; 41; 42; 43; 44; 45; 46; 47; 48; 49; 50; 51; 52; 53; 54; 55; 56; 57; 58; 59; 60]%Z.
Definition upper_y : list R := map (fun x => IZR x / 10000) [447; 460; 472; 484; 495; 505; 514; 523; 531; 538; 545; 551; 557; 563; 568; 573; 577; 581; 585; 588; 591; 593; 595; 597; 599; 600; 601; 602; 602; 602; 602; 602; 601; 600; 599; 598; 596; 594; 592; 589; 586; 583; 580; 576; 572; 568; 563; 558; 553; 547; 541]%Z.
Definition lower_y : list R := map (fun x => IZR x / 10000) [-(447); -(460); -(473); -(485); -(496); -(506); -(515); -(524); -(532); -(540); -(547); -(554); -(560); -(565); -(570); -(575); -(579); -(583); -(586); -(589); -(592); -(594); -(595); -(596); -(597); -(598); -(598); -(598); -(598); -(597); -(596); -(594); -(592); -(589); -(586); -(582); -(578); -(573); -(567); -(561); -(554); -(546); -(538); -(529); -(519); -(509); -(497); -(485); -(472); -(458); -(444)]%Z.

(** ** Options *)
(** aerostructural.py:841-848 *)
Record structure_options := { so_x : nat; so_y : nat; so_twist : nat; so_toverc : nat; so_skin : nat; so_spar : nat; so_surf : option surf }.
(** aerostructural.py:1130-1172, without the mesh *)
Definition default_structure (o : structure_options) : surf :=
  [("name", SStr "wing"); ("symmetry", SBool true); ("S_ref_type", SStr "projected"); ("fem_model_type", SStr "wingbox");
   ("data_x_upper", SArr upper_x); ("data_x_lower", SArr lower_x); ("data_y_upper", SArr upper_y); ("data_y_lower", SArr lower_y);
   ("twist_cp", SArr (repeat 1 (so_twist o))); ("spar_thickness_cp", SArr (repeat 1 (so_spar o))); ("skin_thickness_cp", SArr (repeat 1 (so_skin o)));
   ("t_over_c_cp", SArr (repeat 1 (so_toverc o))); ("original_wingbox_airfoil_t_over_c", SNum (12/100)); ("thickness_cp", SArr [1/10; 2/10; 3/10]);
   ("CL0", SNum 0); ("CD0", SNum (78/10000)); ("k_lam", SNum (5/100)); ("c_max_t", SNum (38/100)); ("with_viscous", SBool true); ("with_wave", SBool true);
   ("E", SNum (731 * 10 ^ 8)); ("G", SNum (731 * 10 ^ 8 / 2 / (133/100))); ("yield", SNum (420 * 10 ^ 6 / (15/10))); ("mrho", SNum 2780); ("fem_origin", SNum (35/100));
   ("wing_weight_ratio", SNum (125/100)); ("strength_factor_for_upper_skin", SNum 1); ("struct_weight_relief", SBool true); ("distributed_fuel_weight", SBool false);
   ("exact_failure_constraint", SBool false)].
(** aerostructural.py:1175-1177 *)
Definition structure_dict (o : structure_options) : surf :=
  match so_surf o with None => default_structure o | Some u => fold_left (fun s e => put_key s (fst e) (snd e)) u (default_structure o) end.
(** aerostructural.py:1302; a value that is not a boolean counts as true. *)
Definition relief (s : surf) : bool := match assoc "struct_weight_relief" s with Some (SBool b) => b | _ => true end.

(** ** OpenAeroStruct *)
(** The entries of arrays, by name. *)
Definition arrays_of (I : env) (l : list (string * nat)) : list (string * list R) := map (fun p => (fst p, map (I (fst p)) (seq 0 (snd p)))) l.
Record structures := {
  st_box : nat -> nat -> surf -> list (string * list R) -> string -> nat -> R;   (* WingboxGroup: points, surface, inputs, output *)
  st_beam : nat -> nat -> surf -> list (string * list R) -> string -> nat -> R;  (* SpatialBeamSetup *)
  st_point : nat -> nat -> surf -> list (string * list R) -> list (string * list R) -> Prop (* AerostructPoint: inputs and converged outputs *)
}.
(** A component of OpenAeroStruct with inputs [ins] and outputs [outs]. *)
Definition oas_sub (name : string) (f : list (string * list R) -> string -> nat -> R) (ins outs : list (string * nat)) (pin pout : list promo) : gsub := {|
  gs_name := name; gs_ins := map fst ins; gs_outs := map fst outs;
  gs_rel := fun I O => forall o m i, In (o, m) outs -> (i < m)%nat -> O o i = f (arrays_of I ins) o i;
  gs_pin := pin; gs_pout := pout |}.
(** aerostructural.py:1221-1238 *)
Definition box_ins (o : structure_options) (nx ny : nat) : list (string * nat) :=
  [("mesh", (nx * ny * 3)%nat); ("t_over_c", (ny - 1)%nat); ("skin_thickness_cp", so_skin o); ("spar_thickness_cp", so_spar o)].
Definition box_outs (ny : nat) : list (string * nat) :=
  map (fun x => (x, (ny - 1)%nat)) ["A"; "Iy"; "Iz"; "J"; "Qz"; "A_enc"; "A_int"; "htop"; "hbottom"; "hfront"; "hrear"; "skin_thickness"; "spar_thickness"].
(** aerostructural.py:1241-1253 *)
Definition beam_ins (nx ny : nat) : list (string * nat) := ("mesh", (nx * ny * 3)%nat) :: map (fun x => (x, (ny - 1)%nat)) ["A"; "Iy"; "Iz"; "J"; "A_int"].
Definition beam_outs (ny : nat) : list (string * nat) :=
  [("nodes", (ny * 3)%nat); ("local_stiff_transformed", ((ny - 1) * 12 * 12)%nat); ("structural_mass", 1%nat); ("cg_location", 3%nat); ("element_mass", (ny - 1)%nat)].

(** ** The wing: aerostructural.py:1182-1253 *)
Definition named_sub (name : string) (s : gsub) : gsub := {| gs_name := name; gs_ins := gs_ins s; gs_outs := gs_outs s; gs_rel := gs_rel s; gs_pin := gs_pin s; gs_pout := gs_pout s |}.
(** aerostructural.py:1195-1205 *)
Definition thickness_sub (T : tools) (cps n : nat) (pin pout : list promo) : gsub := {|
  gs_name := "t_over_c_bsp"; gs_ins := ["t_over_c_cp"]; gs_outs := ["t_over_c"];
  gs_rel := fun I O => forall j, (j < n)%nat -> O "t_over_c" j = t_spline T cps n (I "t_over_c_cp") j;
  gs_pin := pin; gs_pout := pout |}.
Definition wing_group (T : tools) (A : structures) (o : structure_options) : group :=
  let nx := (so_x o + 1)%nat in let ny := (so_y o + 1)%nat in let s := structure_dict o in {|
  g_subs :=
    [spline_sub T (so_twist o) ny [As "twist_cp" "ac|geom|wing|twist"] [];
     thickness_sub T (so_toverc o) (ny - 1) [As "t_over_c_cp" "ac|geom|wing|toverc"] [P "t_over_c"];
     named_sub "mesh_gen" (trapezoid_sub nx ny [P "*"] []);
     rotate_sub T nx ny [] [P "mesh"];
     oas_sub "wingbox_group" (st_box A nx ny s) (box_ins o nx ny) (box_outs ny) [P "mesh"; P "t_over_c"; P "skin_thickness_cp"; P "spar_thickness_cp"] (map (fun p => P (fst p)) (box_outs ny));
     oas_sub "struct_setup" (st_beam A nx ny s) (beam_ins nx ny) (beam_outs ny) [P "mesh"; P "A"; P "Iy"; P "Iz"; P "J"; P "A_int"]
       [P "nodes"; P "local_stiff_transformed"; As "structural_mass" "ac|weights|W_wing"; P "cg_location"; P "element_mass"]];
  g_conns := [("twist_bsp.twist", "twist_mesh.twist"); ("mesh_gen.mesh", "twist_mesh.in_mesh")] |}.

(** ** The point: aerostructural.py:1271-1285 *)
Definition point_ins (nx ny : nat) (r : bool) : list (string * nat) :=
  (map (fun x => (x, 1%nat)) ["v"; "rho"; "re"; "speed_of_sound"; "Mach_number"; "alpha"; "W0"; "load_factor"; "coupled.load_factor"; "total_perf.wing_structural_mass"] ++
  [("empty_cg", 3%nat); ("coupled.wing.mesh", (nx * ny * 3)%nat); ("coupled.wing.local_stiff_transformed", ((ny - 1) * 12 * 12)%nat);
   ("coupled.wing.nodes", (ny * 3)%nat); ("wing_perf.nodes", (ny * 3)%nat); ("total_perf.wing_cg_location", 3%nat); ("wing_perf.t_over_c", (ny - 1)%nat)] ++
  map (fun x => (x, (ny - 1)%nat)) ["wing_perf.spar_thickness"; "wing_perf.A_enc"; "wing_perf.Qz"; "wing_perf.J"; "wing_perf.htop"; "wing_perf.hbottom"; "wing_perf.hfront"; "wing_perf.hrear"] ++
  [("total_perf.L_equals_W.fuelburn", 1%nat)] ++ if r then [("coupled.wing.element_mass", (ny - 1)%nat)] else [])%list.
Definition point_outs : list (string * nat) := [("CL", 1%nat); ("CD", 1%nat); ("wing_perf.failure", 1%nat); ("fuelburn", 1%nat)].
Definition point_sub (A : structures) (o : structure_options) : gsub :=
  let nx := (so_x o + 1)%nat in let ny := (so_y o + 1)%nat in let s := structure_dict o in {|
  gs_name := "aerostruct_point"; gs_ins := map fst (point_ins nx ny (relief s)); gs_outs := map fst point_outs;
  gs_rel := fun I O => st_point A nx ny s (arrays_of I (point_ins nx ny (relief s))) (arrays_of O point_outs);
  gs_pin := [As "Mach_number" "fltcond|M"; As "alpha" "fltcond|alpha"; P "W0"; P "empty_cg"; P "load_factor"; As "coupled.load_factor" "load_factor";
             As "total_perf.wing_structural_mass" "ac|weights|W_wing"];
  gs_pout := [As "CL" "fltcond|CL"; As "CD" "fltcond|CD"; As "wing_perf.failure" "failure"] |}.

(** aerostructural.py:850-1314 *)
Definition Aerostruct (T : tools) (A : structures) (kt kp : coeffs) (o : structure_options) : group := {|
  g_subs :=
    [temperature_sub kt; pressure_sub kp; comp 1 "density" DensityComp [] []; comp 1 "sound_speed" SpeedOfSoundComp [] [];
     comp 1 "airspeed" Airspeed [As "Mach" "fltcond|M"] []; comp 1 "Re_calc" UnitReynolds [As "h" "fltcond|h"] [];
     subgroup "wing" (wing_group T A o)
       [As "S" "ac|geom|wing|S_ref"; As "AR" "ac|geom|wing|AR"; As "taper" "ac|geom|wing|taper"; As "sweep" "ac|geom|wing|c4sweep"; P "ac|geom|wing|twist"; P "ac|geom|wing|toverc";
        As "skin_thickness_cp" "ac|geom|wing|skin_thickness"; As "spar_thickness_cp" "ac|geom|wing|spar_thickness"] [P "ac|weights|W_wing"];
     point_sub A o];
  g_conns :=
    ([("temp.fltcond|T", "density.fltcond|T"); ("pressure.fltcond|p", "density.fltcond|p"); ("temp.fltcond|T", "sound_speed.fltcond|T");
     ("sound_speed.fltcond|a", "airspeed.a"); ("density.fltcond|rho", "Re_calc.rho"); ("airspeed.Utrue", "Re_calc.u");
     ("airspeed.Utrue", "aerostruct_point.v"); ("density.fltcond|rho", "aerostruct_point.rho"); ("Re_calc.re", "aerostruct_point.re");
     ("sound_speed.fltcond|a", "aerostruct_point.speed_of_sound");
     ("wing.mesh", "aerostruct_point.coupled.wing.mesh"); ("wing.local_stiff_transformed", "aerostruct_point.coupled.wing.local_stiff_transformed");
     ("wing.nodes", "aerostruct_point.wing_perf.nodes"); ("wing.nodes", "aerostruct_point.coupled.wing.nodes")] ++
    (if relief (structure_dict o) then [("wing.element_mass", "aerostruct_point.coupled.wing.element_mass")] else []) ++
    [("wing.cg_location", "aerostruct_point.total_perf.wing_cg_location"); ("wing.t_over_c", "aerostruct_point.wing_perf.t_over_c");
     ("wing.spar_thickness", "aerostruct_point.wing_perf.spar_thickness"); ("wing.A_enc", "aerostruct_point.wing_perf.A_enc"); ("wing.Qz", "aerostruct_point.wing_perf.Qz");
     ("wing.J", "aerostruct_point.wing_perf.J"); ("wing.htop", "aerostruct_point.wing_perf.htop"); ("wing.hbottom", "aerostruct_point.wing_perf.hbottom");
     ("wing.hfront", "aerostruct_point.wing_perf.hfront"); ("wing.hrear", "aerostruct_point.wing_perf.hrear");
     ("aerostruct_point.fuelburn", "aerostruct_point.total_perf.L_equals_W.fuelburn")])%list |}.
