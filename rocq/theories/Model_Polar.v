(** Model of the surrogate drag polars and of the maximum lift coefficient built on
    OpenAeroStruct: VLMDragPolar and VLM (openconcept/aerodynamics/openaerostruct/drag_polar.py:45-376, 687-870),
    AerostructDragPolar and AerostructDragPolarExact
    (openconcept/aerodynamics/openaerostruct/aerostructural.py:46-252, 1317-1505) and CLmaxCriticalSectionVLM
    (openconcept/aerodynamics/openaerostruct/CL_max_critical_section.py).

    Parameters: OpenAeroStruct's analyses and its [Rotate] component, OpenMDAO's b-spline
    and its structured surrogate.  The tables come from the components of Model_Training,
    the meshes from those of Model_Mesh. *)
From Coq Require Import Reals List Bool PeanoNat String.
From Coq Require Import DecimalString.
From Verif Require Import Base Py Model_Algebra Model_Vectors Model_Atmos Model_Aero Model_Net Model_Thermal Model_Systems Model_Mesh Model_Training.
Import ListNotations.
Open Scope string_scope.
Open Scope list_scope.
Open Scope R_scope.

(** What the groups call outside OpenConcept (drag_polar.py:15-29, aerostructural.py:15-30: imports). *)
Record tools := {
  t_vlm : analysis;                          (* OpenAeroStruct's vortex lattice method *)
  t_struct : analysis;                       (* OpenAeroStruct's aerostructural analysis *)
  t_rotate : nat -> nat -> mesh -> (nat -> R) -> mesh;   (* Rotate: points in x and y, mesh, twist *)
  t_spline : nat -> nat -> (nat -> R) -> nat -> R;       (* SplineComp: control points, points, values *)
  t_surrogate : list R -> list R -> list R -> array3 -> R -> R -> R -> R (* MetaModelStructuredComp: grid, table, point *)
}.

(** ** Subsystems that are not node-wise *)
(** Point (ix, j, d) of a mesh variable with [ny] points along the span. *)
Definition as_mesh (ny : nat) (v : nat -> R) : mesh := fun ix j d => v (flat ny ix j d).
(** Entry (i, j, k) of a table with [b] and [c] values of the second and third coordinate. *)
Definition as_table (b c : nat) (v : nat -> R) : array3 := fun i j k => v ((i * b + j) * c + k)%nat.

(** drag_polar.py:237-247; [nx], [ny] points. *)
Definition trapezoid_sub (nx ny : nat) (pin pout : list promo) : gsub := {|
  gs_name := "gen_mesh"; gs_ins := ["S"; "AR"; "taper"; "sweep"]; gs_outs := ["mesh"];
  gs_rel := fun I O => forall ix j d, (ix < nx)%nat -> (j < ny)%nat -> (d < 3)%nat ->
    as_mesh ny (O "mesh") ix j d =
    trapezoid_mesh nx ny {| tz_S := I "S" 0%nat; tz_AR := I "AR" 0%nat; tz_taper := I "taper" 0%nat; tz_sweep := I "sweep" 0%nat |} ix j d;
  gs_pin := pin; gs_pout := pout |}.
(** drag_polar.py:272-282 with scale_area=True; [l] the panels of each region. *)
Definition sections_sub (nx : nat) (l : list nat) (n_sec : nat) (pin pout : list promo) : gsub := {|
  gs_name := "gen_mesh"; gs_ins := ["S"; "x_LE_sec"; "y_sec"; "chord_sec"]; gs_outs := ["mesh"];
  gs_rel := fun I O => forall ix j d, (ix < nx)%nat -> (j < total l + 1)%nat -> (d < 3)%nat ->
    as_mesh (total l + 1) (O "mesh") ix j d =
    section_mesh nx l {| sec_n := n_sec; sec_x := I "x_LE_sec"; sec_y := I "y_sec"; sec_c := I "chord_sec" |} (Some (I "S" 0%nat)) ix j d;
  gs_pin := pin; gs_pout := pout |}.
(** drag_polar.py:250-261 *)
Definition spline_sub (T : tools) (cps ny : nat) (pin pout : list promo) : gsub := {|
  gs_name := "twist_bsp"; gs_ins := ["twist_cp"]; gs_outs := ["twist"];
  gs_rel := fun I O => forall j, (j < ny)%nat -> O "twist" j = t_spline T cps ny (I "twist_cp") j;
  gs_pin := pin; gs_pout := pout |}.
(** drag_polar.py:285-289 *)
Definition twist_sub (l : list nat) (n_sec : nat) (pin pout : list promo) : gsub := {|
  gs_name := "twist_sec"; gs_ins := ["property_sec"]; gs_outs := ["property_node"];
  gs_rel := fun I O => forall j, (j < total l + 1)%nat -> O "property_node" j = property_node true l n_sec (I "property_sec") j;
  gs_pin := pin; gs_pout := pout |}.
(** drag_polar.py:264-270, 293-299 *)
Definition rotate_sub (T : tools) (nx ny : nat) (pin pout : list promo) : gsub := {|
  gs_name := "twist_mesh"; gs_ins := ["in_mesh"; "twist"]; gs_outs := ["mesh"];
  gs_rel := fun I O => forall ix j d, (ix < nx)%nat -> (j < ny)%nat -> (d < 3)%nat ->
    as_mesh ny (O "mesh") ix j d = t_rotate T nx ny (as_mesh ny (I "in_mesh")) (I "twist") ix j d;
  gs_pin := pin; gs_pout := pout |}.
(** drag_polar.py:302-308; the option cos_spacing keeps its default (mesh_gen.py:479), True. *)
Definition toverc_sub (l : list nat) (n_sec : nat) (pin pout : list promo) : gsub := {|
  gs_name := "t_over_c_interp"; gs_ins := ["section_toverc"]; gs_outs := ["panel_toverc"];
  gs_rel := fun I O => forall j, (j < total l)%nat -> O "panel_toverc" j = panel_toverc true l n_sec (I "section_toverc") j;
  gs_pin := pin; gs_pout := pout |}.
(** drag_polar.py:320-331, aerostructural.py:181-208.  The outputs are what the last [compute]
    delivers, [es] being the calls made in the process before it. *)
Definition training_sub (g : gen) (sv : analysis) (es : list event) (o : options) (pin pout : list promo) : gsub := {|
  gs_name := "training_data";
  gs_ins := map fst (kept g o) ++ match g with OASData => ["ac|aero|CD_nonwing"] | VLMData => [] end;
  gs_outs := tabulated g ++ match g with OASData => ["W_wing"] | VLMData => [] end;
  gs_rel := fun I O => exists D a b c,
    snd (compute g sv o I true (after g sv es fresh)) = Ok D /\
    own_shape o = Ok (a, b, c) /\
    (forall f i j k, In f (tabulated g) -> (i < a)%nat -> (j < b)%nat -> (k < c)%nat -> as_table b c (O f) i j k = D f i j k) /\
    (g = OASData -> O "W_wing" 0%nat = D "W_wing" 0%nat 0%nat 0%nat);
  gs_pin := pin; gs_pout := pout |}.
(** drag_polar.py:334-344, aerostructural.py:211-225: one output for each tabulated quantity. *)
Definition surrogate_sub (T : tools) (nn : nat) (m a h : list R) (outs : list (string * string)) (pin pout : list promo) : gsub := {|
  gs_name := "aero_surrogate"; gs_ins := ["fltcond|M"; "alpha"; "fltcond|h"] ++ map snd outs; gs_outs := map fst outs;
  gs_rel := fun I O => forall f t i, In (f, t) outs -> (i < nn)%nat ->
    O f i = t_surrogate T m a h (as_table (List.length a) (List.length h) (I t)) (I "fltcond|M" i) (I "alpha" i) (I "fltcond|h" i);
  gs_pin := pin; gs_pout := pout |}.

(** ** VLMDragPolar *)
Inductive geometry := Trapezoidal | Sectioned | Meshed.
(** drag_polar.py:173-212 *)
Record polar := {
  v_nn : nat; v_geo : geometry; v_x : nat; v_y : vsize; v_sections : nat; v_twist : nat; v_vec : bool;
  v_Mach : tlist; v_alpha : tlist; v_alt : tlist; v_surf : surf
}.
(** drag_polar.py:224-230: number of points along the span. *)
Definition points_y (p : polar) : nat :=
  match v_geo p, v_y p with
  | Sectioned, VInt n => ((v_sections p - 1) * n + 1)%nat
  | _, VList l => (total l + 1)%nat
  | _, VInt n => (n + 1)%nat
  end.
(** The options given to the training component: drag_polar.py:320-331. *)
Definition vlm_options (p : polar) : options := {|
  o_x := v_x p; o_y := points_y p - 1; o_Mach := v_Mach p; o_alpha := v_alpha p; o_alt := v_alt p; o_surf := v_surf p;
  o_tol := 0; o_twist := 0; o_toverc := 0; o_skin := 0; o_spar := 0 |}.
(** drag_polar.py:347-355, aerostructural.py:228-236 *)
Definition alpha_balance (nn : nat) (lhs : string) : gsub :=
  balance2 nn "alpha_bal" "alpha" lhs "fltcond|CL" [P "fltcond|CL"] [].
(** drag_polar.py:358-373: drag = q * S * (CD_wing + CD_nonwing). *)
Definition VLMDrag (vec : bool) : pcomp := {|
  pc_ins := [("q", Vec); ("S", Sca); ("CD_wing", Vec); ("CD_nonwing", if vec then Vec else Sca)];
  pc_outs := [("drag", (Vec, fun e => e "q" * e "S" * (e "CD_wing" + e "CD_nonwing")))];
  pc_J := [("drag", "q", fun e => e "S" * (e "CD_wing" + e "CD_nonwing")); ("drag", "S", fun e => e "q" * (e "CD_wing" + e "CD_nonwing"));
           ("drag", "CD_wing", fun e => e "q" * e "S"); ("drag", "CD_nonwing", fun e => e "q" * e "S")]
|}.
Definition S_as : promo := As "S" "ac|geom|wing|S_ref".
(** drag_polar.py:232-308 *)
Definition geometry_subs (T : tools) (p : polar) (l : list nat) : list gsub :=
  let nx := (v_x p + 1)%nat in let ny := points_y p in
  match v_geo p with
  | Trapezoidal =>
      [trapezoid_sub nx ny [S_as; As "AR" "ac|geom|wing|AR"; As "taper" "ac|geom|wing|taper"; As "sweep" "ac|geom|wing|c4sweep"] [As "mesh" "ac|geom|wing|OAS_mesh"];
       spline_sub T (v_twist p) ny [As "twist_cp" "ac|geom|wing|twist"] [];
       rotate_sub T nx ny [As "in_mesh" "ac|geom|wing|OAS_mesh"] [As "mesh" "twisted_mesh"];
       toverc_sub l 2 [As "section_toverc" "ac|geom|wing|toverc"] []]
  | Sectioned =>
      [sections_sub nx l (v_sections p) [S_as; As "x_LE_sec" "ac|geom|wing|x_LE_sec"; As "y_sec" "ac|geom|wing|y_sec"; As "chord_sec" "ac|geom|wing|chord_sec"] [As "mesh" "ac|geom|wing|OAS_mesh"];
       twist_sub l (v_sections p) [As "property_sec" "ac|geom|wing|twist"] [];
       rotate_sub T nx ny [As "in_mesh" "ac|geom|wing|OAS_mesh"] [As "mesh" "twisted_mesh"];
       toverc_sub l (v_sections p) [As "section_toverc" "ac|geom|wing|toverc"] []]
  | Meshed => []
  end.
(** drag_polar.py:270, 299, 310-317 *)
Definition geometry_conns (p : polar) : list (string * string) :=
  match v_geo p with
  | Trapezoidal => [("twist_bsp.twist", "twist_mesh.twist"); ("t_over_c_interp.panel_toverc", "training_data.ac|geom|wing|toverc"); ("twisted_mesh", "training_data.ac|geom|wing|OAS_mesh")]
  | Sectioned => [("twist_sec.property_node", "twist_mesh.twist"); ("t_over_c_interp.panel_toverc", "training_data.ac|geom|wing|toverc"); ("twisted_mesh", "training_data.ac|geom|wing|OAS_mesh")]
  | Meshed => []
  end.
(** drag_polar.py:232-376 *)
Definition vlm_group (T : tools) (es : list event) (p : polar) (l : list nat) (m a h : list R) : group := {|
  g_subs := geometry_subs T p l ++
    [training_sub VLMData (t_vlm T) es (vlm_options p)
       ([P "fltcond|TempIncrement"] ++ match v_geo p with Meshed => [P "ac|geom|wing|toverc"; P "ac|geom|wing|OAS_mesh"] | _ => [] end) [];
     surrogate_sub T (v_nn p) m a h [("CL", "CL_train"); ("CD", "CD_train")] [P "fltcond|M"; P "fltcond|h"] [];
     alpha_balance (v_nn p) "CL_VLM";
     comp (v_nn p) "drag_calc" (VLMDrag (v_vec p)) [As "q" "fltcond|q"; S_as; As "CD_nonwing" "ac|aero|CD_nonwing"] [P "drag"]];
  g_conns := geometry_conns p ++
    [("training_data.CL_train", "aero_surrogate.CL_train"); ("training_data.CD_train", "aero_surrogate.CD_train");
     ("alpha_bal.alpha", "aero_surrogate.alpha"); ("aero_surrogate.CL", "alpha_bal.CL_VLM"); ("aero_surrogate.CD", "drag_calc.CD_wing")]
|}.
(** drag_polar.py:214-376: [.size] of the training values, then the geometry; the mesh
    components raise their own errors for the panels. *)
Definition VLMDragPolar (T : tools) (es : list event) (p : polar) : res group :=
  res_bind (numpy_values (v_alpha p)) (fun a =>
  res_bind (numpy_values (v_Mach p)) (fun m =>
  res_bind (numpy_values (v_alt p)) (fun h =>
  res_bind (match v_geo p, v_y p with
            | Trapezoidal, VList _ => Err ValueError
            | Trapezoidal, VInt n => panels 2 (VInt n)
            | Sectioned, y => panels (v_sections p) y
            | Meshed, _ => Ok []
            end) (fun l => Ok (vlm_group T es p l m a h))))).

(** ** AerostructDragPolar *)
(** aerostructural.py:239-252: drag = q * S * CD. *)
Definition AerostructDrag : pcomp := {|
  pc_ins := [("q", Vec); ("S", Sca); ("CD", Vec)];
  pc_outs := [("drag", (Vec, fun e => e "q" * e "S" * e "CD"))];
  pc_J := [("drag", "q", fun e => e "S" * e "CD"); ("drag", "S", fun e => e "q" * e "CD"); ("drag", "CD", fun e => e "q" * e "S")]
|}.
(** aerostructural.py:153-208: options of the training component.  The training component keeps its default tolerance, 1e-14. *)
Definition aerostruct_options (nx ny n_twist n_toverc n_skin n_spar : nat) (m a h : list R) (s : surf) : options := {|
  o_x := nx; o_y := ny; o_Mach := NdArray m; o_alpha := NdArray a; o_alt := NdArray h; o_surf := s;
  o_tol := / 10 ^ 14; o_twist := n_twist; o_toverc := n_toverc; o_skin := n_skin; o_spar := n_spar |}.
(** aerostructural.py:180-252 *)
Definition aerostruct_group (T : tools) (es : list event) (nn : nat) (o : options) (m a h : list R) : group := {|
  g_subs :=
    [training_sub OASData (t_struct T) es o
       [P "ac|geom|wing|S_ref"; P "ac|geom|wing|AR"; P "ac|geom|wing|taper"; P "ac|geom|wing|c4sweep"; P "ac|geom|wing|twist"; P "ac|geom|wing|toverc";
        P "ac|geom|wing|skin_thickness"; P "ac|geom|wing|spar_thickness"; P "ac|aero|CD_nonwing"; P "fltcond|TempIncrement"]
       [As "W_wing" "ac|weights|W_wing"];
     surrogate_sub T nn m a h [("CL", "CL_train"); ("CD", "CD_train"); ("failure", "failure_train")] [P "fltcond|M"; P "fltcond|h"] [P "failure"];
     alpha_balance nn "CL_OAS";
     comp nn "drag_calc" AerostructDrag [As "q" "fltcond|q"; S_as] [P "drag"]];
  g_conns :=
    [("training_data.CL_train", "aero_surrogate.CL_train"); ("training_data.CD_train", "aero_surrogate.CD_train");
     ("training_data.failure_train", "aero_surrogate.failure_train"); ("alpha_bal.alpha", "aero_surrogate.alpha");
     ("aero_surrogate.CL", "alpha_bal.CL_OAS"); ("aero_surrogate.CD", "drag_calc.CD")]
|}.
(** aerostructural.py:174-252: [.size] of the training values first. *)
Definition AerostructDragPolar (T : tools) (es : list event) (nn : nat) (o : options) : res group :=
  res_bind (numpy_values (o_alpha o)) (fun a =>
  res_bind (numpy_values (o_Mach o)) (fun m =>
  res_bind (numpy_values (o_alt o)) (fun h => Ok (aerostruct_group T es nn o m a h)))).

(** ** AerostructDragPolarExact *)
Definition numbered (s : string) (k : nat) : string := String.append s (NilEmpty.string_of_uint (Nat.to_uint k)).
(** aerostructural.py:1429-1464: the analysis of node [k]; the flight conditions are read at
    index [k] (src_indices).  Converged: the analysis has an answer. *)
Definition aerostruct_sub (T : tools) (o : options) (k : nat) : gsub := {|
  gs_name := numbered "aerostruct_" k;
  gs_ins := ["ac|geom|wing|S_ref"; "ac|geom|wing|AR"; "ac|geom|wing|taper"; "ac|geom|wing|c4sweep"; "ac|geom|wing|twist"; "ac|geom|wing|toverc";
             "ac|geom|wing|skin_thickness"; "ac|geom|wing|spar_thickness"; "fltcond|TempIncrement"; "fltcond|alpha"; "fltcond|M"; "fltcond|h"];
  gs_outs := ["fltcond|CL"; "fltcond|CD"; "failure"; "ac|weights|W_wing"];
  gs_rel := fun I O => exists r,
    t_struct T (o_x o) (o_y o) (o_surf o) I (I "fltcond|M" k) (I "fltcond|alpha" k) (I "fltcond|h" k) = Some r /\
    O "fltcond|CL" 0%nat = a_out r "CL_train" /\ O "fltcond|CD" 0%nat = a_out r "CD_train" /\
    O "failure" 0%nat = a_out r "failure_train" /\ O "ac|weights|W_wing" 0%nat = a_out r "W_wing";
  gs_pin := [P "ac|geom|wing|S_ref"; P "ac|geom|wing|AR"; P "ac|geom|wing|taper"; P "ac|geom|wing|c4sweep"; P "ac|geom|wing|twist"; P "ac|geom|wing|toverc";
             P "ac|geom|wing|skin_thickness"; P "ac|geom|wing|spar_thickness"; P "fltcond|TempIncrement"; P "fltcond|alpha"; P "fltcond|M"; P "fltcond|h"];
  gs_pout := if Nat.eqb k 0 then [P "ac|weights|W_wing"] else [] |}.
(** aerostructural.py:1467-1476 *)
Definition combine_rel (nn : nat) (out stem : string) : cs_sys :=
  {| cs_one := out; cs_many := map (numbered stem) (seq 0 nn); cs_sizes := repeat 1%nat nn; cs_len := 1 |}.
Definition combine_sub (nn : nat) : gsub := {|
  gs_name := "vec_combine";
  gs_ins := map (numbered "CL_") (seq 0 nn) ++ map (numbered "CD_") (seq 0 nn) ++ map (numbered "failure_") (seq 0 nn);
  gs_outs := ["CL_OAS"; "CD_OAS"; "failure"];
  gs_rel := fun I O => forall out stem, In (out, stem) [("CL_OAS", "CL_"); ("CD_OAS", "CD_"); ("failure", "failure_")] ->
    forall i, (i < nn)%nat -> O out i = nth i (concat_compute (combine_rel nn out stem) I) 0;
  gs_pin := []; gs_pout := [P "failure"] |}.
(** aerostructural.py:1490-1503: drag = q * S * (CD + CD0). *)
Definition ExactDrag : pcomp := {|
  pc_ins := [("q", Vec); ("S", Sca); ("CD", Vec); ("CD0", Sca)];
  pc_outs := [("drag", (Vec, fun e => e "q" * e "S" * (e "CD" + e "CD0")))];
  pc_J := [("drag", "q", fun e => e "S" * (e "CD" + e "CD0")); ("drag", "S", fun e => e "q" * (e "CD" + e "CD0"));
           ("drag", "CD", fun e => e "q" * e "S"); ("drag", "CD0", fun e => e "q" * e "S")]
|}.
(** aerostructural.py:1425-1504 *)
Definition AerostructDragPolarExact (T : tools) (nn : nat) (o : options) : group := {|
  g_subs :=
    map (aerostruct_sub T o) (seq 0 nn) ++
    [combine_sub nn;
     balance2 nn "alpha_bal" "fltcond|alpha" "CL_OAS" "fltcond|CL" [P "fltcond|CL"] [P "fltcond|alpha"];
     comp nn "drag_calc" ExactDrag [As "q" "fltcond|q"; S_as; As "CD0" "ac|aero|CD_nonwing"] [P "drag"]];
  g_conns :=
    flat_map (fun k => [(String.append (numbered "aerostruct_" k) ".fltcond|CL", String.append "vec_combine." (numbered "CL_" k));
                        (String.append (numbered "aerostruct_" k) ".fltcond|CD", String.append "vec_combine." (numbered "CD_" k));
                        (String.append (numbered "aerostruct_" k) ".failure", String.append "vec_combine." (numbered "failure_" k))]) (seq 0 nn) ++
    [("vec_combine.CL_OAS", "alpha_bal.CL_OAS"); ("vec_combine.CD_OAS", "drag_calc.CD")]
|}.

(** ** CLmaxCriticalSectionVLM *)
(** CL_max_critical_section.py:118: OpenMDAO's KSComp, g_max + ln(sum exp(rho (g - g_max))) / rho. *)
Fixpoint max_of (n : nat) (g : nat -> R) : R :=
  match n with O => 0 | S O => g 0%nat | S m => Rmax (max_of m g) (g m) end.
Fixpoint sum_of (n : nat) (f : nat -> R) : R := match n with O => 0 | S m => sum_of m f + f m end.
Definition KS (rho : R) (n : nat) (g : nat -> R) : R :=
  max_of n g + 1 / rho * ln (sum_of n (fun j => exp (rho * (g j - max_of n g)))).
Definition ks_sub (rho : R) (n : nat) : gsub := {|
  gs_name := "max_limit"; gs_ins := ["g"]; gs_outs := ["KS"];
  gs_rel := fun I O => O "KS" 0%nat = KS rho n (I "g");
  gs_pin := []; gs_pout := [] |}.
(** CL_max_critical_section.py:90-103: lift coefficient of the wing and of each strip, as
    functions of the inputs and the angle of attack. *)
Definition lifting_sub (num_y : nat) (CL : env -> R -> R) (Cl : env -> R -> nat -> R) : gsub := {|
  gs_name := "VLM";
  gs_ins := ["fltcond|alpha"; "fltcond|M"; "fltcond|h"; "fltcond|TempIncrement"; "ac|geom|wing|OAS_mesh"; "ac|geom|wing|toverc"];
  gs_outs := ["fltcond|CL"; "sectional_CL"];
  gs_rel := fun I O => O "fltcond|CL" 0%nat = CL I (I "fltcond|alpha" 0%nat) /\
                       forall j, (j < num_y)%nat -> O "sectional_CL" j = Cl I (I "fltcond|alpha" 0%nat) j;
  gs_pin := [P "fltcond|M"; P "fltcond|h"; P "fltcond|TempIncrement"; P "ac|geom|wing|OAS_mesh"; P "ac|geom|wing|toverc"];
  gs_pout := [As "fltcond|CL" "CL_max"] |}.
(** CL_max_critical_section.py:87, 106-116 *)
Definition limit_eq (num_y : nat) (vec : bool) : add_sys := {|
  as_out := "Cl_limit_vec"; as_ins := ["Cl"; "Cl_max"]; as_vec := VList [num_y; if vec then num_y else 1%nat]; as_len := 1;
  as_sf := Some [1; - (1)]; as_units := None |}.
(** CL_max_critical_section.py:86-129; the inner group [aero] is promoted entirely, so its
    subsystems appear here directly. *)
Definition CLmaxCriticalSectionVLM (num_y : nat) (vec : bool) (rho : R) (CL : env -> R -> R) (Cl : env -> R -> nat -> R) : group := {|
  g_subs :=
    [lifting_sub num_y CL Cl;
     adders "Cl_max_limit" [limit_eq num_y vec] [As "Cl_max" "ac|aero|airfoil_Cl_max"] [];
     ks_sub rho num_y;
     balance 1 "sectional_CL_balance" "alpha" "max_Cl_limit_VLM" [] []];
  g_conns :=
    [("VLM.sectional_CL", "Cl_max_limit.Cl"); ("Cl_max_limit.Cl_limit_vec", "max_limit.g");
     ("max_limit.KS", "sectional_CL_balance.max_Cl_limit_VLM"); ("sectional_CL_balance.alpha", "VLM.fltcond|alpha")]
|}.

(** ** VLM: the flow given to the vortex lattice method *)
(** drag_polar.py:769-773: Utrue = Mach * a. *)
Definition Airspeed : pcomp := {|
  pc_ins := [("Mach", Vec); ("a", Vec)];
  pc_outs := [("Utrue", (Vec, fun e => e "Mach" * e "a"))];
  pc_J := [("Utrue", "Mach", fun e => e "a"); ("Utrue", "a", fun e => e "Mach")]
|}.
(** drag_polar.py:778-788: Reynolds number per metre with a linear viscosity. *)
Definition viscosity (h : R) : R := - (3329134 / 10 ^ 6 * / 10 ^ 10) * h + 1792398 / 10 ^ 6 * / 10 ^ 5.
Definition UnitReynolds : pcomp := {|
  pc_ins := [("rho", Vec); ("u", Vec); ("h", Vec)];
  pc_outs := [("re", (Vec, fun e => e "rho" * e "u" / viscosity (e "h")))];
  pc_J := [("re", "rho", fun e => e "u" / viscosity (e "h")); ("re", "u", fun e => e "rho" / viscosity (e "h"));
           ("re", "h", fun e => 3329134 / 10 ^ 6 * / 10 ^ 10 * (e "rho" * e "u") / viscosity (e "h") ^ 2)]
|}.
(** temperature_comp.py, pressure_comp.py as subsystems with one node (a NaN pressure is not a solution). *)
Definition temperature_sub (kt : coeffs) : gsub := {|
  gs_name := "temp"; gs_ins := ["fltcond|h"; "fltcond|TempIncrement"]; gs_outs := ["fltcond|T"];
  gs_rel := fun I O => O "fltcond|T" 0%nat = snd (temp_comp_compute kt I None) 0%nat;
  gs_pin := [P "fltcond|h"; P "fltcond|TempIncrement"]; gs_pout := [] |}.
Definition pressure_sub (kp : coeffs) : gsub := {|
  gs_name := "pressure"; gs_ins := ["fltcond|h"]; gs_outs := ["fltcond|p"];
  gs_rel := fun I O => snd (press_comp_compute kp I None) 0%nat = Some (O "fltcond|p" 0%nat);
  gs_pin := [P "fltcond|h"]; gs_pout := [] |}.
(** drag_polar.py:802-827, without the mesh: default surface options; those of the user override them. *)
Definition default_surf : surf :=
  [("name", SStr "wing"); ("symmetry", SBool true); ("S_ref_type", SStr "projected"); ("CL0", SNum 0); ("CD0", SNum 0); ("k_lam", SNum (5/100));
   ("t_over_c", SArr [12/100]); ("c_max_t", SNum (37/100)); ("with_viscous", SBool true); ("with_wave", SBool true)].
(** drag_polar.py:830-832: [for key in surf_options: surf_dict[key] = surf_options[key]]. *)
Fixpoint put_key (s : surf) (k : string) (v : sval) : surf :=
  match s with
  | [] => [(k, v)]
  | (k', v') :: r => if String.eqb k' k then (k', v) :: r else (k', v') :: put_key r k v
  end.
Definition surf_dict (user : option surf) : surf :=
  match user with None => default_surf | Some u => fold_left (fun s e => put_key s (fst e) (snd e)) u default_surf end.
(** OpenAeroStruct's AeroPoint: drag_polar.py:834-865.  [oas] gives its seven results from
    the surface, the speed, density, Reynolds number per metre, Mach number, angle of attack,
    mesh and thickness ratios.  The names of its variables are those for the surface called "wing". *)
Definition oas_point := nat -> nat -> surf -> R -> R -> R -> R -> R -> (nat -> R) -> (nat -> R) -> string -> nat -> R.
Definition aero_outs : list (string * string) :=
  [("wing_perf.CD", "fltcond|CD"); ("wing_perf.CL", "fltcond|CL"); ("wing_perf.CDi", "fltcond|CDi"); ("wing_perf.CDv", "fltcond|CDv");
   ("wing_perf.CDw", "fltcond|CDw"); ("wing_perf.Cl", "sectional_CL"); ("aero_states.wing_sec_forces", "panel_forces")].
Definition aero_point_sub (oas : oas_point) (nx ny : nat) (user : option surf) : gsub := {|
  gs_name := "aero_point";
  gs_ins := ["Mach_number"; "alpha"; "wing_perf.t_over_c"; "v"; "rho"; "re"; "wing.def_mesh"; "aero_states.wing_def_mesh"];
  gs_outs := map fst aero_outs;
  gs_rel := fun I O => forall f i, In f (map fst aero_outs) ->
    O f i = oas nx ny (surf_dict user) (I "v" 0%nat) (I "rho" 0%nat) (I "re" 0%nat) (I "Mach_number" 0%nat) (I "alpha" 0%nat)
              (I "aero_states.wing_def_mesh") (I "wing_perf.t_over_c") f i;
  gs_pin := [As "Mach_number" "fltcond|M"; As "alpha" "fltcond|alpha"; As "wing_perf.t_over_c" "ac|geom|wing|toverc";
             As "wing.def_mesh" "ac|geom|wing|OAS_mesh"; As "aero_states.wing_def_mesh" "ac|geom|wing|OAS_mesh"];
  gs_pout := map (fun p => As (fst p) (snd p)) aero_outs |}.
(** drag_polar.py:754-870 *)
Definition VLM (oas : oas_point) (kt kp : coeffs) (nx ny : nat) (user : option surf) : group := {|
  g_subs :=
    [temperature_sub kt; pressure_sub kp; comp 1 "density" DensityComp [] []; comp 1 "sound_speed" SpeedOfSoundComp [] [];
     comp 1 "airspeed" Airspeed [As "Mach" "fltcond|M"] []; comp 1 "Re_calc" UnitReynolds [As "h" "fltcond|h"] [];
     aero_point_sub oas nx ny user];
  g_conns :=
    [("temp.fltcond|T", "density.fltcond|T"); ("pressure.fltcond|p", "density.fltcond|p"); ("temp.fltcond|T", "sound_speed.fltcond|T");
     ("sound_speed.fltcond|a", "airspeed.a"); ("density.fltcond|rho", "Re_calc.rho"); ("airspeed.Utrue", "Re_calc.u");
     ("airspeed.Utrue", "aero_point.v"); ("density.fltcond|rho", "aero_point.rho"); ("Re_calc.re", "aero_point.re")]
|}.
