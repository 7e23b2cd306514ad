(** What C94 says of the airliners whose drag comes from OpenAeroStruct, in the names a user sees in a phase. *)
From Coq Require Import Reals List Bool PeanoNat String.
From Verif Require Import Base Py RSum Model_Algebra Model_Integrals Spec_Integrals Model_Net Model_Mission Model_Flight Spec_Flight Model_Fleet Spec_Fleet
  Model_Mesh Model_Training Spec_Training Model_Polar Spec_Polar Model_Aerostruct Spec_Aerostruct Model_Winged.
Import ListNotations.
Open Scope R_scope.
Open Scope string_scope.
Open Scope list_scope.

(** The two airliners. *)
Definition winged_fleet (T : tools) (es : string -> list event) (g : grid) (s : surf) (z : wing_sizes) (D : deck) (tri : mat) : list aircraft :=
  [VLMAirliner T es g s D tri; StructAirliner T es z g D tri].
(** What the drag polar of a phase works with: the phase's own flight conditions, and the aircraft's wing; the rest
    (among it the temperature increment) is the polar's own. *)
Definition shared : list string :=
  ["fltcond|CL"; "fltcond|M"; "fltcond|h"; "fltcond|q"; "ac|geom|wing|S_ref"; "ac|geom|wing|AR"; "ac|geom|wing|taper"; "ac|geom|wing|c4sweep"; "ac|geom|wing|twist"; "ac|aero|CD_nonwing"; "drag"].
Definition shared_box : list string := ["ac|geom|wing|toverc"; "ac|geom|wing|skin_thickness"; "ac|geom|wing|spar_thickness"; "ac|weights|W_wing"].
Definition in_drag (own : list string) (W : env) : env := fun x =>
  W (if in_list x own then x else if String.eqb x "failure" then "ac|struct|failure" else String.append "drag." x).
(** The engines: two of them, each at the phase's throttle, altitude and Mach number. *)
Record two_engines (D : deck) (n : nat) (W : env) : Prop := {
  te_flow : forall i, (i < n)%nat -> W "fuel_flow" i = 2 * dk_fuel D (W "throttle" i) (W "fltcond|h" i) (W "fltcond|M" i);
  te_thrust : forall i, (i < n)%nat -> W "thrust" i = 2 * dk_thrust D (W "throttle" i) (W "fltcond|h" i) (W "fltcond|M" i);
  te_OEW : W "OEW" 0%nat = W "ac|weights|OEW" 0%nat }.
(** The fuel a phase burns. *)
Definition fuel_spent (n : nat) (W : env) : R := W "duration" 0%nat / INR (n - 1) * Spec_Flight.area (W "fuel_flow") (n - 1).
Record fuel_account (n : nat) (W : env) : Prop := {
  fa_flow : evolves n (W "duration" 0%nat) (W "fuel_used_initial" 0%nat) (W "fuel_flow") (W "fuel_used");
  fa_end : W "fuel_used_final" 0%nat = W "fuel_used" (n - 1)%nat }.
(** The airliner whose original wing is replaced by the analysed one. *)
Definition with_wing (n : nat) (W : env) : Prop := forall i, (i < n)%nat ->
  W "weight" i = W "ac|weights|MTOW" 0%nat - W "ac|weights|orig_W_wing" 0%nat + W "ac|weights|W_wing" 0%nat - W "fuel_used" i.
(** Polar of the vortex lattice method: the drag is that of the table of the wing at the phase's Mach number and altitude, at the
    angle of attack where the table has the phase's lift coefficient. *)
Definition vlm_drag (T : tools) (es : list event) (pol : polar) (n : nat) (W : env) : Prop :=
  let F := in_drag shared W in
  usable VLMData (t_vlm T) (vlm_options pol) es (wing pol F) ->
  exists x0 CLt CDt, close VLMData (vlm_options pol) (wing pol F) x0 /\
    (same_inputs VLMData (vlm_options pol) x0 (wing pol F) \/ In x0 (flat_map inputs_of es)) /\
    tabulates (t_vlm T) (vlm_options pol) x0 "CL_train" 0 CLt /\ tabulates (t_vlm T) (vlm_options pol) x0 "CD_train" 0 CDt /\
    forall i, (i < n)%nat ->
      let look t := t_surrogate T (values (v_Mach pol)) (values (v_alpha pol)) (values (v_alt pol)) t (W "fltcond|M" i) (W "drag.alpha_bal.alpha" i) (W "fltcond|h" i) in
      look CLt = W "fltcond|CL" i /\ W "drag" i = W "fltcond|q" i * W "ac|geom|wing|S_ref" 0%nat * (look CDt + W "ac|aero|CD_nonwing" 0%nat).
(** Aerostructural polar: besides the drag, the failure criterion of every node, and the weight of the analysed wing. *)
Definition struct_drag (T : tools) (es : list event) (o : options) (n : nat) (W : env) : Prop :=
  let F := in_drag (shared ++ shared_box) W in
  usable OASData (t_struct T) o es F ->
  exists x0 CLt CDt Ft, close OASData o F x0 /\ (same_inputs OASData o x0 F \/ In x0 (flat_map inputs_of es)) /\
    tabulates (t_struct T) o x0 "CL_train" 0 CLt /\ tabulates (t_struct T) o x0 "CD_train" (W "ac|aero|CD_nonwing" 0%nat) CDt /\ tabulates (t_struct T) o x0 "failure_train" 0 Ft /\
    (exists r, analysed (t_struct T) o x0 0 0 0 = Some r /\ W "ac|weights|W_wing" 0%nat = a_out r "W_wing") /\
    forall i, (i < n)%nat ->
      let look t := t_surrogate T (values (o_Mach o)) (values (o_alpha o)) (values (o_alt o)) t (W "fltcond|M" i) (W "drag.alpha_bal.alpha" i) (W "fltcond|h" i) in
      look CLt = W "fltcond|CL" i /\ W "ac|struct|failure" i = look Ft /\ W "drag" i = W "fltcond|q" i * W "ac|geom|wing|S_ref" 0%nat * look CDt.
