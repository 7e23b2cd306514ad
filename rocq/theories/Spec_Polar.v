(** Specification vocabulary for the drag polars built on OpenAeroStruct. *)
From Coq Require Import Reals List Bool PeanoNat String.
From Verif Require Import Base Py Model_Algebra Model_Mesh Spec_Mesh Model_Training Spec_Training Model_Polar.
Import ListNotations.
Open Scope string_scope.
Open Scope list_scope.
Open Scope R_scope.

(** The wing and the day that should be analysed: the twisted mesh and the thickness ratio of
    each strip, or those given directly. *)
Definition wing (p : polar) (V : env) : env := fun k =>
  if String.eqb k "ac|geom|wing|OAS_mesh" then V match v_geo p with Meshed => "ac|geom|wing|OAS_mesh" | _ => "twisted_mesh" end
  else if String.eqb k "ac|geom|wing|toverc" then V match v_geo p with Meshed => "ac|geom|wing|toverc" | _ => "t_over_c_interp.panel_toverc" end
  else V k.
Definition same_inputs (g : gen) (o : options) (x y : env) : Prop :=
  forall k n i, In (k, n) (design g o) -> (i < n)%nat -> x k i = y k i.

(** Every node of the training grid of [o] has the value [f] of the analysis for inputs [x],
    plus [c]. *)
Definition tabulates (sv : analysis) (o : options) (x : env) (f : string) (c : R) (t : array3) : Prop :=
  forall i j k, in_grid o i j k -> exists r, analysed sv o x i j k = Some r /\ t i j k = a_out r f + c.

(** The surrogate reproduces its table at the grid points. *)
Definition interpolates (T : tools) (m a h : list R) : Prop :=
  forall t i j k, (i < List.length m)%nat -> (j < List.length a)%nat -> (k < List.length h)%nat ->
    t_surrogate T m a h t (nth i m 0) (nth j a 0) (nth k h 0) = t i j k.
(** Adding a constant to the table adds it to the surrogate. *)
Definition commutes_with_constants (T : tools) (m a h : list R) : Prop :=
  forall t c M al H, t_surrogate T m a h (fun i j k => t i j k + c) M al H = t_surrogate T m a h t M al H + c.

(** No call of the history that raised had inputs like [x], and [x] is not the placeholder. *)
Definition usable (g : gen) (sv : analysis) (o : options) (es : list event) (x : env) : Prop :=
  (forall e, In e es -> options_of e = o) /\ ~ close g o x placeholder /\
  (forall y, In y (failed_inputs g sv es fresh) -> ~ close g o x y).

(** Panels along the span of the half wing. *)
Definition half_span_panels (p : polar) : nat :=
  match v_geo p, v_y p with
  | Sectioned, VInt n => ((v_sections p - 1) * n)%nat
  | _, VInt n => n
  | _, VList l => fold_right Nat.add 0%nat l
  end.

(** The thickness ratio documented for strip [j] of a trapezoidal wing with [n] panels along
    the half span: the straight line from the tip value to the root value along the span of
    mesh [m], halfway between the edges of the strip. *)
Definition documented_toverc (m : mesh) (n : nat) (tip root : R) (j : nat) : R :=
  let line y := between (py m 0 0) (py m 0 n) tip root y in (line (py m 0 j) + line (py m 0 (j + 1))) / 2.

(** ** Maximum lift *)
(** What the lift depends on besides the angle of attack. *)
Definition lift_inputs : list string :=
  ["fltcond|M"; "fltcond|h"; "fltcond|TempIncrement"; "ac|geom|wing|OAS_mesh"; "ac|geom|wing|toverc"].
Definition lift_of_inputs (CL : env -> R -> R) (Cl : env -> R -> nat -> R) : Prop :=
  forall x y, (forall k, In k lift_inputs -> x k = y k) -> CL x = CL y /\ Cl x = Cl y.
(** The limit of strip [j]: its own, or the one for the whole wing. *)
Definition limit (vec : bool) (V : env) (j : nat) : R := V "ac|aero|airfoil_Cl_max" (if vec then j else 0%nat).
(** The angle of attack of the critical section method: no strip above its limit, one at it. *)
Definition critical (n : nat) (Cl : R -> nat -> R) (lim : nat -> R) (al : R) : Prop :=
  (forall j, (j < n)%nat -> Cl al j <= lim j) /\ exists j, (j < n)%nat /\ Cl al j = lim j.

(** ** Analyses at every node *)
(** Two runs with the same wing and day. *)
Definition same_design (o : options) (x y : env) : Prop := forall k n, In (k, n) (design OASData o) -> x k = y k.
(** The analysis depends on the wing and the day only. *)
Definition of_design (sv : analysis) (o : options) : Prop := forall x y M al h, same_inputs OASData o x y -> sv (o_x o) (o_y o) (o_surf o) x M al h = sv (o_x o) (o_y o) (o_surf o) y M al h.
