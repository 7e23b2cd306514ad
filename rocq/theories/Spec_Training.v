(** What a table of analyses should hold, in terms of the options, the inputs and the
    analysis only. *)
From Coq Require Import Reals List Bool PeanoNat String.
From Verif Require Import Base Py Model_Training.
Import ListNotations.
Open Scope string_scope.
Open Scope list_scope.
Open Scope R_scope.

(** The training values, given as a list or as an array. *)
Definition values (l : tlist) : list R := match l with PyList l => l | NdArray l => l end.
Definition arrays (o : options) : Prop :=
  (exists l, o_Mach o = NdArray l) /\ (exists l, o_alpha o = NdArray l) /\ (exists l, o_alt o = NdArray l).
Definition count (l : tlist) : nat := List.length (values l).

(** The names and number of entries of the inputs that describe the wing and the day. *)
Definition design (g : gen) (o : options) : list (string * nat) :=
  match g with
  | VLMData => [("ac|geom|wing|OAS_mesh", (S (o_x o) * (S (o_y o) * 3))%nat); ("ac|geom|wing|toverc", o_y o); ("fltcond|TempIncrement", 1%nat)]
  | OASData =>
      [("ac|geom|wing|S_ref", 1%nat); ("ac|geom|wing|AR", 1%nat); ("ac|geom|wing|taper", 1%nat); ("ac|geom|wing|c4sweep", 1%nat);
       ("ac|geom|wing|twist", o_twist o); ("ac|geom|wing|toverc", o_toverc o); ("ac|geom|wing|skin_thickness", o_skin o);
       ("ac|geom|wing|spar_thickness", o_spar o); ("fltcond|TempIncrement", 1%nat)]
  end.
(** All entries agree to within the documented tolerance (1e-13, or regen_tol). *)
Definition close (g : gen) (o : options) (x y : env) : Prop :=
  forall k n i, In (k, n) (design g o) -> (i < n)%nat ->
    Rabs (x k i - y k i) < match g with VLMData => / 10 ^ 13 | OASData => o_tol o end.
(** The values the inputs are compared with before the first analysis: -1 for all
    geometry, -42 degC for the temperature increment. *)
Definition placeholder : env := fun k _ => if String.eqb k "fltcond|TempIncrement" then - (42) else - (1).

(** The analysis of the instance with options [o] for inputs [x] at the training point
    (Mach_i, alpha_j, alt_k). *)
Definition analysed (sv : analysis) (o : options) (x : env) (i j k : nat) : option answer :=
  sv (o_x o) (o_y o) (o_surf o) x (nth i (values (o_Mach o)) 0) (nth j (values (o_alpha o)) 0) (nth k (values (o_alt o)) 0).
Definition in_grid (o : options) (i j k : nat) : Prop :=
  (i < count (o_Mach o))%nat /\ (j < count (o_alpha o))%nat /\ (k < count (o_alt o))%nat.
(** What is added to a tabulated coefficient: CD_nonwing, for the drag of OASDataGen. *)
Definition extra (g : gen) (f : string) (nonwing : R) : R :=
  match g with OASData => if String.eqb f "CD_train" then nonwing else 0 | VLMData => 0 end.
(** [D] is the table of the analyses for inputs [x]. *)
Definition table_of (g : gen) (sv : analysis) (o : options) (x : env) (nonwing : R) (D : outputs) : Prop :=
  (forall f i j k, In f (match g with VLMData => ["CL_train"; "CD_train"] | OASData => ["CL_train"; "CD_train"; "failure_train"] end) ->
     in_grid o i j k ->
     exists a, analysed sv o x i j k = Some a /\ D f i j k = a_out a f + extra g f nonwing) /\
  (g = OASData -> exists a, analysed sv o x 0 0 0 = Some a /\ D "W_wing" 0%nat 0%nat 0%nat = a_out a "W_wing").
(** [J] holds the derivatives of the analyses for inputs [x]: row-major order of the training
    points, one row for each. *)
Definition derivatives_of (g : gen) (sv : analysis) (o : options) (x : env) (J : jacobian) : Prop :=
  (forall f u n i j k c, In f (match g with VLMData => ["CL_train"; "CD_train"] | OASData => ["CL_train"; "CD_train"; "failure_train"] end) ->
     In (u, n) (design g o) -> (c < n)%nat -> in_grid o i j k ->
     exists a, analysed sv o x i j k = Some a /\
       J f u ((i * count (o_alpha o) + j) * count (o_alt o) + k)%nat c = a_d a f u c) /\
  (g = OASData ->
     (forall u n c, In (u, n) (design g o) -> (c < n)%nat ->
        exists a, analysed sv o x 0 0 0 = Some a /\ J "W_wing" u 0%nat c = a_d a "W_wing" u c) /\
     (forall f r, J f "ac|aero|CD_nonwing" r 0%nat = if String.eqb f "CD_train" then 1 else 0)).

(** ** Histories *)
Definition options_of (e : event) : options := match e with Setup o => o | Compute o _ _ => o | Partials o _ _ => o end.
Definition inputs_of (e : event) : list env := match e with Setup _ => [] | Compute _ x _ => [x] | Partials _ x _ => [x] end.
Definition raised (r : response) : bool :=
  match r with RSetup (Ok _) => false | ROut (Ok _) => false | RJac (Ok _) => false | _ => true end.
(** The inputs of the calls of the history that raised. *)
Fixpoint failed_inputs (g : gen) (sv : analysis) (es : list event) (st : cls) : list env :=
  match es with
  | [] => []
  | e :: r => (if raised (snd (step g sv st e)) then inputs_of e else []) ++ failed_inputs g sv r (fst (step g sv st e))
  end.
(** The process starts without the class attributes. *)
Definition state (g : gen) (sv : analysis) (es : list event) : cls := after g sv es fresh.
Definition computed (g : gen) (sv : analysis) (es : list event) (o : options) (x : env) (fine : bool) : res outputs :=
  snd (compute g sv o x fine (state g sv es)).
Definition differentiated (g : gen) (sv : analysis) (es : list event) (o : options) (x : env) (fine : bool) : res jacobian :=
  snd (compute_partials g sv o x fine (state g sv es)).

(** Two dictionaries with the same entries. *)
Definition same_dict (s t : surf) : Prop := forall k, assoc k s = assoc k t.
Definition is_dict (s : surf) : Prop := NoDup (map fst s).
(** The surface options of the first instance that was set up in the process. *)
Fixpoint first_surf (es : list event) : option surf :=
  match es with
  | [] => None
  | Setup o :: r => match o_Mach o, o_alpha o, o_alt o with
                    | NdArray _, NdArray _, NdArray _ => Some (o_surf o)
                    | _, _, _ => first_surf r
                    end
  | _ :: r => first_surf r
  end.
