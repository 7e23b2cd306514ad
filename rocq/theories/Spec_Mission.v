(** Independent specification of the phase and trajectory wiring. *)
From Coq Require Import Reals List Bool PeanoNat String Ascii.
From Verif Require Import Base Py Model_Algebra Model_Mission.
Import ListNotations.
Open Scope string_scope.
Open Scope list_scope.

(** [s] sits inside [t] at the given chain of subsystem names. *)
Inductive inside : sys -> list string -> sys -> Prop :=
| inside_here s : inside s [] s
| inside_sub n subs c path s : In c subs -> inside c path s -> inside (Group n subs) (sys_name c :: path) s.

(** Dotted name of a variable at a chain of subsystem names. *)
Definition dotted (path : list string) (var : string) : string := String.concat "." (path ++ [var]).

Definition dotless (s : string) : Prop := ~ In "."%char (list_ascii_of_string s).

(** OpenMDAO's rules: subsystem names are non-empty, contain no dot and are
    distinct among siblings; the state names of one integrator are distinct. *)
Inductive well_named : sys -> Prop :=
| wn_group n subs : NoDup (map sys_name subs) -> (forall c, In c subs -> sys_name c <> "" /\ dotless (sys_name c)) ->
    (forall c, In c subs -> well_named c) -> well_named (Group n subs)
| wn_integ n ins sts : NoDup (map is_name sts) -> well_named (Integ n ins sts)
| wn_comp n : well_named (Comp n).

(** [n.x], and the same below the path of the enclosing group. *)
Definition sub (n x : string) : string := String.append n (String.append "." x).
Definition below (path x : string) : string := if String.eqb path "" then x else sub path x.

(** [pat] occurs in [s]. *)
Definition occurs (pat s : string) : Prop := exists a b, s = String.append a (String.append pat b).

(** The promoted name [l] of a variable relative to phase [n], given its
    promoted name [p] in the trajectory: what follows "n." or, when the variable
    has been promoted out of the phase, [p] itself. *)
Definition local_name (n p l : string) : Prop :=
  p = sub n l \/ (~ occurs (String.append n ".") p /\ l = p).

(** Where input [x] of subsystem [name] gets its value: the name it is promoted
    to, else the source connected to it. *)
Definition source_of (conns : list (string * string)) (name : string) (promotes : list (string * string))
    (x : string) : option string :=
  match find (fun p => String.eqb (fst p) x) promotes with
  | Some p => Some (snd p)
  | None => option_map fst (find (fun c => String.eqb (snd c) (sub name x)) conns)
  end.

(** [tags] declare [value] for [key]: one of them is the text "key:value". *)
Definition declares (tags : list string) (key value : string) : Prop :=
  In (String.append key (String.append ":" value)) tags.
Definition colonless (s : string) : Prop := ~ In ":"%char (list_ascii_of_string s).
(** Each tag is a plain word or "key:value". *)
Definition tag_ok (t : string) : Prop :=
  colonless t \/ exists k v, t = String.append k (String.append ":" v) /\ colonless k /\ colonless v.
(** No key is given two values. *)
Definition functional (tags : list string) : Prop :=
  forall k v w, colonless k -> colonless v -> colonless w -> declares tags k v -> declares tags k w -> v = w.

(** The flight order of each profile: which phase is flown directly after which
    (v1v0 is the aborted branch after v0v1). *)
Definition flown_after (o : profile) : list (string * string) :=
  (if pf_takeoff o then [("v0v1", "v1vr"); ("v1vr", "rotate"); ("v0v1", "v1v0"); ("rotate", "climb")]
   else if negb (pf_reserve o) && pf_ground_roll o then [("groundroll", "climb")] else []) ++
  [("climb", "cruise"); ("cruise", "descent")] ++
  (if pf_reserve o then [("descent", "reserve_climb"); ("reserve_climb", "reserve_cruise");
                         ("reserve_cruise", "reserve_descent"); ("reserve_descent", "loiter")] else []).
(** The phase flown first. *)
Definition first_phase (o : profile) : string :=
  if pf_takeoff o then "v0v1" else if negb (pf_reserve o) && pf_ground_roll o then "groundroll" else "climb".
(** Option combinations that are accepted. *)
Definition valid_profile (o : profile) : Prop := pf_takeoff o = true -> pf_transition o <> OtherTransition.

(** *** Integrated rates *)
(** The outputs the group is to integrate: (component, variable, tags) for each
    output tagged "integrate" of each component that is a direct child. *)
Definition rates (children : list child) : list (string * (string * list string)) :=
  flat_map (fun c => if ch_group c then []
                     else map (fun v => (ch_name c, v)) (filter (fun v => in_list "integrate" (snd v)) (ch_outs c)))
           children.
Definition tag_keys : list string :=
  ["state_name"; "state_units"; "state_val"; "state_lower"; "state_upper"; "state_promotes"].
(** Tags as the documentation writes them. *)
Definition tags_ok (tags : list string) : Prop :=
  List.Forall tag_ok tags /\ functional tags /\ forall k, In k tag_keys -> ~ In k tags.
(** [x] is what the tags give for [key], else the default. *)
Definition given {A} (tags : list string) (key : string) (parse : string -> res A) (default x : A) : Prop :=
  (exists v, declares tags key v /\ parse v = Ok x) \/ ((forall v, ~ declares tags key v) /\ x = default).
(** The state built for a tagged rate. *)
Definition integrand_of (float eval_num : string -> res R) (rate : string * list string) (g : integrand) : Prop :=
  ig_rate g = fst rate /\
  declares (snd rate) "state_name" (ig_state g) /\
  given (snd rate) "state_units" (fun v => Ok (Some v)) None (ig_units g) /\
  given (snd rate) "state_val" eval_num 0%R (ig_val g) /\
  given (snd rate) "state_lower" float (- (10 ^ 30))%R (ig_lower g) /\
  given (snd rate) "state_upper" float (10 ^ 30)%R (ig_upper g).

(** *** Mission profiles *)
(** Inputs of the mission's own making in phase [p]: targets of its explicit
    connections and the start values of the states the phase itself integrates. *)
Definition own_inputs (o : profile) : list string :=
  map snd (profile_connects o) ++
  flat_map (fun pk => map (fun b => sub (fst pk) (is_start (ps_prom b))) (builtin_states (snd pk))) (profile_phases o).

(** What is asked of the aircraft model: in each phase its states have distinct
    names and distinct (promoted) start inputs, which are not inputs of the
    mission's own making; a state has the same start name in every phase; no
    state is promoted to the name of one of the mission's own states. *)
Record users_ok (o : profile) (users : string -> list pstate) : Prop := {
  uo_names : forall p, NoDup (map (fun u => is_name (ps_abs u)) (users p));
  uo_starts : forall p, NoDup (map (fun u => is_start (ps_prom u)) (users p));
  uo_fresh : forall p u, In p (map fst (profile_phases o)) -> In u (users p) -> ~ In (sub p (is_start (ps_prom u))) (own_inputs o);
  uo_same : forall p q u v, In u (users p) -> In v (users q) ->
    is_name (ps_abs u) = is_name (ps_abs v) -> is_start (ps_abs u) = is_start (ps_abs v);
  uo_promoted : forall p u, In u (users p) ->
    ~ In (is_name (ps_prom u)) ["fltcond|Utrue"; "range"; "fltcond|h"; "ode_integ_phase.fltcond|h"]
}.

(** The promotion tables hold what the phases promote; nothing is promoted out of
    a phase to the mission level.  Start inputs of the takeoff phases' own states
    are not looked up (some of those states have none). *)
Record proms_ok (o : profile) (users : string -> list pstate) (path : string)
    (promO promI : string -> option string) : Prop := {
  po_name : forall p s, In p (map fst (profile_phases o)) -> In s (phase_states (kind_of o p) (users p)) ->
    promO (below path (sub p (is_name (ps_abs s)))) = Some (sub p (is_name (ps_prom s)));
  po_end : forall p s, In p (map fst (profile_phases o)) -> In s (phase_states (kind_of o p) (users p)) ->
    promO (below path (sub p (is_end (ps_abs s)))) = Some (sub p (is_end (ps_prom s)));
  po_start_user : forall p u, In p (map fst (profile_phases o)) -> In u (users p) ->
    promI (below path (sub p (sub "acmodel" (is_start (ps_abs u))))) = Some (sub p (is_start (ps_prom u)));
  po_start_own : forall p s, In p (map fst (profile_phases o)) -> kind_of o p = SteadyP ->
    In s (builtin_states SteadyP) ->
    promI (below path (sub p (is_start (ps_abs s)))) = Some (sub p (is_start (ps_prom s)))
}.

(** Names, at mission level, of the distance flown and the altitude at the start
    and end of a phase. *)
Definition steady (p : string) : bool := negb (in_list p ["v0v1"; "v1vr"; "rotate"; "v1v0"; "groundroll"]).
Definition range_start (p : string) : string :=
  sub p (if steady p then "ode_integ_phase.range_initial" else "range_initial").
Definition range_end (p : string) : string :=
  sub p (if steady p then "ode_integ_phase.range_final" else "range_final").
Definition altitude_start (p : string) : string := sub p "ode_integ_phase.fltcond|h_initial".
Definition altitude_end (p : string) : string :=
  sub p (if steady p then "ode_integ_phase.fltcond|h_final" else "fltcond|h_final").
