(** Model of openconcept/mission/mission_groups.py and of the phase wiring of
    openconcept/mission/profiles.py.

    Simplifications: OpenMDAO's [connect] and [add_subsystem] are lists of the
    requested connections and subsystems; the promotion dictionaries of OpenMDAO
    are functions from absolute name to promoted name, [None] standing for a
    missing key; values that OpenMDAO only stores are left out. *)
From Coq Require Import Reals List Bool PeanoNat String Ascii DecimalString DecimalNat.
From Verif Require Import Base Py Model_Algebra.
Import ListNotations.
Open Scope string_scope.
Open Scope list_scope.

(** The name, start name and end name of one integrated state
    (integrals.py:624-631, mission_groups.py:58-62). *)
Record istate := { is_name : string; is_start : string; is_end : string }.

(** What [find_integrators_in_model] can tell apart: a group, an [Integrator]
    (its input names and its states), any other component. *)
Inductive sys :=
| Group (name : string) (subs : list sys)
| Integ (name : string) (inputs : list string) (states : list istate)
| Comp (name : string).
Definition sys_name (s : sys) : string :=
  match s with Group n _ => n | Integ n _ _ => n | Comp n => n end.

(** mission_groups.py:46-49 and 85-86: [a + "." + b], just [b] when [a] is empty. *)
Definition dot (a b : string) : string :=
  if String.eqb a "" then b else String.append a (String.append "." b).

Definition prefix_state (ns : string) (s : istate) : istate :=
  {| is_name := String.append ns (String.append "." (is_name s));
     is_start := String.append ns (String.append "." (is_start s));
     is_end := String.append ns (String.append "." (is_end s)) |}.

(** mission_groups.py:35-64: the absolute names appended to [timevars] and the
    tuples appended to [states], in program order. *)
Fixpoint find_integrators (s : sys) (ns durationvar : string) : list string * list istate :=
  match s with
  | Group _ subs =>
      fold_right (fun sub acc =>
        let found := find_integrators sub (dot ns (sys_name sub)) durationvar in
        (fst found ++ fst acc, snd found ++ snd acc)) ([], []) subs
  | Integ _ inputs states =>
      (map (fun v => String.append ns (String.append "." v))
           (filter (fun v => String.eqb v durationvar) inputs),
       map (prefix_state ns) states)
  | Comp _ => ([], [])
  end.

Definition opt_eqb (a b : option string) : bool :=
  match a, b with
  | Some x, Some y => String.eqb x y
  | None, None => true
  | _, _ => false
  end.

(** mission_groups.py:83-99: [prom] is [get_prom_name(self, _, "input")]; a
    connection is (source, target), [None] being Python's [None].  The test of
    line 89 looks at the absolute name, which is never [None]. *)
Fixpoint connect_durations (prom : string -> option string) (path : string)
    (seen : list (option string)) (timevars : list string) : list (string * option string) :=
  match timevars with
  | [] => []
  | v :: rest =>
      let p := prom (dot path v) in
      if negb (opt_eqb p (Some "duration")) && negb (existsb (opt_eqb p) seen)
      then ("duration", p) :: connect_durations prom path (seen ++ [p]) rest
      else connect_durations prom path seen rest
  end.

(** mission_groups.py:77-100: PhaseGroup.configure - connections made and
    [_oc_states_list]. *)
Definition phase_configure (prom : string -> option string) (path : string) (phase : sys)
  : list (string * option string) * list istate :=
  let found := find_integrators phase "" "duration" in
  (connect_durations prom path [] (fst found), snd found).

(** ** TrajectoryGroup *)

(** [s.replace(old, "", 1)] for a non-empty [old]. *)
Fixpoint replace1 (old s : string) : string :=
  if String.prefix old s then substring (String.length old) (String.length s - String.length old) s
  else match s with
       | EmptyString => EmptyString
       | String c s' => String c (replace1 old s')
       end.

Definition in_list (x : string) (l : list string) : bool := existsb (String.eqb x) l.

(** mission_groups.py:300-327, one state of phase 1.  [None.startswith] raises
    AttributeError (line 320). *)
Definition link_state (promO promI : string -> option string) (path phase1 phase2 : string)
    (states2 : list istate) (skip : list string) (st : istate)
  : res (list (option string * option string)) :=
  if in_list (is_name st) (map is_name states2) then
    let abs1 := dot path (String.append phase1 (String.append "." (is_name st))) in
    let end1 := dot path (String.append phase1 (String.append "." (is_end st))) in
    let start2 := dot path (String.append phase2 (String.append "." (is_start st))) in
    match promO abs1 with
    | None => Err AttributeError
    | Some p =>
        let local := if String.prefix phase1 p then replace1 (String.append phase1 ".") p else p in
        if negb (in_list (is_name st) skip) && negb (in_list local skip)
        then Ok [(promO end1, promI start2)] else Ok []
    end
  else Ok [].

(** mission_groups.py:300-327: [_link_phases]. *)
Fixpoint link_states (promO promI : string -> option string) (path phase1 phase2 : string)
    (states2 : list istate) (skip : list string) (states1 : list istate)
  : res (list (option string * option string)) :=
  match states1 with
  | [] => Ok []
  | st :: rest =>
      res_bind (link_state promO promI path phase1 phase2 states2 skip st) (fun c =>
      res_bind (link_states promO promI path phase1 phase2 states2 skip rest) (fun cs => Ok (c ++ cs)))
  end.

(** mission_groups.py:329-334: an argument is a PhaseGroup or something else;
    the request is queued. *)
Inductive arg := APhase (name : string) | AOther.
Definition link_phases (queue : list (string * string * list string)) (a b : arg) (skip : list string)
  : res (list (string * string * list string)) :=
  match a, b with
  | APhase p, APhase q => Ok (queue ++ [(p, q, skip)])
  | _, _ => Err ValueError
  end.

(** mission_groups.py:295-298: the queued links, applied in order; [states] is
    each phase's [_oc_states_list]. *)
Fixpoint apply_links (promO promI : string -> option string) (path : string)
    (states : string -> list istate) (links : list (string * string * list string))
  : res (list (option string * option string)) :=
  match links with
  | [] => Ok []
  | (p, q, skip) :: rest =>
      res_bind (link_states promO promI path p q (states q) skip (states p)) (fun c =>
      res_bind (apply_links promO promI path states rest) (fun cs => Ok (c ++ cs)))
  end.

(** ** IntegratorGroup *)

(** [str(n)] *)
Definition str (n : nat) : string := NilEmpty.string_of_uint (Nat.to_uint n).

(** A component created by [promote_add] or [promote_mult], with the pairs of
    [promotes_inputs]. *)
Inductive auto_comp :=
| AutoAdd (s : add_sys) (promotes : list (string * string))
| AutoMult (s : mul_sys).

(** Subsystems and connections created so far, and [_n_auto_comps]. *)
Record igroup := { ig_count : nat; ig_subs : list (string * auto_comp); ig_conns : list (string * string) }.
Definition ig_empty : igroup := {| ig_count := 0; ig_subs := []; ig_conns := [] |}.

(** [promote_add] and [promote_mult] arguments that matter to the wiring. *)
Record add_call := {
  ac_sources : list string; ac_prom : string; ac_promoted : list string;
  ac_factors : option (list R); ac_vec : vsize; ac_len : nat; ac_units : option string
}.
Record mult_call := {
  mc_source : string; mc_prom : string; mc_factor : R; mc_vec : vsize; mc_len : nat;
  mc_units : option (list tok); mc_divide : option (list bool); mc_input_units : option (list (option (list tok)))
}.
Inductive auto_call := CallAdd (c : add_call) | CallMult (c : mult_call).

Definition temps (n : nat) : list string := map (fun i => String.append "_temp" (str i)) (seq 0 n).

(** mission_groups.py:114-166: the equation given to the adder. *)
Definition add_sys_of (c : add_call) : add_sys :=
  let n := (List.length (ac_sources c) + List.length (ac_promoted c))%nat in
  {| as_out := ac_prom c; as_ins := temps n; as_vec := ac_vec c; as_len := ac_len c;
     as_sf := Some (match ac_factors c with None => repeat 1%R n | Some f => f end);
     as_units := ac_units c |}.

Fixpoint enumerate_from {A} (k : nat) (l : list A) : list (nat * A) :=
  match l with [] => [] | x :: l' => (k, x) :: enumerate_from (S k) l' end.
Definition enumerate {A} := @enumerate_from A 0.

(** mission_groups.py:158-166 *)
Definition promote_add (g : igroup) (c : add_call) : igroup :=
  let name := String.append "add" (str (ig_count g)) in
  let k := List.length (ac_sources c) in
  {| ig_count := S (ig_count g);
     ig_subs := ig_subs g ++
       [(name, AutoAdd (add_sys_of c)
          (map (fun p => (String.append "_temp" (str (fst p + k)), snd p)) (enumerate (ac_promoted c))))];
     ig_conns := ig_conns g ++
       map (fun p => (snd p, String.append name (String.append "._temp" (str (fst p)))))
           (enumerate (ac_sources c)) |}.

(** mission_groups.py:190-214: [input_units] is the one-element list of [units];
    the argument [input_units] is not used. *)
Definition mult_sys_of (c : mult_call) : mul_sys :=
  {| ms_out := mc_prom c; ms_ins := ["_temp"]; ms_vec := mc_vec c; ms_len := mc_len c;
     ms_sf := mc_factor c; ms_div := mc_divide c; ms_units := Some [mc_units c] |}.
Definition promote_mult (g : igroup) (c : mult_call) : igroup :=
  let name := String.append "mult" (str (ig_count g)) in
  {| ig_count := S (ig_count g);
     ig_subs := ig_subs g ++ [(name, AutoMult (mult_sys_of c))];
     ig_conns := ig_conns g ++ [(mc_source c, String.append name "._temp")] |}.

Definition auto_step (g : igroup) (c : auto_call) : igroup :=
  match c with CallAdd a => promote_add g a | CallMult m => promote_mult g m end.
Definition auto_run (l : list auto_call) : igroup := fold_left auto_step l ig_empty.

(** *** IntegratorGroup.configure, mission_groups.py:233-287 *)

(** [s.split(":")] *)
Fixpoint split_colon_from (acc s : string) : list string :=
  match s with
  | EmptyString => [acc]
  | String c s' => if Ascii.eqb c ":" then acc :: split_colon_from "" s'
                   else split_colon_from (String.append acc (String c "")) s'
  end.
Definition split_colon (s : string) : list string := split_colon_from "" s.

Record integ_opts := {
  o_name : option string; o_units : option string; o_val : R; o_lower : R; o_upper : R; o_promotes : bool
}.
(** mission_groups.py:244-249 *)
Definition default_opts : integ_opts :=
  {| o_name := None; o_units := None; o_val := 0%R; o_lower := (- (10 ^ 30))%R; o_upper := (10 ^ 30)%R;
     o_promotes := false |}.

(** mission_groups.py:252-265.  [float] and [eval] of a text are parameters;
    a text they cannot read raises. *)
Definition read_tag (float : string -> res R) (eval_num : string -> res R) (eval_bool : string -> res bool)
    (o : integ_opts) (tag : string) : res integ_opts :=
  let parts := split_colon tag in
  let key := hd "" parts in
  let value := last parts "" in
  if String.eqb key "state_name" then
    Ok {| o_name := Some value; o_units := o_units o; o_val := o_val o; o_lower := o_lower o; o_upper := o_upper o; o_promotes := o_promotes o |}
  else if String.eqb key "state_units" then
    Ok {| o_name := o_name o; o_units := Some value; o_val := o_val o; o_lower := o_lower o; o_upper := o_upper o; o_promotes := o_promotes o |}
  else if String.eqb key "state_val" then
    res_bind (eval_num value) (fun x =>
    Ok {| o_name := o_name o; o_units := o_units o; o_val := x; o_lower := o_lower o; o_upper := o_upper o; o_promotes := o_promotes o |})
  else if String.eqb key "state_lower" then
    res_bind (float value) (fun x =>
    Ok {| o_name := o_name o; o_units := o_units o; o_val := o_val o; o_lower := x; o_upper := o_upper o; o_promotes := o_promotes o |})
  else if String.eqb key "state_upper" then
    res_bind (float value) (fun x =>
    Ok {| o_name := o_name o; o_units := o_units o; o_val := o_val o; o_lower := o_lower o; o_upper := x; o_promotes := o_promotes o |})
  else if String.eqb key "state_promotes" then
    res_bind (eval_bool value) (fun x =>
    Ok {| o_name := o_name o; o_units := o_units o; o_val := o_val o; o_lower := o_lower o; o_upper := o_upper o; o_promotes := x |})
  else Ok o.
Fixpoint read_tags (float eval_num : string -> res R) (eval_bool : string -> res bool)
    (o : integ_opts) (tags : list string) : res integ_opts :=
  match tags with
  | [] => Ok o
  | t :: rest => res_bind (read_tag float eval_num eval_bool o t) (fun o' =>
                 read_tags float eval_num eval_bool o' rest)
  end.

(** One state added to [ode_integ] (mission_groups.py:275-283). *)
Record integrand := {
  ig_state : string; ig_rate : string; ig_units : option string; ig_val : R; ig_lower : R; ig_upper : R
}.
(** A direct child of the group: its name, whether it is a Group, and its
    outputs with their tags. *)
Record child := { ch_name : string; ch_group : bool; ch_outs : list (string * list string) }.

Record configured := {
  cf_integrands : list integrand; cf_conns : list (string * string);
  cf_out_promotes : list string; cf_in_promotes : list string
}.
Definition cf_empty : configured := {| cf_integrands := []; cf_conns := []; cf_out_promotes := []; cf_in_promotes := [] |}.
Definition cf_app (a b : configured) : configured :=
  {| cf_integrands := cf_integrands a ++ cf_integrands b; cf_conns := cf_conns a ++ cf_conns b;
     cf_out_promotes := cf_out_promotes a ++ cf_out_promotes b;
     cf_in_promotes := cf_in_promotes a ++ cf_in_promotes b |}.

(** mission_groups.py:241-287, one tagged output; [names] are the variables
    already declared on [ode_integ] (integrals.py:656-666 declares four more,
    a repeated name raising ValueError). *)
Definition configure_var (float eval_num : string -> res R) (eval_bool : string -> res bool)
    (prom : string -> string) (child_name : string) (names : list string) (var : string * list string)
  : res (list string * configured) :=
  res_bind (read_tags float eval_num eval_bool default_opts (snd var)) (fun o =>
  match o_name o with
  | None => Err ValueError
  | Some st =>
      res_bind (declare names [fst var; String.append st "_final"; st; String.append st "_initial"]) (fun names' =>
      Ok (names',
          {| cf_integrands := [{| ig_state := st; ig_rate := fst var; ig_units := o_units o; ig_val := o_val o;
                                  ig_lower := o_lower o; ig_upper := o_upper o |}];
             cf_conns := [(prom (String.append child_name (String.append "." (fst var))),
                           String.append "ode_integ." (fst var))];
             cf_out_promotes := if o_promotes o then [st; String.append st "_final"] else [];
             cf_in_promotes := if o_promotes o then [String.append st "_initial"] else [] |}))
  end).
Fixpoint configure_vars (float eval_num : string -> res R) (eval_bool : string -> res bool)
    (prom : string -> string) (child_name : string) (names : list string) (vars : list (string * list string))
  : res (list string * configured) :=
  match vars with
  | [] => Ok (names, cf_empty)
  | v :: rest =>
      res_bind (configure_var float eval_num eval_bool prom child_name names v) (fun a =>
      res_bind (configure_vars float eval_num eval_bool prom child_name (fst a) rest) (fun b =>
      Ok (fst b, cf_app (snd a) (snd b))))
  end.
(** mission_groups.py:236-241: groups are excluded; only outputs with the
    "integrate" tag. *)
Definition tagged (c : child) : list (string * list string) :=
  if ch_group c then [] else filter (fun v => in_list "integrate" (snd v)) (ch_outs c).
Fixpoint configure_children (float eval_num : string -> res R) (eval_bool : string -> res bool)
    (prom : string -> string) (names : list string) (children : list child) : res configured :=
  match children with
  | [] => Ok cf_empty
  | c :: rest =>
      res_bind (configure_vars float eval_num eval_bool prom (ch_name c) names (tagged c)) (fun a =>
      res_bind (configure_children float eval_num eval_bool prom (fst a) rest) (fun b =>
      Ok (cf_app (snd a) b)))
  end.
(** [ode_integ] starts with the input "duration" (mission_groups.py:224-227). *)
Definition igroup_configure (float eval_num : string -> res R) (eval_bool : string -> res bool)
    (prom : string -> string) (children : list child) : res configured :=
  configure_children float eval_num eval_bool prom ["duration"] children.

(** ** Mission profiles (profiles.py:14-297) *)

Inductive transition := Simplified | Ode | OtherTransition.
(** [include_takeoff], [include_reserve] and the options [include_ground_roll]
    (profiles.py:38-39, read only without both) and [transition_method]
    (profiles.py:34-37, read only with takeoff). *)
Record profile := { pf_takeoff : bool; pf_reserve : bool; pf_ground_roll : bool; pf_transition : transition }.
Definition pf_basic (o : profile) : bool := negb (pf_takeoff o) && negb (pf_reserve o).

Inductive pkind := SteadyP | GroundP | BackwardsP | RobustRotationP | RotationP.

(** profiles.py:66-118, 119-122, 144-147, 165-168, 191-194, 214-217, 236-239,
    271-274: the PhaseGroups added, in order. *)
Definition profile_phases (o : profile) : list (string * pkind) :=
  (if pf_takeoff o then
     [("v0v1", GroundP); ("v1vr", GroundP);
      ("rotate", match pf_transition o with Simplified => RobustRotationP | _ => RotationP end);
      ("v1v0", BackwardsP)]
   else if pf_basic o && pf_ground_roll o then [("groundroll", GroundP)] else []) ++
  [("climb", SteadyP); ("cruise", SteadyP); ("descent", SteadyP)] ++
  (if pf_reserve o then
     [("reserve_climb", SteadyP); ("reserve_cruise", SteadyP); ("reserve_descent", SteadyP); ("loiter", SteadyP)]
   else []).

(** A state of a phase: absolute names within the phase, and the names they are
    promoted to within the phase. *)
Record pstate := { ps_abs : istate; ps_prom : istate }.
Definition st3 (a b c : string) : istate := {| is_name := a; is_start := b; is_end := c |}.
Definition std_state (integ name : string) : istate :=
  st3 (String.append integ (String.append "." name))
      (String.append integ (String.append "." (String.append name "_initial")))
      (String.append integ (String.append "." (String.append name "_final"))).
Definition promoted_state (name : string) : istate :=
  st3 name (String.append name "_initial") (String.append name "_final").

(** States a phase itself integrates: phases.py:978-1004 (steady flight: only
    the state itself is promoted), 645-657 and 685-736 (ground roll: all
    promoted), 865-892 (rotation), none in RobustRotationPhase. *)
Definition builtin_states (k : pkind) : list pstate :=
  match k with
  | SteadyP =>
      [ {| ps_abs := std_state "ode_integ_phase" "fltcond|h";
           ps_prom := st3 "fltcond|h" "ode_integ_phase.fltcond|h_initial" "ode_integ_phase.fltcond|h_final" |};
        {| ps_abs := std_state "ode_integ_phase" "range";
           ps_prom := st3 "range" "ode_integ_phase.range_initial" "ode_integ_phase.range_final" |} ]
  | GroundP =>
      [ {| ps_abs := std_state "ode_integ_phase" "fltcond|Utrue"; ps_prom := promoted_state "fltcond|Utrue" |};
        {| ps_abs := std_state "ode_integ_phase" "range"; ps_prom := promoted_state "range" |} ]
  | BackwardsP =>
      [ {| ps_abs := st3 "ode_integ_phase.vel_q" "ode_integ_phase.zero_speed" "ode_integ_phase.fltcond|Utrue_initial";
           ps_prom := st3 "vel_q" "zero_speed" "fltcond|Utrue_initial" |};
        {| ps_abs := std_state "ode_integ_phase" "range"; ps_prom := promoted_state "range" |} ]
  | RobustRotationP => []
  | RotationP =>
      [ {| ps_abs := std_state "intvelocity" "fltcond|Utrue"; ps_prom := promoted_state "fltcond|Utrue" |};
        {| ps_abs := std_state "intrange" "range"; ps_prom := promoted_state "range" |};
        {| ps_abs := std_state "intvs" "fltcond|vs"; ps_prom := promoted_state "fltcond|vs" |};
        {| ps_abs := std_state "inth" "fltcond|h"; ps_prom := promoted_state "fltcond|h" |} ]
  end.

(** A state of the aircraft model: absolute names start with "acmodel."
    (phases.py:989-994 and the same in the other phases). *)
Definition user_state (u : pstate) : pstate :=
  {| ps_abs := prefix_state "acmodel" (ps_abs u); ps_prom := ps_prom u |}.
Definition phase_states (k : pkind) (users : list pstate) : list pstate :=
  builtin_states k ++ map user_state users.

(** profiles.py:281-297, the [link_phases] calls. *)
Definition profile_links (o : profile) : list (string * string * list string) :=
  (if pf_takeoff o then
     [("v0v1", "v1vr", ["fltcond|Utrue"; "range"]); ("v1vr", "rotate", ["fltcond|Utrue"; "range"]);
      ("v0v1", "v1v0", ["fltcond|Utrue"; "range"]); ("rotate", "climb", [])]
   else if pf_basic o && pf_ground_roll o then [("groundroll", "climb", ["fltcond|h"])] else []) ++
  [("climb", "cruise", []); ("cruise", "descent", [])] ++
  (if pf_reserve o then
     [("descent", "reserve_climb", ["ode_integ_phase.fltcond|h"]); ("reserve_climb", "reserve_cruise", []);
      ("reserve_cruise", "reserve_descent", []); ("reserve_descent", "loiter", ["ode_integ_phase.fltcond|h"])]
   else []).

(** The explicit [self.connect] calls of profiles.py:76-287, in program order. *)
Definition profile_connects (o : profile) : list (string * string) :=
  (if pf_takeoff o then
     [("takeoff|v1", "v1vr.fltcond|Utrue_initial"); ("v0v1.range_final", "v1vr.range_initial")] ++
     (match pf_transition o with Simplified => [] | _ => [("v1vr.fltcond|Utrue_final", "rotate.fltcond|Utrue_initial")] end) ++
     [("v1vr.range_final", "rotate.range_initial"); ("rotate.range_final", "bfl.distance_continue");
      ("v1vr.takeoff|vr", "bfl.takeoff|vr"); ("v0v1.range_final", "v1v0.range_initial");
      ("v1v0.range_final", "bfl.distance_abort")]
   else if pf_basic o && pf_ground_roll o then [("takeoff|v2", "groundroll.takeoff|v1")] else []) ++
  [("cruise|h0", "climb.climbdt.cruise|h0")] ++
  (if pf_basic o then [("takeoff|h", "climb.ode_integ_phase.fltcond|h_initial")] else []) ++
  [("mission_range", "cruise.cruisedt.mission_range");
   ("descent.ode_integ_phase.range_final", "cruise.cruisedt.range_final");
   ("takeoff|h", "descent.descentdt.takeoff|h")] ++
  (if pf_reserve o then
     [("reserve|h0", "reserve_climb.reserve_climbdt.reserve|h0");
      ("reserve_range", "reserve_cruise.reserve_cruisedt.reserve_range");
      ("takeoff|h", "reserve_descent.reserve_descentdt.takeoff|h");
      ("descent.ode_integ_phase.range_final", "resrange.rangeo");
      ("reserve_descent.ode_integ_phase.range_final", "resrange.rangef");
      ("resrange.reserverange", "reserve_cruise.reserve_cruisedt.range_final");
      ("loiter|h0", "loiter.ode_integ_phase.fltcond|h_initial");
      ("loiter_duration", "loiter.duration_in")]
   else []) ++
  (if pf_takeoff o then
     [("rotate.range_final", "climb.ode_integ_phase.range_initial");
      ("rotate.fltcond|h_final", "climb.ode_integ_phase.fltcond|h_initial")]
   else []).

Definition kind_of (o : profile) (p : string) : pkind :=
  match find (fun x => String.eqb (fst x) p) (profile_phases o) with Some (_, k) => k | None => SteadyP end.

(** profiles.py:42-297 with the deferred links of mission_groups.py:295-298: all
    connections of the mission group.  [users p] are the aircraft model's states
    in phase [p]. *)
Definition mission (promO promI : string -> option string) (path : string)
    (users : string -> list pstate) (o : profile) : res (list (option string * option string)) :=
  if pf_takeoff o && (match pf_transition o with OtherTransition => true | _ => false end) then Err IOError
  else
    res_bind (apply_links promO promI path (fun p => map ps_abs (phase_states (kind_of o p) (users p)))
                (profile_links o)) (fun cs =>
    Ok (map (fun c => (Some (fst c), Some (snd c))) (profile_connects o) ++ cs)).
