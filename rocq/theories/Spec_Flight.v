(** Specification vocabulary for the flight phases and missions. *)
From Coq Require Import Reals List Bool PeanoNat String.
From Verif Require Import Base RSum Model_Vectors Model_Integrals Model_Atmos Model_Mission Spec_Mission Model_Net Model_Ducts Model_Flight.
Import ListNotations.
Open Scope R_scope.
Open Scope string_scope.
Open Scope list_scope.

(** The area under samples [f] taken one unit of time apart, from sample 0 to
    sample [k], by parabolas through samples 0-1-2, 2-3-4 and so on. *)
Definition strip (f : nat -> R) (j : nat) : R :=
  if Nat.even j then (5 * f j + 8 * f (j + 1)%nat - f (j + 2)%nat) / 12
  else (- f (j - 1)%nat + 8 * f j + 5 * f (j + 1)%nat) / 12.
Fixpoint area (f : nat -> R) (k : nat) : R :=
  match k with O => 0 | S j => area f j + strip f j end.
(** [q] starts at [q0] and changes at the rate [f], sampled at [n] equidistant
    instants of a phase that lasts [T]. *)
Definition evolves (n : nat) (T q0 : R) (f q : nat -> R) : Prop :=
  forall i, (i < n)%nat -> q i = q0 + T / INR (n - 1) * area f i.

(** Names the phases use for their own quantities; an aircraft model's integrators
    must not take their durations under one of these names. *)
Definition own_names : list string :=
  ["fltcond|h"; "fltcond|vs"; "fltcond|groundspeed"; "fltcond|Utrue"; "fltcond|Ueas"; "fltcond|TempIncrement"; "fltcond|T";
   "fltcond|p"; "fltcond|rho"; "fltcond|a"; "fltcond|q"; "fltcond|M"; "fltcond|CL"; "fltcond|singamma"; "fltcond|cosgamma";
   "fltcond|Utrue_final"; "fltcond|h_final"; "fltcond|h_initial";
   "range"; "range_initial"; "range_final"; "weight"; "lift"; "drag"; "thrust"; "throttle"; "braking"; "accel_horiz"; "accel_vert"; "zero_accel";
   "zero_speed"; "takeoff|v1"; "takeoff|vr"; "takeoff|v2"; "gamma"; "h_initial"; "h_obs"; "h_obstacle"; "h_transition"; "s_transition";
   "t_transition"; "s_climb"; "t_climb"; "CL_rotate_mult"; "Vstall_eas"; "vr_vstall_mult"; "v2_vstall_mult"; "duration_in";
   "fltcond|vs_initial"; "ode_integ_phase.fltcond|h_initial"; "ode_integ_phase.range_initial"; "ode_integ_phase.duration";
   "ac|geom|wing|S_ref"; "ac|aero|CLmax_TO"; "ac|weights|MTOW"].
Definition own_durations (A : aircraft) : Prop := forall t, In t (ac_times A) -> ~ In t own_names /\ t <> "fltcond|Utrue_initial".
(** Inputs of the phases' duration setters; the aircraft model must have no output of such a name. *)
Definition phase_inputs : list string :=
  ["takeoff|v1"; "climbdt.fltcond|h_final"; "climbdt.cruise|h0"; "cruisedt.range_final"; "cruisedt.mission_range";
   "descentdt.fltcond|h_final"; "descentdt.takeoff|h"; "reserve_climbdt.fltcond|h_final"; "reserve_climbdt.reserve|h0";
   "reserve_cruisedt.range_final"; "reserve_cruisedt.reserve_range"; "reserve_descentdt.fltcond|h_final"; "reserve_descentdt.takeoff|h"].
Definition plain_outputs (A : aircraft) : Prop := forall n p y, In y (group_outs (ac_model A n p)) -> ~ In y phase_inputs.

(** [V] are the values of a mission's variables, [W p] those of the variables inside its
    phase [p], with [n] nodes: together they are one flight. *)
Record one_flight (kt kp : coeffs) (tri : mat) (n : nat) (A : aircraft) (o : profile) (V : env) (W : string -> env) : Prop := {
  (* every phase obeys its own equations, and the mission reports the phases' outputs *)
  fl_phases : forall p k, In (p, k) (profile_phases o) -> solution (phase_group kt kp tri n A p k) (W p);
  fl_reported : forall p k y i, In (p, k) (profile_phases o) -> In y (group_outs (phase_group kt kp tri n A p k)) -> V (sub p y) i = W p y i;
  (* every phase flies with the same aircraft data *)
  fl_aircraft : forall p k x i, In (p, k) (profile_phases o) -> In x (free_ins (phase_group kt kp tri n A p k)) -> glob "ac|*" x = true -> W p x i = V x i;
  (* the distance flown and the states of the aircraft model go on from phase to phase *)
  fl_range : forall p q, In (p, q) (flown_after o) -> W q "range" 0%nat = W p "range" (n - 1)%nat;
  fl_states : forall p q u, In (p, q) (flown_after o) -> In u (ac_states A) -> W q (is_start (ps_prom u)) 0%nat = W p (is_end (ps_prom u)) 0%nat;
  (* the altitude goes on through climb, cruise and descent *)
  fl_altitude : W "cruise" "fltcond|h" 0%nat = W "climb" "fltcond|h" (n - 1)%nat /\ W "descent" "fltcond|h" 0%nat = W "cruise" "fltcond|h" (n - 1)%nat;
  fl_basic : pf_basic o = true -> W "climb" "fltcond|h" 0%nat = V "takeoff|h" 0%nat;
  (* the targets of the mission are met *)
  fl_targets : W "climb" "fltcond|h" (n - 1)%nat = V "cruise|h0" 0%nat /\ W "descent" "fltcond|h" (n - 1)%nat = V "takeoff|h" 0%nat /\
    W "descent" "range" (n - 1)%nat = V "mission_range" 0%nat;
  fl_reserve : pf_reserve o = true ->
    W "reserve_climb" "fltcond|h" (n - 1)%nat = V "reserve|h0" 0%nat /\ W "reserve_cruise" "fltcond|h" 0%nat = W "reserve_climb" "fltcond|h" (n - 1)%nat /\
    W "reserve_descent" "fltcond|h" 0%nat = W "reserve_cruise" "fltcond|h" (n - 1)%nat /\ W "reserve_descent" "fltcond|h" (n - 1)%nat = V "takeoff|h" 0%nat /\
    W "reserve_descent" "range" (n - 1)%nat - W "descent" "range" (n - 1)%nat = V "reserve_range" 0%nat /\
    W "loiter" "fltcond|h" 0%nat = V "loiter|h0" 0%nat /\ W "loiter" "duration" 0%nat = V "loiter_duration" 0%nat;
  (* the takeoff: from standstill to the decision speed, and on to the rotation speed or back *)
  fl_takeoff : pf_takeoff o = true ->
    W "v0v1" "range" 0%nat = 0 /\ W "v0v1" "fltcond|Utrue" 0%nat = W "v0v1" "zero_speed" 0%nat /\ W "v0v1" "fltcond|Utrue" (n - 1)%nat = V "takeoff|v1" 0%nat /\
    W "v1vr" "fltcond|Utrue" 0%nat = V "takeoff|v1" 0%nat /\ W "v1vr" "fltcond|Utrue" (n - 1)%nat = W "v1vr" "takeoff|vr" 0%nat /\
    W "v1v0" "fltcond|Utrue" 0%nat = V "takeoff|v1" 0%nat /\ W "v1v0" "fltcond|Utrue" (n - 1)%nat = W "v1v0" "zero_speed" 0%nat /\
    (pf_transition o = Ode -> W "rotate" "fltcond|Utrue" 0%nat = W "v1vr" "fltcond|Utrue" (n - 1)%nat /\ W "rotate" "fltcond|h" 0%nat = 0) /\
    W "climb" "fltcond|h" 0%nat = W "rotate" "fltcond|h" (n - 1)%nat /\
    (* either way the same distance, unless even then the decision falls on the rotation speed *)
    ((1/10 <= W "v1vr" "takeoff|vr" 0%nat - V "takeoff|v1" 0%nat /\ W "rotate" "range" (n - 1)%nat = W "v1v0" "range" (n - 1)%nat) \/
     (V "takeoff|v1" 0%nat = W "v1vr" "takeoff|vr" 0%nat /\ W "v1v0" "range" (n - 1)%nat <= W "rotate" "range" (n - 1)%nat));
  fl_roll : pf_basic o = true -> pf_ground_roll o = true ->
    W "groundroll" "range" 0%nat = 0 /\ W "groundroll" "fltcond|Utrue" 0%nat = W "groundroll" "zero_speed" 0%nat /\
    W "groundroll" "fltcond|Utrue" (n - 1)%nat = V "takeoff|v2" 0%nat
}.
