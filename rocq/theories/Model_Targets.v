(** Model of what a converged mission satisfies (openconcept/mission/profiles.py): the
    connections of [Model_Mission.mission], the connections made inside the phases,
    the BalanceComps that set the durations, and the small components between the
    phases.  Simplifications: every variable is a scalar in SI units (OpenMDAO
    converts units along connections); a converged BalanceComp has equal sides; the
    bounds on the durations are not modelled. *)
From Coq Require Import Reals List Bool PeanoNat String.
From Verif Require Import Base Py Model_Mission Model_Phases.
Import ListNotations.
Open Scope R_scope.
Open Scope string_scope.
Open Scope list_scope.

(** profiles.py:139, 187, 211, 256: [climb.connect] and the like, names as seen from the mission. *)
Definition phase_connects (o : profile) : list (string * string) :=
  [("climb.ode_integ_phase.fltcond|h_final", "climb.climbdt.fltcond|h_final");
   ("descent.ode_integ_phase.fltcond|h_final", "descent.descentdt.fltcond|h_final")] ++
  (if pf_reserve o then
     [("reserve_climb.ode_integ_phase.fltcond|h_final", "reserve_climb.reserve_climbdt.fltcond|h_final");
      ("reserve_descent.ode_integ_phase.fltcond|h_final", "reserve_descent.reserve_descentdt.fltcond|h_final")]
   else []).
(** The two sides of the BalanceComps: profiles.py:125-138, 150-163, 171-184, 197-210,
    220-233, 242-255; phases.py:668-682 (v1v0), 701-715 (v0v1; also the ground roll
    of the BasicMission), 716-731 (v1vr), 850-864 (rotation).  "takeoff|v1" of v0v1 and of v1v0 is promoted
    to the mission (profiles.py:69, 99). *)
Definition balances (o : profile) : list (string * string) :=
  (if pf_takeoff o then
     [("takeoff|v1", "v0v1.fltcond|Utrue_final"); ("v1vr.takeoff|vr", "v1vr.fltcond|Utrue_final");
      ("takeoff|v1", "v1v0.fltcond|Utrue_initial")] ++
     (match pf_transition o with Ode => [("rotate.h_obs", "rotate.fltcond|h_final")] | _ => [] end)
   else if pf_basic o && pf_ground_roll o then [("groundroll.takeoff|v1", "groundroll.fltcond|Utrue_final")] else []) ++
  [("climb.climbdt.fltcond|h_final", "climb.climbdt.cruise|h0");
   ("cruise.cruisedt.range_final", "cruise.cruisedt.mission_range");
   ("descent.descentdt.fltcond|h_final", "descent.descentdt.takeoff|h")] ++
  (if pf_reserve o then
     [("reserve_climb.reserve_climbdt.fltcond|h_final", "reserve_climb.reserve_climbdt.reserve|h0");
      ("reserve_cruise.reserve_cruisedt.range_final", "reserve_cruise.reserve_cruisedt.reserve_range");
      ("reserve_descent.reserve_descentdt.fltcond|h_final", "reserve_descent.reserve_descentdt.takeoff|h")]
   else []).
(** A converged mission with connections [cs]: profiles.py:259-265 (resrange), 276-277
    (loiter_dt), phases.py:155-170 (bfl). *)
Record converged (o : profile) (cs : list (option string * option string)) (V : string -> R) : Prop := {
  cv_conns : forall x y, In (Some x, Some y) cs -> V y = V x;
  cv_inner : forall x y, In (x, y) (phase_connects o) -> V y = V x;
  cv_balances : forall x y, In (x, y) (balances o) -> V x = V y;
  cv_resrange : pf_reserve o = true -> V "resrange.reserverange" = V "resrange.rangef" - V "resrange.rangeo";
  cv_loiter : pf_reserve o = true -> V "loiter.duration" = V "loiter.duration_in";
  cv_bfl : pf_takeoff o = true ->
    bfl_residual (V "bfl.distance_continue") (V "bfl.distance_abort") (V "bfl.takeoff|vr") (V "takeoff|v1") = 0
}.
