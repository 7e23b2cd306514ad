(** C91: the sizing analysis of the airliner has solutions, one for each choice of the design variables and of the takeoff weight. *)
From Coq Require Import Reals List Bool PeanoNat String Lia Lra.
From Verif Require Import Base Py RSum Model_Algebra Proofs_Algebra Model_Vectors Proofs_Vectors Model_Integrals Spec_Integrals Proofs_Integrals Proofs_IntegMore
  Model_Atmos Proofs_Atmos Model_Aero Model_Phases Model_Mission Spec_Mission Proofs_Profiles Props_Targets Model_Net Proofs_Net Model_Thermal Model_HX Model_Ducts Proofs_Ducts Model_HeatPipe
  Model_Systems Proofs_Systems Model_Weights Spec_Weights Props_Weights Model_Propulsion Model_Flight Spec_Flight Proofs_Flight Proofs_Trip Props_Trip Proofs_Fly Model_Drag Spec_Drag Proofs_Drag Props_Drag
  Model_Fleet Spec_Fleet Proofs_Fleet Proofs_FleetBody Proofs_FleetSetup Props_Fleet Model_Sizing Spec_Airliner Proofs_Airliner Proofs_Sized Proofs_FlySized Proofs_FlySizing.
Import ListNotations.
Open Scope R_scope.
Open Scope string_scope.
Open Scope list_scope.

(** With an engine deck of constant thrust and fuel flow the analysis converges for every design: [dv] gives the design
    variables other than the payload, [MTOW] the takeoff weight, which has to be more than the fuel of the 6800 seconds
    flown; the payload is what is left of it. *)
Theorem C91_converges kt kp n X (dv : string -> R) MTOW thrust flow : method_size Simpson n -> is_inverse (n - 1) simpson_a X -> pressure_coeffs kp ->
  let engines := dv "ac|propulsion|num_engines" * (dv "ac|propulsion|engine|rating" / (27300 * lbf)) in
  engines * thrust <> 0 -> 0 <= engines * flow -> engines * flow * 6800 < MTOW ->
  let tri := method_tri Simpson n X in let D := {| dk_thrust := fun t _ _ => thrust * t; dk_fuel := fun _ _ _ => flow; dk_T4 := fun _ _ _ => 0 |} in
  exists G V, mission_group kt kp tri n (SizedB738 D tri) reserved = Ok G /\ solution (SizingMissionAnalysis G) V /\
    V "ac|weights|MTOW" 0%nat = MTOW /\ forall x, In x sizing_dvs -> x <> "ac|weights|W_payload" -> V x 0%nat = dv x.
Proof.
  intros MS HX Hp engines HK H0 H1 tri D. set (o := configured drag_defaults false).
  destruct (C67_jet_runs jet_defaults (z_weigh n dv MTOW flow)) as (T & TS & TI).
  assert (ZE : forall p, exists Z, solution (ParasiteDragCoefficient_JetTransport o n) Z /\
    forall x i, In x (flight_inputs ++ jet_scalars true) -> Z x i = s_base kt kp n (z_ac dv MTOW) (z_leg kt kp n p) x i).
  { intro p. destruct (C71_jet_runs o n (s_base kt kp n (z_ac dv MTOW) (z_leg kt kp n p)) ltac:(destruct MS; lia)) as (_ & Z & ZS & ZI). exists Z. split; [exact ZS|].
    intros x i Hx. apply ZI.
    assert (F : forallb (fun x => mem x (free_ins (ParasiteDragCoefficient_JetTransport o n))) (flight_inputs ++ jet_scalars true) = true) by (vm_compute; reflexivity).
    rewrite forallb_forall in F. apply mem_In, (F x Hx). }
  destruct (ZE "climb") as [Z1 E1], (ZE "cruise") as [Z2 E2], (ZE "descent") as [Z3 E3], (ZE "reserve_climb") as [Z4 E4], (ZE "reserve_cruise") as [Z5 E5], (ZE "reserve_descent") as [Z6 E6], (ZE "loiter") as [Z7 E7].
  pose (Z := fun p => match assoc p [("climb", Z1); ("cruise", Z2); ("descent", Z3); ("reserve_climb", Z4); ("reserve_cruise", Z5); ("reserve_descent", Z6)] with Some z => z | None => Z7 end).
  assert (ZS : forall p, In p steady_phases -> solution (ParasiteDragCoefficient_JetTransport o n) (Z p) /\
    forall x i, In x (flight_inputs ++ jet_scalars true) -> Z p x i = s_base kt kp n (z_ac dv MTOW) (z_leg kt kp n p) x i).
  { intros p Ip. cbn in Ip. destruct Ip as [<-|[<-|[<-|[<-|[<-|[<-|[<-|[]]]]]]]]; [exact E1|exact E2|exact E3|exact E4|exact E5|exact E6|exact E7]. }
  destruct (z_solves kt kp n dv MTOW thrust flow T Z TS TI ZS X MS HX Hp HK H0 H1) as (G & EG & S).
  exists G, (z_all kt kp n dv MTOW thrust flow T Z). split; [exact EG|]. split; [exact S|]. split; [reflexivity|].
  intros x Hx Hn. repeat (destruct Hx as [<-|Hx]; [first [reflexivity | exfalso; apply Hn; reflexivity]|]). contradiction.
Qed.
Print Assumptions C91_converges.

(** All hypotheses of [C91_closes] hold of an airliner with two engines of the original rating that takes off with 79002 kg. *)
Example C91_met kt kp n X : method_size Simpson n -> is_inverse (n - 1) simpson_a X -> pressure_coeffs kp ->
  let tri := method_tri Simpson n X in let D := {| dk_thrust := fun t _ _ => 100000 * t; dk_fuel := fun _ _ _ => 1/2; dk_T4 := fun _ _ _ => 0 |} in
  exists G V, mission_group kt kp tri n (SizedB738 D tri) reserved = Ok G /\ solution (SizingMissionAnalysis G) V /\
    forall x, In x ["ac|weights|MTOW"; "ac|propulsion|engine|rating"; "ac|geom|wing|S_ref"; "ac|geom|wing|AR"; "ac|geom|wing|taper"; "ac|geom|fuselage|length"; "ac|geom|fuselage|height"] -> 0 < V x 0%nat.
Proof.
  intros MS HX Hp tri D. assert (L : 0 < lbf) by (unfold lbf, pound; lra).
  pose (dv := fun x => if String.eqb x "ac|propulsion|engine|rating" then 27300 * lbf else 2).
  assert (E : dv "ac|propulsion|num_engines" * (dv "ac|propulsion|engine|rating" / (27300 * lbf)) = 2) by (change (2 * (27300 * lbf / (27300 * lbf)) = 2); field; lra).
  destruct (C91_converges kt kp n X dv 79002 100000 (1/2) MS HX Hp ltac:(rewrite E; lra) ltac:(rewrite E; lra) ltac:(rewrite E; lra)) as (G & V & EG & S & VM & VD).
  exists G, V. split; [exact EG|]. split; [exact S|]. intros x [<-|Hx]; [rewrite VM; lra|].
  assert (V x 0%nat = dv x) as -> by (cbn in Hx; repeat (destruct Hx as [<-|Hx]; [apply VD; [cbn; tauto|discriminate]|]); contradiction).
  unfold dv. destruct (String.eqb x _); lra.
Qed.
Print Assumptions C91_met.
