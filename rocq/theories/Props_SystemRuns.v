(** The propulsion systems of C63 and C64 have a converged state for all inputs. *)
From Coq Require Import Reals List Bool PeanoNat String Lia Lra.
From Coquelicot Require Import Coquelicot.
From Verif Require Import Base Py RSum Model_Algebra Model_Integrals Model_Atmos Model_Propulsion Model_Net Model_Thermal
  Model_HX Model_Ducts Model_HeatPipe Model_Systems Spec_Systems Proofs_Net Proofs_Cs Proofs_Thermal Proofs_HX Proofs_Ducts Proofs_Systems Proofs_Exec Props_Systems.
Import ListNotations.
Open Scope R_scope.
Open Scope string_scope.
Open Scope list_scope.

Ltac runs := match goal with
  | |- functional (relabel _ _ _ _) => apply fun_relabel; reflexivity
  | |- functional (subgroup _ (SimplePropeller _ _) _ _) => apply fun_propeller
  | |- functional (subgroup _ (SOCBattery _ _ _) _ _) => apply fun_battery
  | |- functional (multiplier _ _ (active_throttle _ _) _ _) => apply fun_active
  | |- functional (adders _ _ _ _) => apply fun_adders; [reflexivity|];
      let s := fresh in let Hs := fresh in let E := fresh in let i := fresh in let Hi := fresh in
      intros s Hs E i Hi; cbn [In] in Hs;
      repeat (destruct Hs as [<-|Hs]; [eexists; first [apply add1; exact Hi|apply add2; exact Hi|apply add3; exact Hi]|]); destruct Hs
  | |- functional (comp _ _ _ _ _) => apply fun_comp; first [apply local_motor|apply local_split|apply local_engine|apply local_generator|apply local_battery]
  end.
Ltac all_run := repeat (apply List.Forall_cons; [runs|]); apply List.Forall_nil.
Ltac same_subs := let s := fresh in let H := fresh in intros s H; cbn [g_subs In] in H; repeat (destruct H as [<-|H]; [cbn [In]; tauto|]); destruct H.

(** Simple systems: run the subsystems in order. *)
Lemma not_out g order x : forallb (fun y => mem y (group_outs g)) (flat_map out_names order) = true -> ~ In x (group_outs g) -> ~ In x (flat_map out_names order).
Proof. intros H N K. rewrite forallb_forall in H. apply H in K. apply mem_In in K. contradiction. Qed.
Theorem C63_turboprop_runs M nn V0 : exists V, solution (TurbopropPropulsionSystem M nn) V /\
  forall x i, ~ In x (group_outs (TurbopropPropulsionSystem M nn)) -> V x i = V0 x i.
Proof.
  destruct (exec (TurbopropPropulsionSystem M nn) (g_subs (TurbopropPropulsionSystem M nn)) V0) as [V [S H]]; [|reflexivity|intros s H; exact H|].
  - unfold TurbopropPropulsionSystem. cbn [g_subs]. all_run.
  - exists V. split; [exact S|]. intros x i N. apply H. eapply not_out; [|exact N]. reflexivity.
Qed.
Print Assumptions C63_turboprop_runs.
Theorem C63_twin_turboprop_runs M nn V0 : exists V, solution (TwinTurbopropPropulsionSystem M nn) V /\
  forall x i, ~ In x (group_outs (TwinTurbopropPropulsionSystem M nn)) -> V x i = V0 x i.
Proof.
  set (order := match g_subs (TwinTurbopropPropulsionSystem M nn) with [a; b; c; d; e; f] => [a; b; e; c; d; f] | l => l end).
  destruct (exec (TwinTurbopropPropulsionSystem M nn) order V0) as [V [S H]]; [|reflexivity| |].
  - unfold order, TwinTurbopropPropulsionSystem. cbn [g_subs]. all_run.
  - unfold order, TwinTurbopropPropulsionSystem. cbn [g_subs]. same_subs.
  - exists V. split; [exact S|]. intros x i N. apply H. eapply not_out; [|exact N]. reflexivity.
Qed.
Print Assumptions C63_twin_turboprop_runs.
Lemma fun_residual nn name pin pout : functional (adder nn name
  {| as_out := "eng_gen_residual"; as_ins := ["gen_power_available"; "gen_power_required"]; as_vec := VInt nn; as_len := 1;
     as_sf := Some [1; - (1)]; as_units := Some "kW" |} pin pout).
Proof.
  exists (fun I _ i => I "gen_power_available" i - I "gen_power_required" i). split.
  - intros I I' o i _ H. cbn [adder gs_ins as_ins] in H. now rewrite !H by (cbn; auto).
  - intros I O H i Hi. cbn [adder gs_outs as_out] in H. rewrite H by now left.
    unfold add_compute, add_resolve. cbn [as_ins as_sf as_vec as_len List.length repeat read_sizes Nat.eqb negb res_bind fst snd forallb].
    rewrite fits_refl. cbn [andb negb combine res_bind fold_left fst snd]. rewrite bidx_row by auto. f_equal. ring.
Qed.
Theorem C63_single_hybrid_runs M nn V0 : exists V, solution (SingleSeriesHybridElectricPropulsionSystem M nn) V /\
  forall x i, ~ In x (group_outs (SingleSeriesHybridElectricPropulsionSystem M nn)) -> V x i = V0 x i.
Proof.
  destruct (exec (SingleSeriesHybridElectricPropulsionSystem M nn) (g_subs (SingleSeriesHybridElectricPropulsionSystem M nn)) V0) as [V [S H]]; [|reflexivity|intros s H; exact H|].
  - unfold SingleSeriesHybridElectricPropulsionSystem. cbn [g_subs].
    repeat (apply List.Forall_cons; [first [apply fun_residual|runs]|]); apply List.Forall_nil.
  - exists V. split; [exact S|]. intros x i N. apply H. eapply not_out; [|exact N]. reflexivity.
Qed.
Print Assumptions C63_single_hybrid_runs.

(** The twin series hybrid: its balance has a solution as soon as the engine has a
    rating, the throttle with which the generator makes up for the battery. *)
Theorem C63_twin_hybrid_runs M nn tri V0 : V0 "ac|propulsion|engine|rating" 0%nat <> 0 ->
  exists V, solution (TwinSeriesHybridElectricPropulsionSystem M nn tri) V /\
  forall x i, ~ In x (group_outs (TwinSeriesHybridElectricPropulsionSystem M nn tri)) -> V x i = V0 x i.
Proof.
  intro Hr. set (G := TwinSeriesHybridElectricPropulsionSystem M nn tri).
  set (bal := balance2 nn "eng_throttle_set" "eng_throttle" "gen_power_available" "gen_power_required" [] []).
  set (order := match g_subs G with
    | [dv; pw; wt; m1; p1; fm; m2; p2; sp; en; ge; ba; _; re] => [dv; m1; p1; fm; m2; p2; pw; wt; sp; en; ge; ba; re] | l => l end).
  set (G' := {| g_subs := order; g_conns := g_conns G |}).
  set (th := fun i => (1 - V0 "hybrid_split.power_split_fraction" i) * ((1 + V0 "propulsor_active" i) * V0 "throttle" i * V0 "ac|propulsion|motor|rating" 0%nat) /
    (97/100 * V0 "ac|propulsion|engine|rating" 0%nat)).
  destruct (exec G' order (fun x i => if String.eqb x "eng_throttle_set.eng_throttle" then th i else V0 x i)) as [V [S H]];
    [unfold order, G, TwinSeriesHybridElectricPropulsionSystem; cbn [g_subs hybrid_subs app]; all_run|reflexivity|intros s K; exact K|].
  exists V. split.
  2:{ intros x i N. rewrite H.
      - destruct (String.eqb_spec x "eng_throttle_set.eng_throttle") as [->|]; [|reflexivity].
        exfalso. apply N. apply mem_In. reflexivity.
      - eapply not_out; [|exact N]. reflexivity. }
  assert (K : forall s, In s (g_subs G) -> s = bal \/ In s order).
  { intros s Hs. unfold order, G, TwinSeriesHybridElectricPropulsionSystem in *. cbn [g_subs hybrid_subs app In] in *.
    repeat (destruct Hs as [<-|Hs]; [first [left; reflexivity|right; tauto]|]). destruct Hs. }
  intros s Hs. destruct (K s Hs) as [->|Ho]; [|exact (S s Ho)]. clear K.
  assert (F : forall x i, forallb (fun y => negb (String.eqb x y)) (flat_map out_names order) = true -> x <> "eng_throttle_set.eng_throttle" -> V x i = V0 x i).
  { intros x i A N. rewrite H; [destruct (String.eqb_spec x "eng_throttle_set.eng_throttle"); [contradiction|reflexivity]|].
    intro B. rewrite forallb_forall in A. apply A in B. now rewrite String.eqb_refl in B. }
  intros i Hi.
  pose proof (F "throttle" i eq_refl ltac:(discriminate)) as f1. pose proof (F "propulsor_active" i eq_refl ltac:(discriminate)) as f2.
  pose proof (F "hybrid_split.power_split_fraction" i eq_refl ltac:(discriminate)) as f3.
  pose proof (F "ac|propulsion|motor|rating" 0%nat eq_refl ltac:(discriminate)) as f4.
  pose proof (F "ac|propulsion|engine|rating" 0%nat eq_refl ltac:(discriminate)) as f5.
  assert (f6 : V "eng_throttle_set.eng_throttle" i = th i).
  { rewrite H; [reflexivity|]. intro B. apply mem_In in B. discriminate B. }
  pose proof (relabel_eq G' V _ _ S ltac:(nth_sub 0%nat) eq_refl _ _ ltac:(nth_sub 0%nat) 0%nat) as D1.
  pose proof (relabel_eq G' V _ _ S ltac:(nth_sub 0%nat) eq_refl _ _ ltac:(nth_sub 2%nat) 0%nat) as D2.
  pose proof (sol_comp G' V _ _ _ _ _ "elec_load" _ _ i S ltac:(nth_sub 1%nat) eq_refl Hi) as L1.
  pose proof (sol_rel G' V _ S ltac:(nth_sub 3%nat) i Hi) as A. rewrite active_value in A by exact Hi. injection A as A.
  pose proof (sol_comp G' V _ _ _ _ _ "elec_load" _ _ i S ltac:(nth_sub 4%nat) eq_refl Hi) as L2.
  pose proof (sol_adders G' V "add_power" _ _ _ _ i S ltac:(nth_sub 6%nat) ltac:(nth_sub 0%nat) Hi) as L. rewrite add2 in L by exact Hi. injection L as L.
  pose proof (sol_comp G' V _ _ _ _ _ "power_out_B" _ _ i S ltac:(nth_sub 8%nat) eq_refl Hi) as SB.
  pose proof (sol_comp G' V _ _ _ _ _ "shaft_power_out" _ _ i S ltac:(nth_sub 9%nat) eq_refl Hi) as EP.
  pose proof (sol_comp G' V _ _ _ _ _ "elec_power_out" _ _ i S ltac:(nth_sub 10%nat) eq_refl Hi) as GP.
  change (V "motor1.elec_load" i = V "throttle" i * V "motor_rating" 0%nat) in L1.
  change (V "motor2.elec_load" i = V "failedmotor.motor2throttle" i * V "motor_rating" 0%nat) in L2.
  change (V "throttle" i * V "propulsor_active" i = V "failedmotor.motor2throttle" i) in A.
  change (V "motor1.elec_load" i + V "motor2.elec_load" i = V "motors_elec_load" i) in L.
  change (V "hybrid_split.power_out_B" i = V "motors_elec_load" i * (1 - V "hybrid_split.power_split_fraction" i) * 1) in SB.
  change (V "eng1.shaft_power_out" i = V "eng_throttle_set.eng_throttle" i * V "eng_rating" 0%nat) in EP.
  change (V "gen1.elec_power_out" i = V "eng1.shaft_power_out" i * (97/100)) in GP.
  change (V "gen1.elec_power_out" i = V "hybrid_split.power_out_B" i).
  rewrite GP, EP, SB, <- L, L1, L2, <- A, D1, D2, f1, f2, f3, f4, f5, f6. unfold th. field. exact Hr.
Qed.
Print Assumptions C63_twin_hybrid_runs.

(** With it, the flight with one motor of two: for all inputs there is a converged state, and in it... *)
Theorem C64_one_motor M nn tri V i : solution (TwinSeriesHybridElectricPropulsionSystem M nn tri) V -> (i < nn)%nat ->
  propeller_runs V i "prop1.rpm" "ac|propulsion|propeller|diameter" -> propeller_runs V i "prop2.rpm" "ac|propulsion|propeller|diameter" ->
  V "propulsor_active" i = 0 ->
  let L := V "throttle" i * V "ac|propulsion|motor|rating" 0%nat in let h := V "hybrid_split.power_split_fraction" i in
  V "thrust" i = propeller_thrust (eta_map M) (static_map M) (V "fltcond|rho" i) (V "fltcond|Utrue" i) (V "ac|propulsion|propeller|diameter" 0%nat) (V "prop1.rpm" i) (97/100 * L) /\
  V "battery_load" i = h * L /\ V "fuel_flow" i = fuel_per_joule * ((1 - h) * L / (97/100)).
Proof.
  intros S Hi R1 R2 A L h. pose proof (proj1 (C63_twin_hybrid M nn tri V i Hi R1 R2) S) as H.
  destruct (C64_hybrid_one_motor _ _ _ _ _ _ H) as [K _]. destruct (K A) as (K1&K2&_). split; [exact K1|].
  destruct (C64_energy_sources _ _ _ _ _ _ H) as [E _]. pose proof (hf_battery H) as B. rewrite K2, Rplus_0_r in *. fold L in B, E. fold h in B.
  split; [exact B|]. rewrite B in E. assert (N : fuel_per_joule <> 0) by (unfold fuel_per_joule; lra).
  replace (V "fuel_flow" i) with (fuel_per_joule * (V "fuel_flow" i / fuel_per_joule)) by (field; exact N). f_equal. lra.
Qed.
Print Assumptions C64_one_motor.
