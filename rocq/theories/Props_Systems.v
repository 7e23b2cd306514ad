(** C63, C64: energy, thrust and weight accounts of the propulsion systems.
    Statements use Spec_Systems.  Every theorem is about an arbitrary converged state
    [solution G V] of the assembled group, with [V] indexed by promoted names. *)
From Coq Require Import Reals List Bool PeanoNat String Lia Lra.
From Coquelicot Require Import Coquelicot.
From Verif Require Import Base Py RSum Spec_Integrals Spec_Systems Model_Algebra Model_Integrals Model_Atmos Model_Propulsion Model_Net Model_Thermal
  Model_HX Model_Ducts Model_HeatPipe Model_Systems Proofs_Net Proofs_Ducts Proofs_Systems Proofs_Integrals Props_Integrals Proofs_Thermal Props_Thermal.
Import ListNotations.
Open Scope R_scope.
Open Scope string_scope.
Open Scope list_scope.

(** ** C63 *)
Theorem C63_turboprop M nn V i : solution (TurbopropPropulsionSystem M nn) V -> (i < nn)%nat ->
  let rating := V "ac|propulsion|engine|rating" 0%nat in let D := V "ac|propulsion|propeller|diameter" 0%nat in
  V "fuel_flow" i = fuel_per_joule * (V "throttle" i * rating) /\
  (propeller_runs V i "prop1.rpm" "ac|propulsion|propeller|diameter" ->
   V "thrust" i = propeller_thrust (eta_map M) (static_map M) (V "fltcond|rho" i) (V "fltcond|Utrue" i) D (V "prop1.rpm" i) (V "throttle" i * rating)) /\
  V "eng1.component_weight" 0%nat = engine_weight rating /\ V "prop1.component_weight" 0%nat = propeller_weight rating D.
Proof.
  intros S Hi rating D. set (G := TurbopropPropulsionSystem M nn) in *.
  pose proof (sol_comp G V _ _ _ _ _ "fuel_flow" _ _ i S ltac:(nth_sub 1%nat) eq_refl Hi) as EF.
  pose proof (sol_comp G V _ _ _ _ _ "shaft_power_out" _ _ i S ltac:(nth_sub 1%nat) eq_refl Hi) as EP.
  pose proof (sol_comp G V _ _ _ _ _ "component_weight" _ _ 0%nat S ltac:(nth_sub 1%nat) eq_refl Nat.lt_0_1) as EW.
  pose proof (propeller_in G V M nn "prop1" _ _ S ltac:(nth_sub 2%nat)) as [PW PT]. specialize (PT i Hi).
  change (V "fuel_flow" i = V "throttle" i * rating * psfc) in EF. change (V "eng1.shaft_power_out" i = V "throttle" i * rating) in EP.
  change (V "eng1.component_weight" 0%nat = rating * (14/100 / 1000) + 104) in EW.
  split; [rewrite EF; unfold psfc, fuel_per_joule; ring|]. split.
  - intros [Q1 [Q2 Q3]]. specialize (PT Q1 Q2 Q3). rewrite <- EP. exact PT.
  - split; [rewrite EW; unfold engine_weight; field|exact PW].
Qed.
Print Assumptions C63_turboprop.

Theorem C63_twin_turboprop M nn V i : solution (TwinTurbopropPropulsionSystem M nn) V -> (i < nn)%nat ->
  let rating := V "ac|propulsion|engine|rating" 0%nat in let D := V "ac|propulsion|propeller|diameter" 0%nat in
  let P1 := V "throttle" i * rating in let P2 := V "propulsor_active" i * P1 in
  let T rpm P := propeller_thrust (eta_map M) (static_map M) (V "fltcond|rho" i) (V "fltcond|Utrue" i) D (V rpm i) P in
  V "fuel_flow" i = fuel_per_joule * (P1 + P2) /\
  (propeller_runs V i "prop1.rpm" "ac|propulsion|propeller|diameter" -> propeller_runs V i "prop2.rpm" "ac|propulsion|propeller|diameter" ->
   V "thrust" i = T "prop1.rpm" P1 + T "prop2.rpm" P2) /\
  V "engines_weight" 0%nat = 2 * engine_weight rating /\ V "propellers_weight" 0%nat = 2 * propeller_weight rating D.
Proof.
  intros S Hi rating D P1 P2 T. set (G := TwinTurbopropPropulsionSystem M nn) in *.
  pose proof (sol_comp G V _ _ _ _ _ "fuel_flow" _ _ i S ltac:(nth_sub 0%nat) eq_refl Hi) as EF1.
  pose proof (sol_comp G V _ _ _ _ _ "shaft_power_out" _ _ i S ltac:(nth_sub 0%nat) eq_refl Hi) as EP1.
  pose proof (sol_comp G V _ _ _ _ _ "component_weight" _ _ 0%nat S ltac:(nth_sub 0%nat) eq_refl Nat.lt_0_1) as EW1.
  pose proof (sol_comp G V _ _ _ _ _ "fuel_flow" _ _ i S ltac:(nth_sub 2%nat) eq_refl Hi) as EF2.
  pose proof (sol_comp G V _ _ _ _ _ "shaft_power_out" _ _ i S ltac:(nth_sub 2%nat) eq_refl Hi) as EP2.
  pose proof (sol_comp G V _ _ _ _ _ "component_weight" _ _ 0%nat S ltac:(nth_sub 2%nat) eq_refl Nat.lt_0_1) as EW2.
  pose proof (propeller_in G V M nn "prop1" _ _ S ltac:(nth_sub 1%nat)) as [PW1 PT1]. specialize (PT1 i Hi).
  pose proof (propeller_in G V M nn "prop2" _ _ S ltac:(nth_sub 3%nat)) as [PW2 PT2]. specialize (PT2 i Hi).
  pose proof (sol_rel G V _ S ltac:(nth_sub 4%nat) i Hi) as A. rewrite active_value in A by exact Hi. injection A as A.
  pose proof (sol_adders G V "adder" _ _ _ _ i S ltac:(nth_sub 5%nat) ltac:(nth_sub 0%nat) Hi) as A0.
  pose proof (sol_adders G V "adder" _ _ _ _ i S ltac:(nth_sub 5%nat) ltac:(nth_sub 1%nat) Hi) as A1.
  pose proof (sol_adders G V "adder" _ _ _ _ 0%nat S ltac:(nth_sub 5%nat) ltac:(nth_sub 2%nat) Nat.lt_0_1) as A2.
  pose proof (sol_adders G V "adder" _ _ _ _ 0%nat S ltac:(nth_sub 5%nat) ltac:(nth_sub 3%nat) Nat.lt_0_1) as A3.
  rewrite add2 in A0, A1 by exact Hi. rewrite add2 in A2, A3 by apply Nat.lt_0_1. injection A0 as A0. injection A1 as A1. injection A2 as A2. injection A3 as A3.
  change (V "throttle" i * V "propulsor_active" i = V "failedengine.eng2throttle" i) in A.
  change (V "eng1.fuel_flow" i + V "eng2.fuel_flow" i = V "fuel_flow" i) in A0. change (V "prop1.thrust" i + V "prop2.thrust" i = V "thrust" i) in A1.
  change (V "eng1.component_weight" 0%nat + V "eng2.component_weight" 0%nat = V "engines_weight" 0%nat) in A2.
  change (V "prop1.component_weight" 0%nat + V "prop2.component_weight" 0%nat = V "propellers_weight" 0%nat) in A3.
  change (V "eng1.fuel_flow" i = V "throttle" i * rating * psfc) in EF1. change (V "eng1.shaft_power_out" i = V "throttle" i * rating) in EP1.
  change (V "eng2.fuel_flow" i = V "failedengine.eng2throttle" i * rating * psfc) in EF2. change (V "eng2.shaft_power_out" i = V "failedengine.eng2throttle" i * rating) in EP2.
  change (V "eng1.component_weight" 0%nat = rating * (14/100 / 1000) + 104) in EW1. change (V "eng2.component_weight" 0%nat = rating * (14/100 / 1000) + 104) in EW2.
  change (V "prop1.component_weight" 0%nat = propeller_weight rating D) in PW1. change (V "prop2.component_weight" 0%nat = propeller_weight rating D) in PW2.
  split; [rewrite <- A0, EF1, EF2, <- A; unfold P1, P2, psfc, fuel_per_joule; unfold P1; ring|]. split.
  - intros [Q1 [Q2 Q3]] [Q4 [Q5 Q6]]. specialize (PT1 Q1 Q2 Q3). specialize (PT2 Q4 Q5 Q6).
    change (V "prop1.thrust" i = T "prop1.rpm" (V "eng1.shaft_power_out" i)) in PT1. change (V "prop2.thrust" i = T "prop2.rpm" (V "eng2.shaft_power_out" i)) in PT2.
    rewrite <- A1, PT1, PT2, EP1, EP2, <- A. unfold P2, P1. f_equal. f_equal. ring.
  - split; [rewrite <- A2, EW1, EW2; unfold engine_weight; field|rewrite <- A3, PW1, PW2; ring].
Qed.
Print Assumptions C63_twin_turboprop.

(** The three twin series hybrids obey the same accounts. *)
Lemma flows_intro M nn tri G load V i extra :
  solution G V -> (forall s, In s (hybrid_subs M nn tri) -> In s (g_subs G)) ->
  forallb (fun p => String.eqb (source G (snd p)) (fst p)) (hybrid_conns load) = true ->
  forallb (fun x => String.eqb (source G x) x) ["throttle"; "propulsor_active"; "fltcond|rho"; "fltcond|Utrue"; "prop1.rpm"; "prop2.rpm";
    "hybrid_split.power_split_fraction"; "duration"; "batt1.SOC_initial"] = true ->
  (forall a b, In (a, b) (hybrid_dvs ++ [("ac|propulsion|battery|specific_energy", "specific_energy")]) -> forall i, V b i = V a i) ->
  (i < nn)%nat -> propeller_runs V i "prop1.rpm" "ac|propulsion|propeller|diameter" -> propeller_runs V i "prop2.rpm" "ac|propulsion|propeller|diameter" ->
  V load i = V "motor1.elec_load" i + V "motor2.elec_load" i + extra -> V "thrust" i = V "prop1.thrust" i + V "prop2.thrust" i ->
  hybrid_flows (eta_map M) (static_map M) V i load extra.
Proof.
  intros S Hs Hc Hf Hd Hi R1 R2 HL HT.
  destruct (hybrid_core M nn tri G load V S Hs Hc Hf Hd i Hi) as (L1&L2&H1&H2&B&Gn&En&Th&Fu&BH&T1&T2).
  specialize (T1 R1). specialize (T2 R2). constructor; auto.
  - rewrite HL, L1, L2. ring.
  - cbv zeta. rewrite HT, T1, T2, L1, L2. f_equal. f_equal. ring.
  - intros s [-> | ->]; cbn [String.eqb Ascii.eqb Bool.eqb]; [rewrite H1, L1|rewrite H2, L2]; ring.
Qed.
(** Labels and the names they label. *)
Lemma relabel_eq G V name l : solution G V -> In (relabel name l [P "*"] [P "*"]) (g_subs G) ->
  forallb (fun p => String.eqb (source G (fst p)) (fst p)) l = true -> forall a b, In (a, b) l -> forall i, V b i = V a i.
Proof.
  intros S I F a b H i. pose proof (sol_rel G V _ S I a b H i) as E. unfold reads, writes in E. cbn [relabel gs_name gs_pin gs_pout] in E.
  rewrite !gname_star in E. rewrite E. rewrite forallb_forall in F. specialize (F _ H). apply String.eqb_eq in F. cbn [fst] in F. now rewrite F.
Qed.
Lemma incl_dec (l l' : list (string * string)) : forallb (fun p => existsb (fun q => String.eqb (fst p) (fst q) && String.eqb (snd p) (snd q)) l') l = true ->
  forall p, In p l -> In p l'.
Proof.
  rewrite forallb_forall. intros H p I. specialize (H p I). apply existsb_exists in H. destruct H as [q [J E]].
  apply andb_prop in E. destruct E as [E1 E2]. apply String.eqb_eq in E1. apply String.eqb_eq in E2.
  destruct p, q. cbn in *. now subst.
Qed.
Definition twin := TwinSeriesHybridElectricPropulsionSystem.
Definition twin_thermal := TwinSeriesHybridElectricThermalPropulsionSystem.
Definition twin_refrigerated := TwinSeriesHybridElectricThermalPropulsionRefrigerated.
Lemma twin_dvs M nn tri V : solution (twin M nn tri) V -> forall a b,
  In (a, b) (hybrid_dvs ++ [("ac|propulsion|battery|specific_energy", "specific_energy")]) -> forall i, V b i = V a i.
Proof. intros S. exact (relabel_eq (twin M nn tri) V _ _ S ltac:(nth_sub 0%nat) eq_refl). Qed.
Lemma thermal_dvs M nn tri V : solution (twin_thermal M nn tri) V -> forall a b,
  In (a, b) (hybrid_dvs ++ [("ac|propulsion|battery|specific_energy", "specific_energy")]) -> forall i, V b i = V a i.
Proof.
  intros S a b H. refine (relabel_eq (twin_thermal M nn tri) V _ _ S ltac:(nth_sub 0%nat) eq_refl a b _). revert H. apply incl_dec. reflexivity.
Qed.
Lemma refrigerated_dvs M nn tri V : solution (twin_refrigerated M nn tri) V -> forall a b,
  In (a, b) (hybrid_dvs ++ [("ac|propulsion|battery|specific_energy", "specific_energy")]) -> forall i, V b i = V a i.
Proof.
  intros S a b H. refine (relabel_eq (twin_refrigerated M nn tri) V _ _ S ltac:(nth_sub 0%nat) eq_refl a b _). revert H. apply incl_dec. reflexivity.
Qed.
Lemma twin_subs M nn tri s : In s (hybrid_subs M nn tri) -> In s (g_subs (twin M nn tri)).
Proof. intro H. do 3 right. exact H. Qed.
Lemma thermal_subs M nn tri s : In s (hybrid_subs M nn tri) -> In s (g_subs (twin_thermal M nn tri)).
Proof. intro H. do 3 right. apply in_or_app. now left. Qed.
Lemma refrigerated_subs M nn tri s : In s (hybrid_subs M nn tri) -> In s (g_subs (twin_refrigerated M nn tri)).
Proof. intro H. do 3 right. apply in_or_app. now left. Qed.

Theorem C63_twin_hybrid M nn tri V i : (i < nn)%nat ->
  propeller_runs V i "prop1.rpm" "ac|propulsion|propeller|diameter" -> propeller_runs V i "prop2.rpm" "ac|propulsion|propeller|diameter" ->
  (solution (TwinSeriesHybridElectricPropulsionSystem M nn tri) V -> hybrid_flows (eta_map M) (static_map M) V i "motors_elec_load" 0) /\
  (solution (TwinSeriesHybridElectricThermalPropulsionSystem M nn tri) V -> hybrid_flows (eta_map M) (static_map M) V i "motors_elec_load" 0) /\
  (solution (TwinSeriesHybridElectricThermalPropulsionRefrigerated M nn tri) V ->
   hybrid_flows (eta_map M) (static_map M) V i "total_elec_load" (V "refrig.elec_load" i)).
Proof.
  intros Hi R1 R2. split; [|split]; intro S.
  - refine (flows_intro M nn tri _ "motors_elec_load" V i _ S (twin_subs M nn tri) eq_refl eq_refl (twin_dvs M nn tri V S) Hi R1 R2 _ _).
    + pose proof (sol_adders _ V "add_power" _ _ _ _ i S ltac:(nth_sub 1%nat) ltac:(nth_sub 0%nat) Hi) as A. rewrite add2 in A by exact Hi. injection A as A.
      change (V "motor1.elec_load" i + V "motor2.elec_load" i = V "motors_elec_load" i) in A. lra.
    + pose proof (sol_adders _ V "add_power" _ _ _ _ i S ltac:(nth_sub 1%nat) ltac:(nth_sub 1%nat) Hi) as A. rewrite add2 in A by exact Hi. injection A as A.
      symmetry. exact A.
  - refine (flows_intro M nn tri _ "motors_elec_load" V i _ S (thermal_subs M nn tri) eq_refl eq_refl (thermal_dvs M nn tri V S) Hi R1 R2 _ _).
    + pose proof (sol_adders _ V "add_power" _ _ _ _ i S ltac:(nth_sub 1%nat) ltac:(nth_sub 0%nat) Hi) as A. rewrite add2 in A by exact Hi. injection A as A.
      change (V "motor1.elec_load" i + V "motor2.elec_load" i = V "motors_elec_load" i) in A. lra.
    + pose proof (sol_adders _ V "add_power" _ _ _ _ i S ltac:(nth_sub 1%nat) ltac:(nth_sub 1%nat) Hi) as A. rewrite add2 in A by exact Hi. injection A as A.
      symmetry. exact A.
  - refine (flows_intro M nn tri _ "total_elec_load" V i _ S (refrigerated_subs M nn tri) eq_refl eq_refl (refrigerated_dvs M nn tri V S) Hi R1 R2 _ _).
    + pose proof (sol_adders _ V "add_power" _ _ _ _ i S ltac:(nth_sub 1%nat) ltac:(nth_sub 0%nat) Hi) as A. rewrite add3 in A by exact Hi. injection A as A.
      change (V "motor1.elec_load" i + V "motor2.elec_load" i + V "refrig.elec_load" i = V "total_elec_load" i) in A. lra.
    + pose proof (sol_adders _ V "add_power" _ _ _ _ i S ltac:(nth_sub 1%nat) ltac:(nth_sub 1%nat) Hi) as A. rewrite add2 in A by exact Hi. injection A as A.
      symmetry. exact A.
Qed.
Print Assumptions C63_twin_hybrid.

Lemma weights_intro M nn tri G load V :
  solution G V -> (forall s, In s (hybrid_subs M nn tri) -> In s (g_subs G)) ->
  forallb (fun p => String.eqb (source G (snd p)) (fst p)) (hybrid_conns load) = true ->
  (forall a b, In (a, b) (hybrid_dvs ++ [("ac|propulsion|battery|specific_energy", "specific_energy")]) -> forall i, V b i = V a i) ->
  V "motors_weight" 0%nat = V "motor1.component_weight" 0%nat + V "motor2.component_weight" 0%nat ->
  V "propellers_weight" 0%nat = V "prop1.component_weight" 0%nat + V "prop2.component_weight" 0%nat -> hybrid_weights V.
Proof.
  intros S Hs Hc Hd HM HP. destruct (hybrid_weights_core M nn tri G load V S Hs Hc Hd) as [[M1 M2] [[P1 P2] [E1 E2]]].
  constructor; auto; [rewrite HM, M1, M2|rewrite HP, P1, P2]; ring.
Qed.
Theorem C63_twin_hybrid_weights M nn tri V :
  solution (TwinSeriesHybridElectricPropulsionSystem M nn tri) V \/ solution (TwinSeriesHybridElectricThermalPropulsionSystem M nn tri) V \/
  solution (TwinSeriesHybridElectricThermalPropulsionRefrigerated M nn tri) V -> hybrid_weights V.
Proof.
  intros [S|[S|S]].
  - refine (weights_intro M nn tri _ "motors_elec_load" V S (twin_subs M nn tri) eq_refl (twin_dvs M nn tri V S) _ _);
      [pose proof (sol_adders _ V "add_weights" _ _ _ _ 0%nat S ltac:(nth_sub 2%nat) ltac:(nth_sub 0%nat) Nat.lt_0_1) as A
      |pose proof (sol_adders _ V "add_weights" _ _ _ _ 0%nat S ltac:(nth_sub 2%nat) ltac:(nth_sub 1%nat) Nat.lt_0_1) as A];
      rewrite add2 in A by apply Nat.lt_0_1; injection A as A; symmetry; exact A.
  - refine (weights_intro M nn tri _ "motors_elec_load" V S (thermal_subs M nn tri) eq_refl (thermal_dvs M nn tri V S) _ _);
      [pose proof (sol_adders _ V "adder" _ _ _ _ 0%nat S ltac:(nth_sub 2%nat) ltac:(nth_sub 0%nat) Nat.lt_0_1) as A
      |pose proof (sol_adders _ V "adder" _ _ _ _ 0%nat S ltac:(nth_sub 2%nat) ltac:(nth_sub 1%nat) Nat.lt_0_1) as A];
      rewrite add2 in A by apply Nat.lt_0_1; injection A as A; symmetry; exact A.
  - refine (weights_intro M nn tri _ "total_elec_load" V S (refrigerated_subs M nn tri) eq_refl (refrigerated_dvs M nn tri V S) _ _);
      [pose proof (sol_adders _ V "adder" _ _ _ _ 0%nat S ltac:(nth_sub 2%nat) ltac:(nth_sub 0%nat) Nat.lt_0_1) as A
      |pose proof (sol_adders _ V "adder" _ _ _ _ 0%nat S ltac:(nth_sub 2%nat) ltac:(nth_sub 1%nat) Nat.lt_0_1) as A];
      rewrite add2 in A by apply Nat.lt_0_1; injection A as A; symmetry; exact A.
Qed.
Print Assumptions C63_twin_hybrid_weights.

(** Over a phase of 2 m intervals of length [dt] the battery loses exactly the energy it
    delivered: its energy content (weight times specific energy) times the drop in state
    of charge is Simpson's rule for the load. *)
Lemma charge_intro m X dt (V : env) load soc0 soc1 soc rate WE : (0 < m)%nat -> is_inverse (2 * m) simpson_a X -> WE <> 0 ->
  (forall i, (i < 2 * m + 1)%nat -> V rate i = - (load i / WE)) ->
  (forall i, (i < 2 * m + 1)%nat -> V soc i = integ_q (2 * m + 1) (method_tri Simpson (2 * m + 1) X) (TDuration (INR (2 * m) * dt)) false (V soc0 0%nat) (V rate) i) ->
  V soc1 0%nat = integ_q_final (2 * m + 1) (method_tri Simpson (2 * m + 1) X) (TDuration (INR (2 * m) * dt)) false (V soc0 0%nat) (V rate) ->
  WE * (V soc0 0%nat - V soc1 0%nat) = simpson_sum m dt load /\ V soc 0%nat = V soc0 0%nat /\ V soc (2 * m)%nat = V soc1 0%nat.
Proof.
  intros Hm HX HW HR HS HF. split; [|split].
  - rewrite HF, (integ_energy m X dt _ _ Hm HX). unfold simpson_sum.
    rewrite (simpson_scale m (- / WE) (V rate) load). { field; auto. }
    intros i Hi. rewrite HR by auto. field; auto.
  - rewrite HS by lia. apply (C04_first_entry_is_start_value Simpson).
    + now apply size_odd.
    + replace (2 * m + 1 - 1)%nat with (2 * m)%nat by lia. exact HX.
  - rewrite HS, HF by lia. unfold integ_q_final. f_equal. lia.
Qed.
Theorem C63_twin_hybrid_charge M m X dt V : (0 < m)%nat -> is_inverse (2 * m) simpson_a X -> V "duration" 0%nat = INR (2 * m) * dt ->
  let E := V "ac|weights|W_battery" 0%nat * V "ac|propulsion|battery|specific_energy" 0%nat in E <> 0 ->
  let tri := method_tri Simpson (2 * m + 1) X in
  solution (TwinSeriesHybridElectricPropulsionSystem M (2 * m + 1) tri) V \/ solution (TwinSeriesHybridElectricThermalPropulsionSystem M (2 * m + 1) tri) V \/
  solution (TwinSeriesHybridElectricThermalPropulsionRefrigerated M (2 * m + 1) tri) V ->
  E * (V "batt1.SOC_initial" 0%nat - V "batt1.SOC_final" 0%nat) = simpson_sum m dt (V "battery_load") /\
  V "batt1.SOC" 0%nat = V "batt1.SOC_initial" 0%nat /\ V "batt1.SOC" (2 * m)%nat = V "batt1.SOC_final" 0%nat.
Proof.
  intros Hm HX Hd E HE tri HS.
  assert (K : exists G load, solution G V /\ (forall s, In s (hybrid_subs M (2 * m + 1) tri) -> In s (g_subs G)) /\
    forallb (fun p => String.eqb (source G (snd p)) (fst p)) (hybrid_conns load) = true /\
    forallb (fun x => String.eqb (source G x) x) ["throttle"; "propulsor_active"; "fltcond|rho"; "fltcond|Utrue"; "prop1.rpm"; "prop2.rpm";
      "hybrid_split.power_split_fraction"; "duration"; "batt1.SOC_initial"] = true /\ source G "specific_energy" = "specific_energy" /\
    (forall a b, In (a, b) (hybrid_dvs ++ [("ac|propulsion|battery|specific_energy", "specific_energy")]) -> forall i, V b i = V a i)).
  { destruct HS as [S|[S|S]].
    - exists (twin M (2 * m + 1) tri), "motors_elec_load". split; [exact S|]. split; [apply twin_subs|]. repeat split; exact (twin_dvs _ _ _ _ S).
    - exists (twin_thermal M (2 * m + 1) tri), "motors_elec_load". split; [exact S|]. split; [apply thermal_subs|]. repeat split; exact (thermal_dvs _ _ _ _ S).
    - exists (twin_refrigerated M (2 * m + 1) tri), "total_elec_load". split; [exact S|]. split; [apply refrigerated_subs|]. repeat split; exact (refrigerated_dvs _ _ _ _ S). }
  destruct K as (G&load&S&K1&K2&K3&K4&K5).
  destruct (hybrid_battery_core M _ tri G load V S K1 K2 K3 K4 K5) as [B1 [B2 B3]]. rewrite Hd in B2, B3.
  refine (charge_intro m X dt V (V "battery_load") _ _ _ "batt1.dSOCdt" E Hm HX HE _ B2 B3). intros i Hi. exact (proj1 (B1 i Hi)).
Qed.
Print Assumptions C63_twin_hybrid_charge.

(** The single series hybrid leaves the choice of the engine throttle to the user and
    reports what the generator falls short or over. *)
Theorem C63_single_hybrid M nn V i : solution (SingleSeriesHybridElectricPropulsionSystem M nn) V -> (i < nn)%nat ->
  let Pm := V "ac|propulsion|motor|rating" 0%nat in let D := V "ac|propulsion|propeller|diameter" 0%nat in
  let load := V "motor1.throttle" i * Pm in
  let shaft := V "eng1.throttle" i * V "ac|propulsion|engine|rating" 0%nat in
  V "batt1.heat_out" i = 0 /\ V "hybrid_split.power_out_A" i = V "hybrid_split.power_split_fraction" i * load /\
  V "eng_gen_resid.eng_gen_residual" i = 97/100 * shaft - (load - V "hybrid_split.power_out_A" i) /\
  V "fuel_flow" i = fuel_per_joule * shaft /\
  (propeller_runs V i "prop1.rpm" "ac|propulsion|propeller|diameter" ->
   V "thrust" i = propeller_thrust (eta_map M) (static_map M) (V "fltcond|rho" i) (V "fltcond|Utrue" i) D (V "prop1.rpm" i) (97/100 * load)) /\
  V "motors_weight" 0%nat = machine_weight Pm /\ V "propellers_weight" 0%nat = propeller_weight Pm D.
Proof.
  intros S Hi Pm D load shaft. set (G := SingleSeriesHybridElectricPropulsionSystem M nn) in *.
  assert (DV : forall a b, In (a, b) hybrid_dvs -> V b 0%nat = V a 0%nat)
    by (intros a b H; exact (relabel_eq G V _ _ S ltac:(nth_sub 0%nat) eq_refl a b H 0%nat)).
  pose proof (DV _ _ ltac:(nth_sub 0%nat)) as D0. pose proof (DV _ _ ltac:(nth_sub 1%nat)) as D1. pose proof (DV _ _ ltac:(nth_sub 2%nat)) as D2.
  pose proof (sol_comp G V _ _ _ _ _ "elec_load" _ _ i S ltac:(nth_sub 1%nat) eq_refl Hi) as ML.
  pose proof (sol_comp G V _ _ _ _ _ "shaft_power_out" _ _ i S ltac:(nth_sub 1%nat) eq_refl Hi) as MP.
  pose proof (sol_comp G V _ _ _ _ _ "component_weight" _ _ 0%nat S ltac:(nth_sub 1%nat) eq_refl Nat.lt_0_1) as MW.
  pose proof (propeller_in G V M nn "prop1" _ _ S ltac:(nth_sub 2%nat)) as [PW PT]. specialize (PT i Hi).
  pose proof (sol_comp G V _ _ _ _ _ "power_out_A" _ _ i S ltac:(nth_sub 3%nat) eq_refl Hi) as SA.
  pose proof (sol_comp G V _ _ _ _ _ "power_out_B" _ _ i S ltac:(nth_sub 3%nat) eq_refl Hi) as SB.
  pose proof (sol_comp G V _ _ _ _ _ "shaft_power_out" _ _ i S ltac:(nth_sub 4%nat) eq_refl Hi) as EP.
  pose proof (sol_comp G V _ _ _ _ _ "fuel_flow" _ _ i S ltac:(nth_sub 4%nat) eq_refl Hi) as EF.
  pose proof (sol_comp G V _ _ _ _ _ "elec_power_out" _ _ i S ltac:(nth_sub 5%nat) eq_refl Hi) as GP.
  pose proof (sol_comp G V _ _ _ _ _ "heat_out" _ _ i S ltac:(nth_sub 6%nat) eq_refl Hi) as BH.
  pose proof (sol_rel G V _ S ltac:(nth_sub 7%nat) i Hi) as RS.
  pose proof (sol_adders G V "add_weights" _ _ _ _ 0%nat S ltac:(nth_sub 8%nat) ltac:(nth_sub 0%nat) Nat.lt_0_1) as A1.
  pose proof (sol_adders G V "add_weights" _ _ _ _ 0%nat S ltac:(nth_sub 8%nat) ltac:(nth_sub 1%nat) Nat.lt_0_1) as A2.
  rewrite add1 in A1, A2 by apply Nat.lt_0_1. injection A1 as A1. injection A2 as A2.
  change (V "motor1.elec_load" i = V "motor1.throttle" i * V "motor_rating" 0%nat) in ML.
  change (V "motor1.shaft_power_out" i = V "motor1.throttle" i * V "motor_rating" 0%nat * (97/100)) in MP.
  change (V "motor1.component_weight" 0%nat = V "motor_rating" 0%nat * (1/5000) + 0) in MW.
  change (V "prop1.component_weight" 0%nat = propeller_weight (V "motor_rating" 0%nat) (V "prop_diameter" 0%nat)) in PW.
  change (V "hybrid_split.power_out_A" i = V "motor1.elec_load" i * V "hybrid_split.power_split_fraction" i * 1) in SA.
  change (V "hybrid_split.power_out_B" i = V "motor1.elec_load" i * (1 - V "hybrid_split.power_split_fraction" i) * 1) in SB.
  change (V "eng1.shaft_power_out" i = V "eng1.throttle" i * V "eng_rating" 0%nat) in EP.
  change (V "fuel_flow" i = V "eng1.throttle" i * V "eng_rating" 0%nat * psfc) in EF.
  change (V "gen1.elec_power_out" i = V "eng1.shaft_power_out" i * (97/100)) in GP.
  change (V "batt1.heat_out" i = V "hybrid_split.power_out_A" i * (1 - 1)) in BH.
  change (V "motor1.component_weight" 0%nat = V "motors_weight" 0%nat) in A1. change (V "prop1.component_weight" 0%nat = V "propellers_weight" 0%nat) in A2.
  assert (RS' : V "eng_gen_resid.eng_gen_residual" i = V "gen1.elec_power_out" i - V "hybrid_split.power_out_B" i).
  { revert RS. cbn [adder gs_rel]. unfold add_compute, add_resolve.
    cbn [as_ins as_sf as_vec as_len as_out List.length repeat read_sizes Nat.eqb negb res_bind fst snd forallb].
    rewrite fits_refl. cbn [andb negb combine res_bind fold_left fst snd]. rewrite bidx_row by exact Hi. intro RS. injection RS as RS.
    change (0 + V "gen1.elec_power_out" i * 1 + V "hybrid_split.power_out_B" i * - (1) = V "eng_gen_resid.eng_gen_residual" i) in RS. lra. }
  rewrite D0, D1, D2 in *. fold Pm in ML, MP, MW, PW. fold load in ML.
  split; [rewrite BH; ring|]. split; [rewrite SA, ML; ring|].
  split; [rewrite RS', GP, EP, SB, SA, ML; unfold shaft; ring|].
  split; [rewrite EF; unfold fuel_per_joule, shaft, psfc; ring|]. split.
  - intros [Q1 [Q2 Q3]]. change (V "fltcond|rho" i <> 0 -> V "prop1.rpm" i <> 0 -> V "prop_diameter" 0%nat <> 0 ->
      V "thrust" i = propeller_thrust (eta_map M) (static_map M) (V "fltcond|rho" i) (V "fltcond|Utrue" i)
        (V "prop_diameter" 0%nat) (V "prop1.rpm" i) (V "motor1.shaft_power_out" i)) in PT. rewrite D1 in PT.
    rewrite (PT Q1 Q2 Q3). unfold load, D. f_equal. rewrite MP. ring.
  - split; [rewrite <- A1, MW; unfold machine_weight; field|rewrite <- A2; exact PW].
Qed.
Print Assumptions C63_single_hybrid.

(** Both all-electric systems. *)
Lemma electric_core M nn tri G V : solution G V -> (forall s, In s (electric_subs M nn tri) -> In s (g_subs G)) ->
  forallb (fun p => String.eqb (source G (snd p)) (fst p)) electric_conns = true ->
  forallb (fun x => String.eqb (source G x) x) ["throttle"; "fltcond|rho"; "fltcond|Utrue"; "prop1.rpm"; "duration"; "batt1.SOC_initial"; "batt1.specific_energy";
    "ac|propulsion|motor|rating"; "ac|propulsion|propeller|diameter"; "ac|weights|W_battery"] = true ->
  let Pm := V "ac|propulsion|motor|rating" 0%nat in let D := V "ac|propulsion|propeller|diameter" 0%nat in
  let E := V "ac|weights|W_battery" 0%nat * V "batt1.specific_energy" 0%nat in
  V "motor1.component_weight" 0%nat = machine_weight Pm /\ V "prop1.component_weight" 0%nat = propeller_weight Pm D /\
  (forall i, (i < nn)%nat -> 
    V "motor1.elec_load" i = V "throttle" i * Pm /\ V "motor1.heat_out" i = 3/100 * (V "throttle" i * Pm) /\
    V "batt1.heat_out" i = 3/100 * (V "throttle" i * Pm) /\ V "batt1.dSOCdt" i = - (V "motor1.elec_load" i / E) /\
    (propeller_runs V i "prop1.rpm" "ac|propulsion|propeller|diameter" ->
     V "thrust" i = propeller_thrust (eta_map M) (static_map M) (V "fltcond|rho" i) (V "fltcond|Utrue" i) D (V "prop1.rpm" i) (97/100 * (V "throttle" i * Pm)))) /\
  (forall i, (i < nn)%nat -> V "batt1.SOC" i = integ_q nn tri (TDuration (V "duration" 0%nat)) false (V "batt1.SOC_initial" 0%nat) (V "batt1.dSOCdt") i) /\
  V "batt1.SOC_final" 0%nat = integ_q_final nn tri (TDuration (V "duration" 0%nat)) false (V "batt1.SOC_initial" 0%nat) (V "batt1.dSOCdt").
Proof.
  intros S subs conns frees Pm D E.
  assert (src : forall a b, In (a, b) electric_conns -> source G b = a).
  { intros a b H. rewrite forallb_forall in conns. specialize (conns _ H). now apply String.eqb_eq in conns. }
  assert (own : forall x, In x ["throttle"; "fltcond|rho"; "fltcond|Utrue"; "prop1.rpm"; "duration"; "batt1.SOC_initial"; "batt1.specific_energy";
     "ac|propulsion|motor|rating"; "ac|propulsion|propeller|diameter"; "ac|weights|W_battery"] -> source G x = x).
  { intros x H. rewrite forallb_forall in frees. specialize (frees _ H). now apply String.eqb_eq in frees. }
  pose proof (src _ _ ltac:(nth_sub 0%nat)) as C0. pose proof (src _ _ ltac:(nth_sub 1%nat)) as C1. pose proof (src _ _ ltac:(nth_sub 2%nat)) as C2.
  pose proof (src _ _ ltac:(nth_sub 3%nat)) as C3. pose proof (src _ _ ltac:(nth_sub 4%nat)) as C4. pose proof (src _ _ ltac:(nth_sub 5%nat)) as C5.
  pose proof (own _ ltac:(nth_sub 0%nat)) as O0. pose proof (own _ ltac:(nth_sub 1%nat)) as O1. pose proof (own _ ltac:(nth_sub 2%nat)) as O2.
  pose proof (own _ ltac:(nth_sub 3%nat)) as O3. pose proof (own _ ltac:(nth_sub 4%nat)) as O4. pose proof (own _ ltac:(nth_sub 5%nat)) as O5.
  pose proof (own _ ltac:(nth_sub 6%nat)) as O6. pose proof (own _ ltac:(nth_sub 7%nat)) as O7. pose proof (own _ ltac:(nth_sub 8%nat)) as O8.
  pose proof (own _ ltac:(nth_sub 9%nat)) as O9.
  pose proof (sol_rel G V _ S ltac:(apply subs; nth_sub 0%nat)) as RL.
  pose proof (RL _ _ ltac:(nth_sub 0%nat) 0%nat) as R0. pose proof (RL _ _ ltac:(nth_sub 1%nat) 0%nat) as R1. pose proof (RL _ _ ltac:(nth_sub 2%nat) 0%nat) as R2. clear RL.
  change (V "motor1_rating" 0%nat = V (source G "ac|propulsion|motor|rating") 0%nat) in R0.
  change (V "prop1_diameter" 0%nat = V (source G "ac|propulsion|propeller|diameter") 0%nat) in R1.
  change (V "battery1_weight" 0%nat = V (source G "ac|weights|W_battery") 0%nat) in R2. rewrite O7 in R0. rewrite O8 in R1. rewrite O9 in R2.
  pose proof (sol_comp G V _ _ _ _ _ "component_weight" _ _ 0%nat S ltac:(apply subs; nth_sub 1%nat) eq_refl Nat.lt_0_1) as MW.
  pose proof (propeller_in G V M nn "prop1" _ _ S ltac:(apply subs; nth_sub 2%nat)) as [PW PT].
  pose proof (battery_in G V nn tri _ "batt1" _ _ S ltac:(apply subs; nth_sub 3%nat)) as [B1 [B2 B3]].
  change (V "motor1.component_weight" 0%nat = V (source G "motor1.elec_power_rating") 0%nat * (1/5000) + 0) in MW.
  change (V "prop1.component_weight" 0%nat = propeller_weight (V (source G "prop1.power_rating") 0%nat) (V (source G "prop1.diameter") 0%nat)) in PW.
  rewrite ?C0, ?C1, ?C2, ?R0, ?R1 in MW. rewrite C1, C2, R0, R1 in PW.
  split; [rewrite MW; unfold machine_weight; fold Pm; field|]. split; [exact PW|]. split; [|split].
  - intros i Hi. specialize (PT i Hi). destruct (B1 i Hi) as [BH [BD _]].
    pose proof (sol_comp G V _ _ _ _ _ "elec_load" _ _ i S ltac:(apply subs; nth_sub 1%nat) eq_refl Hi) as ML.
    pose proof (sol_comp G V _ _ _ _ _ "shaft_power_out" _ _ i S ltac:(apply subs; nth_sub 1%nat) eq_refl Hi) as MP.
    pose proof (sol_comp G V _ _ _ _ _ "heat_out" _ _ i S ltac:(apply subs; nth_sub 1%nat) eq_refl Hi) as MH.
    change (V "motor1.elec_load" i = V (source G "throttle") i * V (source G "motor1.elec_power_rating") 0%nat) in ML.
    change (V "motor1.shaft_power_out" i = V (source G "throttle") i * V (source G "motor1.elec_power_rating") 0%nat * (97/100)) in MP.
    change (V "motor1.heat_out" i = V (source G "throttle") i * V (source G "motor1.elec_power_rating") 0%nat * (1 - 97/100)) in MH.
    change (V "batt1.heat_out" i = V (source G "batt1.elec_load") i * (1 - 97/100)) in BH.
    change (V "batt1.dSOCdt" i = - (V (source G "batt1.elec_load") i / (V (source G "batt1.battery_weight") 0%nat * V (source G "batt1.specific_energy") 0%nat))) in BD.
    change (V (source G "fltcond|rho") i <> 0 -> V (source G "prop1.rpm") i <> 0 -> V (source G "prop1.diameter") 0%nat <> 0 ->
      V "thrust" i = propeller_thrust (eta_map M) (static_map M) (V (source G "fltcond|rho") i) (V (source G "fltcond|Utrue") i)
       (V (source G "prop1.diameter") 0%nat) (V (source G "prop1.rpm") i) (V (source G "prop1.shaft_power_in") i)) in PT.
    rewrite ?O0, ?C0, ?R0 in ML. rewrite ?O0, ?C0, ?R0 in MP. rewrite ?O0, ?C0, ?R0 in MH. rewrite C5 in BH. rewrite C5, C3, O6, R2 in BD.
    rewrite O1, O2, O3, C2, C4, R1 in PT. fold Pm in ML, MP, MH. fold E in BD. fold D in PT.
    split; [exact ML|]. split; [rewrite MH; field|]. split; [rewrite BH, ML; field|]. split; [exact BD|].
    intros [Q1 [Q2 Q3]]. rewrite (PT Q1 Q2 Q3). f_equal. rewrite MP. ring.
  - intros i Hi. specialize (B2 i Hi).
    change (V "batt1.SOC" i = integ_q nn tri (TDuration (V (source G "duration") 0%nat)) false (V (source G "batt1.SOC_initial") 0%nat) (V "batt1.dSOCdt") i) in B2.
    now rewrite O4, O5 in B2.
  - change (V "batt1.SOC_final" 0%nat = integ_q_final nn tri (TDuration (V (source G "duration") 0%nat)) false (V (source G "batt1.SOC_initial") 0%nat) (V "batt1.dSOCdt")) in B3.
    now rewrite O4, O5 in B3.
Qed.
Lemma electric_sys M nn tri V : solution (AllElectricCompressible M nn tri) V \/ solution (AllElectricIncompressible M nn tri) V ->
  exists G, solution G V /\ (forall s, In s (electric_subs M nn tri) -> In s (g_subs G)) /\
  forallb (fun p => String.eqb (source G (snd p)) (fst p)) electric_conns = true /\
  forallb (fun x => String.eqb (source G x) x) ["throttle"; "fltcond|rho"; "fltcond|Utrue"; "prop1.rpm"; "duration"; "batt1.SOC_initial"; "batt1.specific_energy";
    "ac|propulsion|motor|rating"; "ac|propulsion|propeller|diameter"; "ac|weights|W_battery"] = true.
Proof.
  intros [S|S]; eexists; (split; [exact S|]); (split; [|split; reflexivity]); intros s H; apply in_or_app; now left.
Qed.
Theorem C63_all_electric M nn tri V i :
  solution (AllElectricCompressible M nn tri) V \/ solution (AllElectricIncompressible M nn tri) V -> (i < nn)%nat ->
  let Pm := V "ac|propulsion|motor|rating" 0%nat in let D := V "ac|propulsion|propeller|diameter" 0%nat in
  V "motor1.elec_load" i = V "throttle" i * Pm /\ V "motor1.heat_out" i = 3/100 * (V "throttle" i * Pm) /\
  V "batt1.heat_out" i = 3/100 * (V "throttle" i * Pm) /\
  (propeller_runs V i "prop1.rpm" "ac|propulsion|propeller|diameter" ->
   V "thrust" i = propeller_thrust (eta_map M) (static_map M) (V "fltcond|rho" i) (V "fltcond|Utrue" i) D (V "prop1.rpm" i) (97/100 * (V "throttle" i * Pm))) /\
  V "motor1.component_weight" 0%nat = machine_weight Pm /\ V "prop1.component_weight" 0%nat = propeller_weight Pm D.
Proof.
  intros HS Hi Pm D. destruct (electric_sys M nn tri V HS) as (G&S&K1&K2&K3).
  destruct (electric_core M nn tri G V S K1 K2 K3) as (W1&W2&F&_). destruct (F i Hi) as (F1&F2&F3&_&F5). auto 10.
Qed.
Print Assumptions C63_all_electric.
Theorem C63_all_electric_charge M m X dt V : (0 < m)%nat -> is_inverse (2 * m) simpson_a X -> V "duration" 0%nat = INR (2 * m) * dt ->
  let E := V "ac|weights|W_battery" 0%nat * V "batt1.specific_energy" 0%nat in E <> 0 ->
  let tri := method_tri Simpson (2 * m + 1) X in
  solution (AllElectricCompressible M (2 * m + 1) tri) V \/ solution (AllElectricIncompressible M (2 * m + 1) tri) V ->
  E * (V "batt1.SOC_initial" 0%nat - V "batt1.SOC_final" 0%nat) = simpson_sum m dt (V "motor1.elec_load") /\
  V "batt1.SOC" 0%nat = V "batt1.SOC_initial" 0%nat /\ V "batt1.SOC" (2 * m)%nat = V "batt1.SOC_final" 0%nat.
Proof.
  intros Hm HX Hd E HE tri HS. destruct (electric_sys M _ tri V HS) as (G&S&K1&K2&K3).
  destruct (electric_core M _ tri G V S K1 K2 K3) as (_&_&F&B2&B3). rewrite Hd in B2, B3.
  refine (charge_intro m X dt V (V "motor1.elec_load") _ _ _ "batt1.dSOCdt" E Hm HX HE _ B2 B3). intros i Hi. now destruct (F i Hi) as (_&_&_&F4&_).
Qed.
Print Assumptions C63_all_electric_charge.

(** ** C64 *)
(** One propulsor shut down: the system behaves as if it had only the other one.  Both
    running at the same speed: everything doubles. *)
Theorem C64_turboprop_one_engine M nn V i : solution (TwinTurbopropPropulsionSystem M nn) V -> (i < nn)%nat ->
  propeller_runs V i "prop1.rpm" "ac|propulsion|propeller|diameter" -> propeller_runs V i "prop2.rpm" "ac|propulsion|propeller|diameter" ->
  let P := V "throttle" i * V "ac|propulsion|engine|rating" 0%nat in
  let T := propeller_thrust (eta_map M) (static_map M) (V "fltcond|rho" i) (V "fltcond|Utrue" i) (V "ac|propulsion|propeller|diameter" 0%nat) (V "prop1.rpm" i) P in
  (V "propulsor_active" i = 0 -> V "thrust" i = T /\ V "fuel_flow" i = fuel_per_joule * P) /\
  (V "propulsor_active" i = 1 -> V "prop2.rpm" i = V "prop1.rpm" i -> V "thrust" i = 2 * T /\ V "fuel_flow" i = 2 * (fuel_per_joule * P)).
Proof.
  intros S Hi R1 R2 P T. destruct (C63_twin_turboprop M nn V i S Hi) as (F&Th&_). specialize (Th R1 R2). fold P in F, Th.
  split; [intro A|intros A Er]; rewrite A in F, Th; rewrite F, Th.
  - rewrite Rmult_0_l, thrust_no_power. fold T. split; ring.
  - rewrite Er, Rmult_1_l. fold T. split; ring.
Qed.
Print Assumptions C64_turboprop_one_engine.
Theorem C64_hybrid_one_motor eta k V i load extra : hybrid_flows eta k V i load extra ->
  let L := V "throttle" i * V "ac|propulsion|motor|rating" 0%nat in
  let T := propeller_thrust eta k (V "fltcond|rho" i) (V "fltcond|Utrue" i) (V "ac|propulsion|propeller|diameter" 0%nat) (V "prop1.rpm" i) (97/100 * L) in
  (V "propulsor_active" i = 0 -> V "thrust" i = T /\ V load i = L + extra /\ V "motor2.heat_out" i = 0) /\
  (V "propulsor_active" i = 1 -> V "prop2.rpm" i = V "prop1.rpm" i -> V "thrust" i = 2 * T /\ V load i = 2 * L + extra).
Proof.
  intros H L T. pose proof (hf_thrust H) as Th. cbv zeta in Th. fold L in Th. pose proof (hf_load H) as Ld. pose proof (hf_heat H "motor2.heat_out" (or_intror eq_refl)) as Ht.
  cbn [String.eqb Ascii.eqb Bool.eqb] in Ht.
  split; [intro A|intros A Er]; rewrite A in *; rewrite Th, Ld.
  - rewrite Rmult_0_l, thrust_no_power. fold T. split; [ring|]. split; [unfold L; ring|]. rewrite Ht. ring.
  - rewrite Er, Rmult_1_l. fold T. split; [ring|unfold L; ring].
Qed.
Print Assumptions C64_hybrid_one_motor.
(** Fuel and battery: the fuel burnt and the battery's energy add up to the energy the
    motors (and the rest) drew; with a full battery share nothing is burnt. *)
Theorem C64_energy_sources eta k V i load extra : hybrid_flows eta k V i load extra ->
  97/100 * (V "fuel_flow" i / fuel_per_joule) + V "battery_load" i = V load i /\
  (V "hybrid_split.power_split_fraction" i = 1 -> V "fuel_flow" i = 0) /\
  (V "hybrid_split.power_split_fraction" i = 0 -> V "battery_load" i = 0 /\ V "fuel_flow" i = fuel_per_joule * V load i / (97/100)).
Proof.
  intro H. destruct H as [_ B G E _ F _ _ _]. assert (K : fuel_per_joule <> 0) by (unfold fuel_per_joule; lra).
  assert (X : V "eng1.shaft_power_out" i = (V load i - V "battery_load" i) / (97/100)) by lra.
  repeat split.
  - rewrite F, X. field. exact K.
  - intro A. rewrite A in B. rewrite F, X, B. field.
  - rename H into A. rewrite A in B. rewrite B. ring.
  - rename H into A. rewrite A in B. rewrite F, X, B. field.
Qed.
Print Assumptions C64_energy_sources.
