(** C67, C68 and C70: empty weights. *)
From Coq Require Import Reals List Bool PeanoNat String Lra Lia.
From Coquelicot Require Import Coquelicot.
From Verif Require Import Base Py RSum Model_Algebra Model_Net Model_Thermal Model_Ducts Model_HeatPipe Model_Systems Model_Weights Spec_Weights
  Proofs_Net Proofs_Cs Proofs_Thermal Proofs_HX Proofs_Ducts Proofs_Systems Proofs_Exec Proofs_Deriv Proofs_Weights.
Import ListNotations.
Open Scope R_scope.
Open Scope string_scope.
Open Scope list_scope.

(** * C68: the partials are the derivatives *)
Theorem C68_weight_partials C E : weight_component C -> sane_inputs C E -> jac_correct 1 C E.
Proof.
  intros [] S; first [now apply j_ga_wing | now apply j_ga_tail | now apply j_ga_fuselage | now apply j_ga_nacelle | now apply j_ga_nacelles | now apply j_ga_gear
    | now apply j_ga_fuel | now apply j_ga_equipment | now apply j_wing | now apply j_hstab_const | now apply j_hstab | now apply j_vstab | now apply j_kws
    | now apply j_fuselage | now apply j_main | now apply j_nose | now apply j_engine | now apply j_systems | now apply j_nacelle | now apply j_furnishing
    | now apply j_equipment | apply j_volume | now apply j_cabin | now apply j_aftbody].
Qed.
Print Assumptions C68_weight_partials.
(** The hypotheses hold with every input 1, sweeps included. *)
Example C68_ones C : weight_component C -> sane_inputs C (fun _ _ => 1).
Proof.
  intros _ x k _. unfold sane. pose proof PI2_1. destruct (mem x _); [split; [pose proof PI_RGT_0; lra|lra]|]. destruct (mem x _); [lra|].
  destruct (String.eqb x "K_ws"); lra.
Qed.
(** Every component the groups are built from is covered. *)
Example C68_covers_defaults : weight_component (WingWeight_JetTransport (n_ult jet_defaults) (control_surface_area_frac jet_defaults)) /\
  weight_component (EquipmentWeight_JetTransport (coeff_fc jet_defaults) (coeff_avionics jet_defaults) (APU_weight_frac jet_defaults)) /\
  weight_component (WingWeight_SmallTurboprop n_ult_ga) /\ weight_component (FuelSystemWeight_SmallTurboprop default_Kfsp).
Proof. unfold n_ult_ga, default_Kfsp. repeat split; constructor; cbn; lra. Qed.

(** * C67: the empty weight is the sum of its parts *)
Theorem C67_turboprop V : solution SingleTurboPropEmptyWeight V -> 0 < V Wfuel 0%nat -> 0 < V "P_TO" 0%nat ->
  V "OEW" 0%nat = turboprop_empty_weight (fun x => V x 0%nat).
Proof.
  intros S HF HP. destruct (ga_values _ V S HF HP) as (H1 & H2 & H3 & H4 & H5 & H6 & H7 & H8 & H9 & H10).
  pose proof (star_rel_env SingleTurboPropEmptyWeight V (adder 1 "totalempty" (sum "OEW" single_parts 1 "lb") [P "*"] [P "*"]) eq_refl eq_refl eq_refl S ltac:(nth_sub 10%nat) 0%nat Nat.lt_0_1) as T.
  change (Ok (0 + V "W_structure_adjusted" 0%nat * 1 + V "W_fuelsystem" 0%nat * 1 + V "W_equipment" 0%nat * 1 + V "W_engine" 0%nat * 1 + V "W_propeller" 0%nat * 1 + V "W_fluids" 0%nat * 1) = Ok (V "OEW" 0%nat)) in T. injection T as T. rewrite <- T. cbv beta in *.
  rewrite H9, H8, H7, H6, H1, H2, H3, H4, H5, H10. unfold turboprop_empty_weight, ga_empty_weight, ga_structure_weight, ga_fuel_system_weight, pound.
  cbn [fold_right]. ring.
Qed.
Print Assumptions C67_turboprop.
Theorem C67_hybrid V : solution TwinSeriesHybridEmptyWeight V -> 0 < V Wfuel 0%nat -> 0 < V "P_TO" 0%nat ->
  V "OEW" 0%nat = hybrid_empty_weight (fun x => V x 0%nat).
Proof.
  intros S HF HP. destruct (ga_values _ V S HF HP) as (H1 & H2 & H3 & H4 & H5 & H6 & H7 & H8 & H9 & H10).
  pose proof (star_rel_env TwinSeriesHybridEmptyWeight V (adder 1 "totalempty" (sum "OEW" twin_parts 1 "lb") [P "*"] [P "*"]) eq_refl eq_refl eq_refl S ltac:(nth_sub 10%nat) 0%nat Nat.lt_0_1) as T.
  change (Ok (0 + V "W_structure_adjusted" 0%nat * 1 + V "W_fuelsystem" 0%nat * 1 + V "W_equipment" 0%nat * 1 + V "W_engine" 0%nat * 1 + V "W_motors" 0%nat * 1 + V "W_generator" 0%nat * 1 + V "W_propeller" 0%nat * 1 + V "W_fluids" 0%nat * 1) = Ok (V "OEW" 0%nat)) in T. injection T as T. rewrite <- T. cbv beta in *.
  rewrite H9, H8, H7, H6, H1, H2, H3, H4, H5, H10. unfold hybrid_empty_weight, ga_empty_weight, ga_structure_weight, ga_fuel_system_weight, pound.
  cbn [fold_right]. ring.
Qed.
Print Assumptions C67_hybrid.
Theorem C67_jet o V : solution (JetTransportEmptyWeight o) V -> 0 < n_ult o ->
  (forall x, In x [MTOW; rating; wS; wAR; fL; fH] -> 0 < V x 0%nat) ->
  V "OEW" 0%nat = jet_empty_weight o (fun x => V x 0%nat).
Proof.
  intros S Hn H. assert (HM := H MTOW ltac:(cbn; tauto)). assert (HT := H rating ltac:(cbn; tauto)). assert (HwS := H wS ltac:(cbn; tauto)).
  assert (HwA := H wAR ltac:(cbn; tauto)). assert (HfL := H fL ltac:(cbn; tauto)). assert (HfH := H fH ltac:(cbn; tauto)).
  rewrite (jet_OEW o V S), (jet_W_structure o V S), (jet_W_engines o V S), (jet_W_thrust_rev o V S), (jet_W_eng_control o V S HT), (jet_W_eng_start o V S),
    (jet_W_furnishings o V S), (jet_W_flight_controls o V S), (jet_W_electrical o V S), (jet_W_avionics o V S), (jet_W_ac_pressurize_antiice o V S), (jet_W_oxygen o V S), (jet_W_APU o V S),
    (jet_W_wing o V S), (jet_W_hstab o V S), (jet_W_vstab o V S), (jet_W_fuselage o V S Hn HM HwS HwA HfL HfH), (jet_W_mlg o V S), (jet_W_nlg o V S), (jet_W_nacelle o V S),
    (jet_W_fuelsystem o V S), (jet_volume o V S), (jet_engine o V S).
  unfold jet_empty_weight, transport_wing, transport_systems, gear_and_nacelles. ring.
Qed.
Print Assumptions C67_jet.
Theorem C67_bwb o V : solution (BWBEmptyWeight o) V -> 0 < V rating 0%nat -> V "OEW" 0%nat = bwb_empty_weight o (fun x => V x 0%nat).
Proof.
  intros S HT.
  rewrite (bwb_OEW o V S), (bwb_W_structure o V S), (bwb_W_engines o V S), (bwb_W_thrust_rev o V S), (bwb_W_eng_control o V S HT), (bwb_W_eng_start o V S),
    (bwb_W_furnishings o V S), (bwb_W_flight_controls o V S), (bwb_W_electrical o V S), (bwb_W_avionics o V S), (bwb_W_ac_pressurize_antiice o V S), (bwb_W_oxygen o V S), (bwb_W_APU o V S),
    (bwb_W_wing o V S), (bwb_W_cabin o V S), (bwb_W_aftbody o V S), (bwb_W_mlg o V S), (bwb_W_nlg o V S), (bwb_W_nacelle o V S),
    (bwb_W_fuelsystem o V S), (bwb_engine o V S).
  unfold bwb_empty_weight, transport_wing, transport_systems, gear_and_nacelles. ring.
Qed.
Print Assumptions C67_bwb.
(** The documented breakdown. *)
Theorem C67_breakdown o V : let v x := V x 0%nat in
  (solution (JetTransportEmptyWeight o) V ->
   v "W_structure" = structural_fudge o * (wing_weight_multiplier o * v "W_wing" + v "W_hstab" + v "W_vstab" + v "W_fuselage" + v "W_mlg" + v "W_nlg" + v "W_nacelle")) /\
  (solution (BWBEmptyWeight o) V ->
   v "W_structure" = structural_fudge o * (wing_weight_multiplier o * v "W_wing" + v "W_cabin" + v "W_aftbody" + v "W_mlg" + v "W_nlg" + v "W_nacelle")) /\
  (solution (JetTransportEmptyWeight o) V \/ solution (BWBEmptyWeight o) V ->
   v "OEW" = total_fudge o * (v "W_structure" + v "W_engines" + v "W_thrust_rev" + v "W_eng_control" + v "W_fuelsystem" + v "W_eng_start" + v "W_furnishings" + v "W_flight_controls" + v "W_avionics" + v "W_electrical" + v "W_ac_pressurize_antiice" + v "W_oxygen" + v "W_APU")).
Proof.
  split; [apply jet_W_structure|split; [apply bwb_W_structure|]]. intros [S|S]; [now apply (jet_OEW o V S)|now apply (bwb_OEW o V S)].
Qed.
Print Assumptions C67_breakdown.

(** ** Every input gives a result *)
Lemma l_0 a : local_comp (WingWeight_SmallTurboprop a). Proof. local_auto WingWeight_SmallTurboprop. Qed.
Lemma l_1 a : local_comp (EmpennageWeight_SmallTurboprop a). Proof. local_auto EmpennageWeight_SmallTurboprop. Qed.
Lemma l_2 a : local_comp (FuselageWeight_SmallTurboprop a). Proof. local_auto FuselageWeight_SmallTurboprop. Qed.
Lemma l_3  : local_comp NacelleWeight_SmallSingleTurboprop. Proof. local_auto NacelleWeight_SmallSingleTurboprop. Qed.
Lemma l_4 a : local_comp (LandingGearWeight_SmallTurboprop a). Proof. local_auto LandingGearWeight_SmallTurboprop. Qed.
Lemma l_5 a : local_comp (FuelSystemWeight_SmallTurboprop a). Proof. local_auto FuelSystemWeight_SmallTurboprop. Qed.
Lemma l_6  : local_comp EquipmentWeight_SmallTurboprop. Proof. local_auto EquipmentWeight_SmallTurboprop. Qed.
Lemma l_7 a b : local_comp (WingWeight_JetTransport a b). Proof. local_auto WingWeight_JetTransport. Qed.
Lemma l_8 a : local_comp (HstabConst_JetTransport a). Proof. local_auto HstabConst_JetTransport. Qed.
Lemma l_9 a b c : local_comp (HstabWeight_JetTransport a b c). Proof. local_auto HstabWeight_JetTransport. Qed.
Lemma l_10 a b : local_comp (VstabWeight_JetTransport a b). Proof. local_auto VstabWeight_JetTransport. Qed.
Lemma l_11  : local_comp FuselageKws_JetTransport. Proof. local_auto FuselageKws_JetTransport. Qed.
Lemma l_12 a b c : local_comp (FuselageWeight_JetTransport a b c). Proof. local_auto FuselageWeight_JetTransport. Qed.
Lemma l_13 a b : local_comp (MainLandingGearWeight_JetTransport a b). Proof. local_auto MainLandingGearWeight_JetTransport. Qed.
Lemma l_14 a b : local_comp (NoseLandingGearWeight_JetTransport a b). Proof. local_auto NoseLandingGearWeight_JetTransport. Qed.
Lemma l_15  : local_comp EngineWeight_JetTransport. Proof. local_auto EngineWeight_JetTransport. Qed.
Lemma l_16  : local_comp EngineSystemsWeight_JetTransport. Proof. local_auto EngineSystemsWeight_JetTransport. Qed.
Lemma l_17  : local_comp NacelleWeight_JetTransport. Proof. local_auto NacelleWeight_JetTransport. Qed.
Lemma l_18 a b : local_comp (FurnishingWeight_JetTransport a b). Proof. local_auto FurnishingWeight_JetTransport. Qed.
Lemma l_19 a b c : local_comp (EquipmentWeight_JetTransport a b c). Proof. local_auto EquipmentWeight_JetTransport. Qed.
Lemma l_20 a : local_comp (cabin_volume a). Proof. local_auto cabin_volume. Qed.
Lemma l_21  : local_comp CabinWeight_BWB. Proof. local_auto CabinWeight_BWB. Qed.
Lemma l_22  : local_comp AftbodyWeight_BWB. Proof. local_auto AftbodyWeight_BWB. Qed.
Lemma fun_const : functional ga_const.
Proof.
  exists (fun _ x _ => if String.eqb x "W_fluids" then 20 / pound else 16/10). split.
  - intros I I' x i _ _. reflexivity.
  - intros I O H. cbn [ga_const gs_outs] in H. cbn [ga_const gs_rel]. split; rewrite H by (cbn; tauto); reflexivity.
Qed.
Ltac wruns := match goal with
  | |- functional ga_const => apply fun_const
  | |- functional (jet_wing _) => unfold jet_wing
  | |- functional (jet_equipment _ _) => unfold jet_equipment
  | |- functional (comp _ _ _ _ _) => apply fun_comp; first [apply l_0 | apply l_1 | apply l_2 | apply l_3 | apply l_4 | apply l_5 | apply l_6 | apply l_7 | apply l_8 | apply l_9 | apply l_10 | apply l_11 | apply l_12 | apply l_13 | apply l_14 | apply l_15 | apply l_16 | apply l_17 | apply l_18 | apply l_19 | apply l_20 | apply l_21 | apply l_22]
  | |- functional (adder _ _ _ _ _) => apply fun_adder1; intro; eexists; reflexivity
  | |- functional (multiplier _ _ ?m _ _) => unfold ga_fudge, engine_multiplier; let F := fresh "F" in edestruct fun_scale as [F|F]; [exact F|exfalso; apply F; reflexivity]
  | |- functional (subgroup _ ?g _ _) => let s := fresh "s" in let H := fresh "H" in unfold subgroup; apply (fun_nested _ _ _ _ _ _ (g_subs g)); [|reflexivity|intros s H; exact H|reflexivity]; cbn [g_subs jet_hstab jet_fuselage]
  end.
Ltac go_runs G := 
  match goal with |- exists V, solution ?g V /\ (forall x i, _ -> V x i = ?V0 x i) =>
  let V := fresh "V" in let S := fresh "S" in let H := fresh "H" in let s := fresh "s" in let K := fresh "K" in let x := fresh "x" in let i := fresh "i" in let N := fresh "N" in
  destruct (exec g (g_subs g) V0) as [V [S H]];
  [unfold G; cbn [g_subs ga_subs jet_common app]; repeat (apply List.Forall_cons; [repeat first [wruns | apply List.Forall_cons | apply List.Forall_nil]|]); apply List.Forall_nil
  |reflexivity|intros s K; exact K|exists V; split; [exact S|]; intros x i N; apply H; intro K; apply N; exact K] end.
Theorem C67_turboprop_runs  V0 : exists V, solution SingleTurboPropEmptyWeight V /\ forall x i, ~ In x (group_outs SingleTurboPropEmptyWeight) -> V x i = V0 x i.
Proof. go_runs SingleTurboPropEmptyWeight. Qed.
Print Assumptions C67_turboprop_runs.
Theorem C67_hybrid_runs  V0 : exists V, solution TwinSeriesHybridEmptyWeight V /\ forall x i, ~ In x (group_outs TwinSeriesHybridEmptyWeight) -> V x i = V0 x i.
Proof. go_runs TwinSeriesHybridEmptyWeight. Qed.
Print Assumptions C67_hybrid_runs.
Theorem C67_jet_runs o V0 : exists V, solution (JetTransportEmptyWeight o) V /\ forall x i, ~ In x (group_outs (JetTransportEmptyWeight o)) -> V x i = V0 x i.
Proof. go_runs JetTransportEmptyWeight. Qed.
Print Assumptions C67_jet_runs.
Theorem C67_bwb_runs o V0 : exists V, solution (BWBEmptyWeight o) V /\ forall x i, ~ In x (group_outs (BWBEmptyWeight o)) -> V x i = V0 x i.
Proof. go_runs BWBEmptyWeight. Qed.
Print Assumptions C67_bwb_runs.
(** Nothing is left unconnected: the inputs of the groups are the documented ones. *)
Lemma same_names l l' : forallb (fun x => mem x l') l && forallb (fun x => mem x l) l' = true -> forall x, In x l <-> In x l'.
Proof.
  intro H. apply andb_prop in H. destruct H as [A B]. rewrite forallb_forall in A, B. intro x. split; intro I; apply mem_In; auto.
Qed.
Theorem C67_inputs o x : (In x (free_ins (JetTransportEmptyWeight o)) <-> In x jet_inputs) /\ (In x (free_ins (BWBEmptyWeight o)) <-> In x bwb_inputs).
Proof. split; apply same_names; reflexivity. Qed.
Print Assumptions C67_inputs.
Theorem C67_sets_up o : setup SingleTurboPropEmptyWeight = Ok SingleTurboPropEmptyWeight /\ setup TwinSeriesHybridEmptyWeight = Ok TwinSeriesHybridEmptyWeight /\
  setup (JetTransportEmptyWeight o) = Ok (JetTransportEmptyWeight o) /\ setup (BWBEmptyWeight o) = Ok (BWBEmptyWeight o).
Proof. repeat split; reflexivity. Qed.
Print Assumptions C67_sets_up.

(** * C70: the parts are the published estimates *)
Theorem C70_turboprop_parts V : solution SingleTurboPropEmptyWeight V \/ solution TwinSeriesHybridEmptyWeight V ->
  0 < V Wfuel 0%nat -> 0 < V "P_TO" 0%nat -> let v x := V x 0%nat in
  v "W_wing" = ga_wing (v wS) (v Wfuel) (v wAR) (v wsweep) (v qcr) (v wtaper) (v wtc) (57/10) (v MTOW) /\
  v "W_empennage" = ga_empennage (57/10) (v vS) (v hS) /\
  v "W_nacelle" = ga_nacelle (v "P_TO") /\
  v "W_fuelsystem" = ga_fuel_system (v Wfuel / (655/100)) (v Wfuel / (655/100)) 1 1 /\
  v "W_equipment" = ga_equipment (v MTOW) (v npax) (v "W_fuelsystem") (v fL) (sqrt (v wS * v wAR)).
Proof. intros [S|S] HF HP; destruct (ga_values _ V S HF HP) as (H1 & H2 & H3 & H4 & H5 & H6 & H7 & H8 & H9 & H10); repeat split; assumption. Qed.
Print Assumptions C70_turboprop_parts.
Theorem C70_jet_parts o V : solution (JetTransportEmptyWeight o) V -> 0 < n_ult o ->
  (forall x, In x [MTOW; rating; wS; wAR; fL; fH] -> 0 < V x 0%nat) -> let v x := V x 0%nat in
  v "W_wing" = raymer_wing (v MTOW) (n_ult o) (v wS) (v wAR) (v wtc) (v wtaper) (v wsweep) (control_surface_area_frac o * v wS) /\
  v "W_hstab" = raymer_hstab (K_uht o) (fuselage_width_frac o * v fH) (sqrt (v hS * v hAR)) (v MTOW) (n_ult o) (v hS) (v harm) (v hsweep) (v hAR) (elevator_area_frac o) /\
  v "W_vstab" = raymer_vstab (if T_tail o then 1 else 0) (v MTOW) (n_ult o) (v varm) (v vS) (v vsweep) (v vAR) (v vtc) /\
  v "W_fuselage" = raymer_fuselage (K_door o) (K_lg o) (v MTOW) (n_ult o) (v fL) (v fS) (raymer_kws (v wtaper) (sqrt (v wS * v wAR)) (v wsweep) (v fL)) (v fH) /\
  v "W_mlg" = raymer_main_gear (kneeling_main o) (v MLW) (n_land_ult o) (v mgL) (v mgW) (v mgS) (v Vstall) /\
  v "W_nlg" = raymer_nose_gear (kneeling_nose o) (v MLW) (n_land_ult o) (v ngL) (v ngW) /\
  v "W_engines" = flops_engine (v rating) * v neng /\
  v "W_thrust_rev" = flops_reversers (v rating) (v neng) /\
  v "W_eng_control" = flops_controls (v rating) (v neng) /\
  v "W_fuelsystem" = flops_fuel_system (v Wfuel) (v neng) (v Mmax) /\
  v "W_eng_start" = roskam_starters (flops_engine (v rating)) (v neng) /\
  v "W_nacelle" = roskam_nacelles (v rating) (v neng) /\
  v "W_furnishings" = roskam_furnishings (v ndeck) (v npax) (v ncabin) (K_lav o) (K_buf o) (v pcabin) (v MTOW) /\
  v "W_flight_controls" = roskam_flight_controls (coeff_fc o) (v MTOW) /\
  v "W_avionics" = coeff_avionics o * roskam_avionics (v ndeck) (v neng) (v MTOW) /\
  v "W_electrical" = roskam_electrical (v "W_fuelsystem") (v "W_avionics") /\
  v "W_ac_pressurize_antiice" = roskam_pressurization (PI / 4 * v fH ^ 2 * (cabin_length_frac o * v fL)) (v ndeck + v ncabin + v npax) /\
  v "W_oxygen" = roskam_oxygen (v ndeck + v ncabin + v npax) /\
  v "W_APU" = APU_weight_frac o * v MTOW.
Proof.
  intros S Hn H. assert (HM := H MTOW ltac:(cbn; tauto)). assert (HT := H rating ltac:(cbn; tauto)). assert (HwS := H wS ltac:(cbn; tauto)).
  assert (HwA := H wAR ltac:(cbn; tauto)). assert (HfL := H fL ltac:(cbn; tauto)). assert (HfH := H fH ltac:(cbn; tauto)). cbv zeta.
  repeat match goal with |- _ /\ _ => split end;
  first [now apply (jet_W_wing o V S) | now apply (jet_W_hstab o V S) | now apply (jet_W_vstab o V S) | now apply (jet_W_fuselage o V S) | now apply (jet_W_mlg o V S)
    | now apply (jet_W_nlg o V S) | now apply (jet_W_engines o V S) | now apply (jet_W_thrust_rev o V S) | now apply (jet_W_eng_control o V S) | now apply (jet_W_fuelsystem o V S)
    | rewrite <- (jet_engine o V S); now apply (jet_W_eng_start o V S) | now apply (jet_W_nacelle o V S) | now apply (jet_W_furnishings o V S) | now apply (jet_W_flight_controls o V S)
    | now apply (jet_W_avionics o V S) | now apply (jet_W_electrical o V S) | rewrite <- (jet_volume o V S); now apply (jet_W_ac_pressurize_antiice o V S) | now apply (jet_W_oxygen o V S)
    | now apply (jet_W_APU o V S)].
Qed.
Print Assumptions C70_jet_parts.
Theorem C70_bwb_parts o V : solution (BWBEmptyWeight o) V -> 0 < V rating 0%nat -> let v x := V x 0%nat in
  v "W_wing" = raymer_wing (v MTOW) (n_ult o) (v wS) (v wAR) (v wtc) (v wtaper) (v wsweep) (control_surface_area_frac o * v wS) /\
  v "W_cabin" = bradley_cabin (v MTOW) (v Scabin) /\
  v "W_aftbody" = bradley_aftbody (v neng) (v Saft) (v MTOW) (v taft) /\
  v "W_mlg" = raymer_main_gear (kneeling_main o) (v MLW) (n_land_ult o) (v mgL) (v mgW) (v mgS) (v Vstall) /\
  v "W_nlg" = raymer_nose_gear (kneeling_nose o) (v MLW) (n_land_ult o) (v ngL) (v ngW) /\
  v "W_engines" = flops_engine (v rating) * v neng /\
  v "W_thrust_rev" = flops_reversers (v rating) (v neng) /\
  v "W_eng_control" = flops_controls (v rating) (v neng) /\
  v "W_fuelsystem" = flops_fuel_system (v Wfuel) (v neng) (v Mmax) /\
  v "W_eng_start" = roskam_starters (flops_engine (v rating)) (v neng) /\
  v "W_nacelle" = roskam_nacelles (v rating) (v neng) /\
  v "W_furnishings" = roskam_furnishings (v ndeck) (v npax) (v ncabin) (K_lav o) (K_buf o) (v pcabin) (v MTOW) /\
  v "W_flight_controls" = roskam_flight_controls (coeff_fc o) (v MTOW) /\
  v "W_avionics" = coeff_avionics o * roskam_avionics (v ndeck) (v neng) (v MTOW) /\
  v "W_electrical" = roskam_electrical (v "W_fuelsystem") (v "W_avionics") /\
  v "W_ac_pressurize_antiice" = roskam_pressurization (v Vpr) (v ndeck + v ncabin + v npax) /\
  v "W_oxygen" = roskam_oxygen (v ndeck + v ncabin + v npax) /\
  v "W_APU" = APU_weight_frac o * v MTOW.
Proof.
  intros S HT. cbv zeta. repeat match goal with |- _ /\ _ => split end;
  first [now apply (bwb_W_wing o V S) | now apply (bwb_W_cabin o V S) | now apply (bwb_W_aftbody o V S) | now apply (bwb_W_mlg o V S)
    | now apply (bwb_W_nlg o V S) | now apply (bwb_W_engines o V S) | now apply (bwb_W_thrust_rev o V S) | now apply (bwb_W_eng_control o V S) | now apply (bwb_W_fuelsystem o V S)
    | rewrite <- (bwb_engine o V S); now apply (bwb_W_eng_start o V S) | now apply (bwb_W_nacelle o V S) | now apply (bwb_W_furnishings o V S) | now apply (bwb_W_flight_controls o V S)
    | now apply (bwb_W_avionics o V S) | now apply (bwb_W_electrical o V S) | now apply (bwb_W_ac_pressurize_antiice o V S) | now apply (bwb_W_oxygen o V S)
    | now apply (bwb_W_APU o V S)].
Qed.
Print Assumptions C70_bwb_parts.

(** The small aircraft's gear lengths are declared in ft, but Raymer's equation takes
    inches: the weight found is below the published estimate, whatever the aircraft. *)
Theorem C70_gear_length_refuted V : solution SingleTurboPropEmptyWeight V \/ solution TwinSeriesHybridEmptyWeight V ->
  (forall x, In x [Wfuel; "P_TO"; MLW; mgL; ngL] -> 0 < V x 0%nat) ->
  V "W_gear" 0%nat < ga_gear (57/10) (V MLW 0%nat) (12 * V mgL 0%nat) (12 * V ngL 0%nat).
Proof.
  intros S H. assert (HF := H Wfuel ltac:(cbn; tauto)). assert (HP := H "P_TO" ltac:(cbn; tauto)). assert (HL := H MLW ltac:(cbn; tauto)).
  assert (Hm := H mgL ltac:(cbn; tauto)). assert (Hn := H ngL ltac:(cbn; tauto)).
  assert (E : V "W_gear" 0%nat = ga_gear (57/10) (V MLW 0%nat) (V mgL 0%nat) (V ngL 0%nat)).
  { destruct S as [S|S]; destruct (ga_values _ V S HF HP) as (H1 & H2 & H3 & H4 & H5 & _); exact H5. }
  rewrite E. unfold ga_gear.
  assert (A : forall p, 0 < Rpower (57/10 * V MLW 0%nat) p) by (intro; apply Rpower_pos).
  assert (B : forall x p, 0 < x -> 0 < p -> Rpower (x / 12) p < Rpower (12 * x / 12) p) by (intros x p Hx Hp; apply Rlt_Rpower_l; lra).
  pose proof (B _ (409/1000) Hm ltac:(lra)). pose proof (B _ (845/1000) Hn ltac:(lra)).
  pose proof (A (768/1000)). pose proof (A (566/1000)).
  apply Rplus_lt_compat; apply Rmult_lt_compat_l; try assumption; apply Rmult_lt_0_compat; lra.
Qed.
Print Assumptions C70_gear_length_refuted.
(** The pressurized "volume" is the lateral area of the cabin: with a round cabin more
    than 4 ft across, the fuselage is lighter than the published estimate for its volume. *)
Theorem C70_pressurized_volume_refuted V : solution SingleTurboPropEmptyWeight V \/ solution TwinSeriesHybridEmptyWeight V ->
  (forall x, In x [Wfuel; "P_TO"; fL] -> 0 < V x 0%nat) -> V fW 0%nat = V fH 0%nat -> 4 < V fH 0%nat ->
  let v x := V x 0%nat in let volume := PI / 4 * v fH ^ 2 * (8/10 * v fL) in
  v "W_fuselage" < ga_fuselage (v fS) (57/10) (v MTOW) (v harm) (v fL) (v fH) (v qcr) + ga_pressurization volume 8.
Proof.
  intros S H HW HD v volume. assert (HF := H Wfuel ltac:(cbn; tauto)). assert (HP := H "P_TO" ltac:(cbn; tauto)). assert (HL := H fL ltac:(cbn; tauto)).
  assert (E : v "W_fuselage" = ga_fuselage (v fS) (57/10) (v MTOW) (v harm) (v fL) (v fH) (v qcr) + ga_pressurization (PI * ((v fW + v fH) / 2) * (8/10 * v fL)) 8).
  { destruct S as [S|S]; destruct (ga_values _ V S HF HP) as (H1 & H2 & H3 & _); exact H3. }
  rewrite E. apply Rplus_lt_compat_l. unfold ga_pressurization, volume. change (v fW = v fH) in HW. change (4 < v fH) in HD. change (0 < v fL) in HL. rewrite HW.
  pose proof PI_RGT_0 as HPI. assert (HA : 0 < PI * (8/10 * v fL)) by (apply Rmult_lt_0_compat; lra). apply Rmult_lt_compat_l; [lra|]. apply Rlt_Rpower_l; [lra|]. split; [clear - HA HD; nra|].
  replace (PI * ((v fH + v fH) / 2) * (8/10 * v fL) * 8) with (PI * (8/10 * v fL) * 8 * v fH) by field.
  replace (PI / 4 * v fH ^ 2 * (8/10 * v fL) * 8) with (PI * (8/10 * v fL) * 8 * (v fH * v fH / 4)) by field.
  apply Rmult_lt_compat_l; [lra|]. nra.
Qed.
Print Assumptions C70_pressurized_volume_refuted.
