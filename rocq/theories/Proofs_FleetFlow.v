From Coq Require Import Reals List Bool PeanoNat String Lia Lra.
From Verif Require Import Base Py RSum Model_Algebra Model_Vectors Model_Integrals Spec_Integrals Proofs_Integrals
  Model_Atmos Model_Aero Model_Mission Model_Net Proofs_Net Model_Thermal Model_HX Model_Ducts Proofs_Ducts Model_HeatPipe
  Model_Systems Spec_Systems Proofs_Systems Props_Systems Model_Weights Model_Flight Spec_Flight Proofs_Flight Model_Fleet Spec_Fleet Proofs_Fleet.
Import ListNotations.
Open Scope R_scope.
Open Scope string_scope.
Open Scope list_scope.

(** ** Names seen through the phase *)
Definition ac_view (A : aircraft) (n : nat) (L : list (string * string)) : bool :=
  forallb (fun p => let g := ac_model A n p in forallb (fun c => ac_sees (ac_times A) g (fst c) (snd c)) L) ["v0v1"; "climb"].
Lemma ac_viewed kt kp tri n A p k W M D L : In A (fleet M D tri) -> solution (phase_group kt kp tri n A p k) W -> ac_view A n L = true ->
  exists U, solution (ac_model A n (told p k)) U /\ forall x y, In (x, y) L -> forall i, U x i = W y i.
Proof.
  intros I S H. destruct (acmodel_in _ _ _ _ _ _ _ _ S) as (U & SU & SEE). exists U. split; [exact SU|]. intros x y Hx i. apply SEE.
  unfold ac_view in H. cbn [forallb] in H. rewrite !andb_true_iff in H. destruct H as (H1 & H2 & _). rewrite forallb_forall in H1, H2.
  specialize (H1 _ Hx). specialize (H2 _ Hx). destruct (two_kinds M D tri A n (told p k) I) as [->| ->]; assumption.
Qed.
(** Through the aircraft model into its propulsion system [h]. *)
Definition prop_name (g h : group) (pin pout : list promo) (x : string) : string :=
  if mem x (group_outs h) then gname "propmodel" pout x else source g (gname "propmodel" pin x).
Definition prop_view (A : aircraft) (n : nat) (h : group) (pin pout : list promo) (L : list (string * string)) : bool :=
  let vars := group_outs h ++ free_ins h in
  forallb (fun p => let g := ac_model A n p in forallb (fun c => mem (fst c) vars && ac_sees (ac_times A) g (prop_name g h pin pout (fst c)) (snd c)) L) ["v0v1"; "climb"].
Lemma prop_viewed kt kp tri n A p k W M D h pin pout L : In A (fleet M D tri) -> solution (phase_group kt kp tri n A p k) W ->
  (forall q, In (subgroup "propmodel" h pin pout) (g_subs (ac_model A n q))) -> prop_view A n h pin pout L = true ->
  exists S, solution h S /\ forall x y, In (x, y) L -> forall i, S x i = W y i.
Proof.
  intros I S IS H. destruct (acmodel_in _ _ _ _ _ _ _ _ S) as (U & SU & SEE).
  destruct (sol_nested _ _ _ _ _ _ _ _ SU (IS _)) as (T & ST & HI & HO). exists T. split; [exact ST|]. intros x y Hx i.
  unfold prop_view in H. cbn [forallb] in H. rewrite !andb_true_iff in H. destruct H as (H1 & H2 & _). rewrite forallb_forall in H1, H2.
  specialize (H1 _ Hx). specialize (H2 _ Hx). cbn [fst snd] in H1, H2. rewrite andb_true_iff in H1, H2. destruct H1 as [V1 H1], H2 as [_ H2].
  assert (K : ac_sees (ac_times A) (ac_model A n (told p k)) (prop_name (ac_model A n (told p k)) h pin pout x) y = true).
  { destruct (two_kinds M D tri A n (told p k) I) as [E|E]; rewrite E; assumption. }
  rewrite <- (SEE _ _ i K). unfold prop_name. destruct (mem x (group_outs h)) eqn:E.
  - apply HO. now apply mem_In.
  - apply HI. apply mem_In in V1. apply in_app_or in V1. destruct V1 as [V1|V1]; [|exact V1]. apply mem_In in V1. congruence.
Qed.
Ltac see SEE S H := repeat match type of H with context [S ?x _] => rewrite (SEE x _ ltac:(insub)) in H end.

Section Flow.
Context (kt kp : coeffs) (M : maps) (D : deck) (tri : mat) (nn : nat) (p : string) (k : pkind) (W : env).
Notation flies A := (solution (phase_group kt kp tri nn A p k) W).
(** ** The turboprops *)
Lemma tbm_flow i : flies (TBM850 M tri) -> (i < nn)%nat ->
  W "propmodel.fuel_flow" i = fuel_per_joule * (W "throttle" i * W "ac|propulsion|engine|rating" 0%nat) /\
  (propeller_runs W i "propmodel.prop1.rpm" "ac|propulsion|propeller|diameter" ->
   W "thrust" i = propeller_thrust (eta_map M) (static_map M) (W "fltcond|rho" i) (W "fltcond|Utrue" i) (W "ac|propulsion|propeller|diameter" 0%nat)
     (W "propmodel.prop1.rpm" i) (W "throttle" i * W "ac|propulsion|engine|rating" 0%nat)) /\
  W "propmodel.eng1.component_weight" 0%nat = engine_weight (W "ac|propulsion|engine|rating" 0%nat) /\
  W "propmodel.prop1.component_weight" 0%nat = propeller_weight (W "ac|propulsion|engine|rating" 0%nat) (W "ac|propulsion|propeller|diameter" 0%nat).
Proof.
  intros S Hi. destruct (prop_viewed kt kp tri nn (TBM850 M tri) p k W M D (TurbopropPropulsionSystem M nn) _ _
    [("fuel_flow", "propmodel.fuel_flow"); ("prop1.rpm", "propmodel.prop1.rpm"); ("throttle", "throttle"); ("ac|propulsion|engine|rating", "ac|propulsion|engine|rating");
     ("ac|propulsion|propeller|diameter", "ac|propulsion|propeller|diameter"); ("fltcond|rho", "fltcond|rho"); ("fltcond|Utrue", "fltcond|Utrue"); ("thrust", "thrust");
     ("eng1.component_weight", "propmodel.eng1.component_weight"); ("prop1.component_weight", "propmodel.prop1.component_weight")]
    ltac:(insub) S ltac:(intro; insub) ltac:(vm_compute; reflexivity)) as (T & ST & SEE).
  pose proof (C63_turboprop M nn T i ST Hi) as H. cbv zeta in H. unfold propeller_runs in *. see SEE T H. exact H.
Qed.
Lemma caravan_flow i : flies (Caravan M tri) -> (i < nn)%nat ->
  W "fuel_flow" i = fuel_per_joule * (W "throttle" i * W "ac|propulsion|engine|rating" 0%nat) /\
  (propeller_runs W i "prop1rpm" "ac|propulsion|propeller|diameter" ->
   W "thrust" i = propeller_thrust (eta_map M) (static_map M) (W "fltcond|rho" i) (W "fltcond|Utrue" i) (W "ac|propulsion|propeller|diameter" 0%nat)
     (W "prop1rpm" i) (W "throttle" i * W "ac|propulsion|engine|rating" 0%nat)) /\
  W "propmodel.eng1.component_weight" 0%nat = engine_weight (W "ac|propulsion|engine|rating" 0%nat) /\
  W "propmodel.prop1.component_weight" 0%nat = propeller_weight (W "ac|propulsion|engine|rating" 0%nat) (W "ac|propulsion|propeller|diameter" 0%nat).
Proof.
  intros S Hi. destruct (prop_viewed kt kp tri nn (Caravan M tri) p k W M D (TurbopropPropulsionSystem M nn) _ _
    [("fuel_flow", "fuel_flow"); ("prop1.rpm", "prop1rpm"); ("throttle", "throttle"); ("ac|propulsion|engine|rating", "ac|propulsion|engine|rating");
     ("ac|propulsion|propeller|diameter", "ac|propulsion|propeller|diameter"); ("fltcond|rho", "fltcond|rho"); ("fltcond|Utrue", "fltcond|Utrue"); ("thrust", "thrust");
     ("eng1.component_weight", "propmodel.eng1.component_weight"); ("prop1.component_weight", "propmodel.prop1.component_weight")]
    ltac:(insub) S ltac:(intro; insub) ltac:(vm_compute; reflexivity)) as (T & ST & SEE).
  pose proof (C63_turboprop M nn T i ST Hi) as H. cbv zeta in H. unfold propeller_runs in *. see SEE T H. exact H.
Qed.
Lemma kingair_flow i : flies (KingAir M tri) -> (i < nn)%nat ->
  let P1 := W "throttle" i * W "ac|propulsion|engine|rating" 0%nat in let P2 := W "propulsor_active" i * P1 in
  let T P := propeller_thrust (eta_map M) (static_map M) (W "fltcond|rho" i) (W "fltcond|Utrue" i) (W "ac|propulsion|propeller|diameter" 0%nat) (W "prop|rpm" i) P in
  W "fuel_flow" i = fuel_per_joule * (P1 + P2) /\
  (propeller_runs W i "prop|rpm" "ac|propulsion|propeller|diameter" -> W "thrust" i = T P1 + T P2) /\
  W "propmodel.engines_weight" 0%nat = 2 * engine_weight (W "ac|propulsion|engine|rating" 0%nat) /\
  W "propmodel.propellers_weight" 0%nat = 2 * propeller_weight (W "ac|propulsion|engine|rating" 0%nat) (W "ac|propulsion|propeller|diameter" 0%nat).
Proof.
  intros S Hi. destruct (prop_viewed kt kp tri nn (KingAir M tri) p k W M D (TwinTurbopropPropulsionSystem M nn) _ _
    [("fuel_flow", "fuel_flow"); ("prop1.rpm", "prop|rpm"); ("prop2.rpm", "prop|rpm"); ("throttle", "throttle"); ("propulsor_active", "propulsor_active");
     ("ac|propulsion|engine|rating", "ac|propulsion|engine|rating");
     ("ac|propulsion|propeller|diameter", "ac|propulsion|propeller|diameter"); ("fltcond|rho", "fltcond|rho"); ("fltcond|Utrue", "fltcond|Utrue"); ("thrust", "thrust");
     ("engines_weight", "propmodel.engines_weight"); ("propellers_weight", "propmodel.propellers_weight")]
    ltac:(insub) S ltac:(intro; insub) ltac:(vm_compute; reflexivity)) as (T & ST & SEE).
  pose proof (C63_twin_turboprop M nn T i ST Hi) as H. cbv zeta in H. unfold propeller_runs in *. see SEE T H. cbv zeta. destruct H as (H1 & H2 & H3).
  split; [exact H1|]. split; [|exact H3]. intro Q. now apply H2.
Qed.

(** ** The hybrids *)
Definition hybrid_names (load : string) : list (string * string) :=
  [("fuel_flow", "fuel_flow"); ("thrust", "thrust"); ("throttle", "throttle"); ("propulsor_active", "propulsor_active");
   ("prop1.rpm", "proprpm"); ("prop2.rpm", "proprpm"); ("fltcond|rho", "fltcond|rho"); ("fltcond|Utrue", "fltcond|Utrue");
   ("ac|propulsion|engine|rating", "ac|propulsion|engine|rating"); ("ac|propulsion|motor|rating", "ac|propulsion|motor|rating");
   ("ac|propulsion|generator|rating", "ac|propulsion|generator|rating"); ("ac|propulsion|propeller|diameter", "ac|propulsion|propeller|diameter");
   ("ac|weights|W_battery", "ac|weights|W_battery"); ("ac|propulsion|battery|specific_energy", "ac|propulsion|battery|specific_energy");
   ("hybrid_split.power_split_fraction", "hybrid_factor.vec"); ("duration", "duration"); ("battery_load", "propmodel.battery_load");
   ("batt1.SOC", "propmodel.batt1.SOC"); ("batt1.SOC_initial", "propmodel.batt1.SOC_initial"); ("batt1.SOC_final", "propmodel.batt1.SOC_final");
   ("batt1.dSOCdt", "propmodel.batt1.dSOCdt"); ("eng1.shaft_power_out", "propmodel.eng1.shaft_power_out"); ("gen1.elec_power_out", "propmodel.gen1.elec_power_out");
   ("eng1.component_weight", "propmodel.eng1.component_weight"); ("gen1.component_weight", "propmodel.gen1.component_weight");
   ("motors_weight", "propmodel.motors_weight"); ("propellers_weight", "propmodel.propellers_weight"); (load, String.append "propmodel." load)].
Definition is_hybrid (A : aircraft) (h : group) (load : string) : Prop :=
  (A = HybridTwin M tri /\ h = TwinSeriesHybridElectricPropulsionSystem M nn tri /\ load = "motors_elec_load") \/
  (A = HybridTwinThermal M tri /\ h = TwinSeriesHybridElectricThermalPropulsionSystem M nn tri /\ load = "motors_elec_load") \/
  (A = HybridTwinActive M tri /\ h = TwinSeriesHybridElectricThermalPropulsionRefrigerated M nn tri /\ load = "total_elec_load").
Lemma hybrid_in A h load : is_hybrid A h load -> flies A -> exists T, solution h T /\
  (forall x y, In (x, y) (hybrid_names load) -> forall i, T x i = W y i) /\
  (load = "total_elec_load" -> forall i, T "refrig.elec_load" i = W "propmodel.refrig.elec_load" i).
Proof.
  intros [(-> & -> & ->)|[(-> & -> & ->)|(-> & -> & ->)]] S.
  - destruct (prop_viewed kt kp tri nn (HybridTwin M tri) p k W M D (TwinSeriesHybridElectricPropulsionSystem M nn tri) _ _
      (hybrid_names "motors_elec_load") ltac:(insub) S ltac:(intro; insub) ltac:(vm_compute; reflexivity)) as (T & ST & SEE).
    exists T. split; [exact ST|]. split; [exact SEE|discriminate].
  - destruct (prop_viewed kt kp tri nn (HybridTwinThermal M tri) p k W M D (TwinSeriesHybridElectricThermalPropulsionSystem M nn tri) _ _
      (hybrid_names "motors_elec_load") ltac:(insub) S ltac:(intro; insub) ltac:(vm_compute; reflexivity)) as (T & ST & SEE).
    exists T. split; [exact ST|]. split; [exact SEE|discriminate].
  - destruct (prop_viewed kt kp tri nn (HybridTwinActive M tri) p k W M D (TwinSeriesHybridElectricThermalPropulsionRefrigerated M nn tri) _ _
      (("refrig.elec_load", "propmodel.refrig.elec_load") :: hybrid_names "total_elec_load") ltac:(insub) S ltac:(intro; insub) ltac:(vm_compute; reflexivity)) as (T & ST & SEE).
    exists T. split; [exact ST|]. split; [intros x y H; apply SEE; now right|]. intros _. apply SEE. now left.
Qed.
Lemma hybrid_split_even A h load i : is_hybrid A h load -> flies A -> (i < nn)%nat -> W "hybrid_factor.vec" i = W "hybridization" 0%nat.
Proof.
  intros HH S Hi.
  assert (K : exists U, solution (ac_model A nn (told p k)) U /\ forall x y, In (x, y) [("hybrid_factor.vec", "hybrid_factor.vec"); ("hybridization", "hybridization")] -> forall i, U x i = W y i).
  { destruct HH as [(-> & _)|[(-> & _)|(-> & _)]]; (eapply (ac_viewed kt kp tri nn _ p k W M D); [insub|exact S|vm_compute; reflexivity]). }
  destruct K as (U & SU & SEE).
  assert (I : In (linear_interp nn "hybrid_factor" [As "start_val" "hybridization"; As "end_val" "hybridization"] []) (g_subs (ac_model A nn (told p k)))).
  { destruct HH as [(-> & _)|[(-> & _)|(-> & _)]]; right; left; reflexivity. }
  assert (SO : source (ac_model A nn (told p k)) "hybridization" = "hybridization").
  { destruct HH as [(-> & _)|[(-> & _)|(-> & _)]]; reflexivity. }
  pose proof (sol_rel _ U _ SU I i Hi) as H. unfold reads, writes in H. cbn [linear_interp gs_name gs_pin gs_pout] in H.
  change (gname "hybrid_factor" [] "vec") with "hybrid_factor.vec" in H.
  change (gname "hybrid_factor" [As "start_val" "hybridization"; As "end_val" "hybridization"] "start_val") with "hybridization" in H.
  change (gname "hybrid_factor" [As "start_val" "hybridization"; As "end_val" "hybridization"] "end_val") with "hybridization" in H.
  rewrite SO in H. see SEE U H. rewrite H. unfold lin_compute, linspace.
  destruct (Nat.eqb nn 1); [reflexivity|]. destruct (Nat.eqb i (nn - 1)); [reflexivity|]. unfold Rdiv. rewrite Rminus_diag_eq by reflexivity. ring.
Qed.
(** Electric power the propulsion system draws. *)
Definition hybrid_draw (load : string) (i : nat) : R :=
  (1 + W "propulsor_active" i) * (W "throttle" i * W "ac|propulsion|motor|rating" 0%nat) +
  (if String.eqb load "total_elec_load" then W "propmodel.refrig.elec_load" i else 0).
Lemma hybrid_flow A h load i : is_hybrid A h load -> flies A -> (i < nn)%nat ->
  W "propmodel.battery_load" i = W "hybridization" 0%nat * hybrid_draw load i /\
  97/100 * W "propmodel.eng1.shaft_power_out" i = (1 - W "hybridization" 0%nat) * hybrid_draw load i /\
  W "fuel_flow" i = fuel_per_joule * W "propmodel.eng1.shaft_power_out" i /\
  (propeller_runs W i "proprpm" "ac|propulsion|propeller|diameter" ->
   let T P := propeller_thrust (eta_map M) (static_map M) (W "fltcond|rho" i) (W "fltcond|Utrue" i) (W "ac|propulsion|propeller|diameter" 0%nat) (W "proprpm" i) P in
   let P := 97/100 * (W "throttle" i * W "ac|propulsion|motor|rating" 0%nat) in W "thrust" i = T P + T (W "propulsor_active" i * P)).
Proof.
  intros HH S Hi. pose proof (hybrid_split_even A h load i HH S Hi) as HF. destruct (hybrid_in A h load HH S) as (T & ST & SEE & SR).
  assert (C : T "battery_load" i = T "hybrid_split.power_split_fraction" i * T load i /\ T "gen1.elec_power_out" i + T "battery_load" i = T load i /\
     97/100 * T "eng1.shaft_power_out" i = T "gen1.elec_power_out" i /\ T "fuel_flow" i = fuel_per_joule * T "eng1.shaft_power_out" i /\
     T load i = (1 + T "propulsor_active" i) * (T "throttle" i * T "ac|propulsion|motor|rating" 0%nat) + (if String.eqb load "total_elec_load" then T "refrig.elec_load" i else 0)).
  { destruct HH as [(-> & -> & ->)|[(-> & -> & ->)|(-> & -> & ->)]].
    - destruct (hybrid_core M nn tri _ "motors_elec_load" T ST (twin_subs M nn tri) eq_refl eq_refl (twin_dvs M nn tri T ST) i Hi) as (L1&L2&_&_&B&Gn&En&_&Fu&_).
      repeat split; auto. pose proof (sol_adders _ T "add_power" _ _ _ _ i ST ltac:(nth_sub 1%nat) ltac:(nth_sub 0%nat) Hi) as A0. rewrite add2 in A0 by exact Hi. injection A0 as A0.
      change (T "motor1.elec_load" i + T "motor2.elec_load" i = T "motors_elec_load" i) in A0. cbn [String.eqb Ascii.eqb Bool.eqb]. rewrite <- A0, L1, L2. ring.
    - destruct (hybrid_core M nn tri _ "motors_elec_load" T ST (thermal_subs M nn tri) eq_refl eq_refl (thermal_dvs M nn tri T ST) i Hi) as (L1&L2&_&_&B&Gn&En&_&Fu&_).
      repeat split; auto. pose proof (sol_adders _ T "add_power" _ _ _ _ i ST ltac:(nth_sub 1%nat) ltac:(nth_sub 0%nat) Hi) as A0. rewrite add2 in A0 by exact Hi. injection A0 as A0.
      change (T "motor1.elec_load" i + T "motor2.elec_load" i = T "motors_elec_load" i) in A0. cbn [String.eqb Ascii.eqb Bool.eqb]. rewrite <- A0, L1, L2. ring.
    - destruct (hybrid_core M nn tri _ "total_elec_load" T ST (refrigerated_subs M nn tri) eq_refl eq_refl (refrigerated_dvs M nn tri T ST) i Hi) as (L1&L2&_&_&B&Gn&En&_&Fu&_).
      repeat split; auto. pose proof (sol_adders _ T "add_power" _ _ _ _ i ST ltac:(nth_sub 1%nat) ltac:(nth_sub 0%nat) Hi) as A0. rewrite add3 in A0 by exact Hi. injection A0 as A0.
      change (T "motor1.elec_load" i + T "motor2.elec_load" i + T "refrig.elec_load" i = T "total_elec_load" i) in A0. cbn [String.eqb Ascii.eqb Bool.eqb]. rewrite <- A0, L1, L2. ring. }
  assert (SL : forall i, T load i = W (String.append "propmodel." load) i) by (apply SEE; do 27 right; left; reflexivity).
  destruct C as (C1 & C2 & C3 & C4 & C5).
  assert (RF : (if String.eqb load "total_elec_load" then T "refrig.elec_load" i else 0) = (if String.eqb load "total_elec_load" then W "propmodel.refrig.elec_load" i else 0)).
  { destruct (String.eqb_spec load "total_elec_load"); [now apply SR|reflexivity]. }
  rewrite RF in C5. assert (DR : T load i = hybrid_draw load i).
  { rewrite C5. unfold hybrid_draw. rewrite (SEE "propulsor_active" _ ltac:(insub)), (SEE "throttle" _ ltac:(insub)), (SEE "ac|propulsion|motor|rating" _ ltac:(insub)). reflexivity. }
  rewrite DR in C1, C2. clear SL. rewrite (SEE "hybrid_split.power_split_fraction" _ ltac:(insub)), HF in C1. see SEE T C1. see SEE T C2. see SEE T C3. see SEE T C4.
  split; [exact C1|]. split; [lra|]. split; [exact C4|].
  intros Q. assert (F : T "thrust" i = propeller_thrust (eta_map M) (static_map M) (T "fltcond|rho" i) (T "fltcond|Utrue" i) (T "ac|propulsion|propeller|diameter" 0%nat) (T "prop1.rpm" i)
       (97/100 * (T "throttle" i * T "ac|propulsion|motor|rating" 0%nat)) +
     propeller_thrust (eta_map M) (static_map M) (T "fltcond|rho" i) (T "fltcond|Utrue" i) (T "ac|propulsion|propeller|diameter" 0%nat) (T "prop2.rpm" i)
       (T "propulsor_active" i * (97/100 * (T "throttle" i * T "ac|propulsion|motor|rating" 0%nat)))).
  { assert (Q1 : propeller_runs T i "prop1.rpm" "ac|propulsion|propeller|diameter").
    { unfold propeller_runs in *. rewrite (SEE "fltcond|rho" _ ltac:(insub)), (SEE "prop1.rpm" _ ltac:(insub)), (SEE "ac|propulsion|propeller|diameter" _ ltac:(insub)). exact Q. }
    assert (Q2 : propeller_runs T i "prop2.rpm" "ac|propulsion|propeller|diameter").
    { unfold propeller_runs in *. rewrite (SEE "fltcond|rho" _ ltac:(insub)), (SEE "prop2.rpm" _ ltac:(insub)), (SEE "ac|propulsion|propeller|diameter" _ ltac:(insub)). exact Q. }
    destruct (C63_twin_hybrid M nn tri T i Hi Q1 Q2) as (F1 & F2 & F3).
    destruct HH as [(-> & -> & ->)|[(-> & -> & ->)|(-> & -> & ->)]]; [pose proof (hf_thrust (F1 ST))|pose proof (hf_thrust (F2 ST))|pose proof (hf_thrust (F3 ST))]; assumption. }
  see SEE T F. cbv zeta. exact F.
Qed.
Lemma hybrid_weigh A h load : is_hybrid A h load -> flies A ->
  W "propmodel.motors_weight" 0%nat = 2 * machine_weight (W "ac|propulsion|motor|rating" 0%nat) /\
  W "propmodel.propellers_weight" 0%nat = 2 * propeller_weight (W "ac|propulsion|motor|rating" 0%nat) (W "ac|propulsion|propeller|diameter" 0%nat) /\
  W "propmodel.eng1.component_weight" 0%nat = engine_weight (W "ac|propulsion|engine|rating" 0%nat) /\
  W "propmodel.gen1.component_weight" 0%nat = machine_weight (W "ac|propulsion|generator|rating" 0%nat).
Proof.
  intros HH S. destruct (hybrid_in A h load HH S) as (T & ST & SEE & SR). 
  assert (HW : hybrid_weights T).
  { apply (C63_twin_hybrid_weights M nn tri). destruct HH as [(-> & -> & ->)|[(-> & -> & ->)|(-> & -> & ->)]]; auto. }
  destruct HW as [H1 H2 H3 H4]. clear SR. see SEE T H1. see SEE T H2. see SEE T H3. see SEE T H4. auto.
Qed.
End Flow.
