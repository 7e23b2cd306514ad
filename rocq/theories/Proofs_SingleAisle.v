(** The parts of the hybrid single-aisle airliner. *)
From Coq Require Import Reals List Bool PeanoNat String Ascii Lia Lra FunctionalExtensionality.
From Verif Require Import Base Py RSum Model_Algebra Model_Vectors Model_Integrals Spec_Integrals Model_Atmos Model_Aero Model_Mission Spec_Mission Proofs_Profiles
  Model_Net Proofs_Net Model_Thermal Proofs_Thermal Props_Thermal Model_HX Spec_HX Model_Ducts Proofs_Ducts Props_Ducts Model_HeatPipe Model_Systems Spec_Systems Proofs_Systems Props_Cooling
  Model_Weights Model_Propulsion Model_Flight Spec_Flight Proofs_Flight Model_Fleet Spec_Fleet Proofs_Fleet Proofs_FleetFlow Proofs_FleetParts Proofs_FleetBody
  Model_SingleAisle Spec_SingleAisle.
Import ListNotations.
Open Scope R_scope.
Open Scope string_scope.
Open Scope list_scope.

(** ** Sums and multiples *)
Ltac sums := unfold add_compute, weighted_sys, add_resolve; cbn [map fst snd as_ins as_sf as_vec as_len List.length repeat read_sizes Nat.eqb negb res_bind forallb];
  rewrite fits_refl; cbn [andb negb combine res_bind fold_left fst snd]; rewrite bidx_row by auto; f_equal; ring.
Lemma sum2 v out u a b k l E i : (i < v)%nat -> add_compute (weighted_sys v out u [(a, k); (b, l)]) E i = Ok (E a i * k + E b i * l).
Proof. intro H. sums. Qed.
Lemma sum3 v out u a b c k l m E i : (i < v)%nat -> add_compute (weighted_sys v out u [(a, k); (b, l); (c, m)]) E i = Ok (E a i * k + E b i * l + E c i * m).
Proof. intro H. sums. Qed.
Lemma sum4 v out u a b c d k l m o E i : (i < v)%nat ->
  add_compute (weighted_sys v out u [(a, k); (b, l); (c, m); (d, o)]) E i = Ok (E a i * k + E b i * l + E c i * m + E d i * o).
Proof. intro H. sums. Qed.
Lemma sum5 v out u a b c d e E i : (i < v)%nat ->
  add_compute (weighted_sys v out u [(a, 1); (b, 1); (c, 1); (d, 1); (e, 1)]) E i = Ok (E a i + E b i + E c i + E d i + E e i).
Proof. intro H. sums. Qed.
Lemma multiple_value v out x u k E i : (i < v)%nat ->
  mul_compute {| ms_out := out; ms_ins := [x]; ms_vec := VInt v; ms_len := 1; ms_sf := k; ms_div := None; ms_units := Some [Some u] |} E i = Ok (E x i * k).
Proof.
  intro H. unfold mul_compute, mul_resolve. cbn [ms_ins ms_units ms_div ms_vec ms_len ms_sf List.length repeat read_sizes Nat.eqb negb res_bind forallb fst snd].
  rewrite fits_refl. cbn [andb negb combine res_bind fold_left fst snd]. rewrite bidx_row by auto. f_equal. ring.
Qed.
(** ** The aircraft model *)
Section Aisle.
Context (H : hybrid_deck) (X : mat) (n : nat) (p : string) (U : env).
Notation tri := (method_tri Simpson n X).
Notation G := (SingleAisleModel H tri n p).
Hypothesis MS : method_size Simpson n.
Hypothesis HX : is_inverse (n - 1) simpson_a X.
Hypothesis S : solution G U.
Let N2 : (2 <= n)%nat. Proof. destruct MS; lia. Qed.
Ltac sub k := nth_sub k.
Lemma sa_draw i : (i < n)%nat -> U "hybrid_throttle.vec" i * U "ac|propulsion|motor|rating" 0%nat = motor_draw n U i.
Proof.
  intro Hi. pose proof (sol_rel G U _ S ltac:(sub 3%nat) i Hi) as E.
  change (U "hybrid_throttle.vec" i = lin_compute n (U "hybrid_throttle_start" 0%nat) (U "hybrid_throttle_end" 0%nat) i) in E.
  rewrite E. unfold motor_draw, ramp, lin_compute, linspace. assert (INR (n - 1) <> 0) by (apply not_0_INR; lia).
  destruct (Nat.eqb_spec n 1); [lia|]. destruct (Nat.eqb_spec i (n - 1)) as [->|]; field; auto.
Qed.
Lemma sa_motor i : (i < n)%nat ->
  U "hybrid_motor.shaft_power_out" i = 95/100 * motor_draw n U i /\ U "hybrid_motor.heat_out" i = 5/100 * motor_draw n U i /\
  U "hybrid_motor.elec_load" i = motor_draw n U i /\ U "hybrid_motor.component_weight" 0%nat = U "ac|propulsion|motor|rating" 0%nat / 5000.
Proof.
  intro Hi. pose proof (fun o k f j => sol_comp G U n "hybrid_motor" (SimpleMotor hybrid_machine) _ _ o k f j S ltac:(sub 4%nat)) as C.
  pose proof (C "shaft_power_out" _ _ i eq_refl Hi) as E1. pose proof (C "heat_out" _ _ i eq_refl Hi) as E2. pose proof (C "elec_load" _ _ i eq_refl Hi) as E3.
  pose proof (C "component_weight" _ _ 0%nat eq_refl Nat.lt_0_1) as E4. clear C.
  change (U "hybrid_motor.shaft_power_out" i = U "hybrid_throttle.vec" i * U "ac|propulsion|motor|rating" 0%nat * (95/100)) in E1.
  change (U "hybrid_motor.heat_out" i = U "hybrid_throttle.vec" i * U "ac|propulsion|motor|rating" 0%nat * (1 - 95/100)) in E2.
  change (U "hybrid_motor.elec_load" i = U "hybrid_throttle.vec" i * U "ac|propulsion|motor|rating" 0%nat) in E3.
  change (U "hybrid_motor.component_weight" 0%nat = U "ac|propulsion|motor|rating" 0%nat * (1/5000) + 0) in E4.
  rewrite E1, E2, E3, E4, sa_draw by exact Hi. repeat split; try field; lra.
Qed.
Lemma sa_engine i : (i < n)%nat -> let at_ f := f (U "throttle" i) (U "fltcond|h" i) (U "fltcond|M" i) (95/100 * motor_draw n U i) in
  U "thrust" i = 2 * at_ (hk_thrust H) /\ U "fuel_flow" i = 2 * at_ (hk_fuel H).
Proof.
  intros Hi at_. destruct (sol_rel G U _ S ltac:(sub 5%nat) i Hi) as (E1 & E2 & _).
  change (U "engine.thrust" i = hk_thrust H (U "throttle" i) (U "fltcond|h" i) (U "fltcond|M" i) (U "hybrid_motor.shaft_power_out" i)) in E1.
  change (U "engine.fuel_flow" i = hk_fuel H (U "throttle" i) (U "fltcond|h" i) (U "fltcond|M" i) (U "hybrid_motor.shaft_power_out" i)) in E2.
  pose proof (sol_rel G U _ S ltac:(sub 6%nat) i Hi) as E3. pose proof (sol_rel G U _ S ltac:(sub 7%nat) i Hi) as E4.
  cbv beta in E3, E4. rewrite multiple_value in E3, E4 by exact Hi. injection E3 as E3. injection E4 as E4.
  change (U "engine.thrust" i * 2 = U "thrust" i) in E3. change (U "engine.fuel_flow" i * 2 = U "fuel_flow" i) in E4.
  rewrite <- E3, <- E4, E1, E2, (proj1 (sa_motor i Hi)). unfold at_. split; ring.
Qed.
Lemma sa_loads i : (i < n)%nat ->
  U "motorfaultprot.elec_load" i = 5/1000 * motor_draw n U i /\
  U "elec_load" i = motor_draw n U i + 5/1000 * motor_draw n U i + U "refrig.elec_load" i
      + pump_draw (U "mdot_coolant_motor" i) (U "rho_coolant" i) (U "motor_hose.delta_p" i - U "hx_motor.delta_p_hot" i)
      + pump_draw (U "mdot_coolant_battery" i) (U "rho_coolant" i) (U "battery_hose.delta_p" i - U "hx_battery.delta_p_hot" i).
Proof.
  intro Hi. pose proof (sol_rel G U _ S ltac:(sub 9%nat) i Hi) as E1. cbv beta in E1. rewrite sum5 in E1 by exact Hi. injection E1 as E1.
  change (U "hybrid_motor.elec_load" i + U "refrig.elec_load" i + U "motorfaultprot.elec_load" i + U "battery_coolant_pump.elec_load" i + U "motor_coolant_pump.elec_load" i = U "elec_load" i) in E1.
  pose proof (sol_comp G U n "motor_coolant_pump" pump _ _ "elec_load" _ _ i S ltac:(sub 19%nat) eq_refl Hi) as E2.
  pose proof (sol_comp G U n "battery_coolant_pump" pump _ _ "elec_load" _ _ i S ltac:(sub 26%nat) eq_refl Hi) as E3.
  change (U "motor_coolant_pump.elec_load" i = U "mdot_coolant_motor" i / U "rho_coolant" i * U "pressure_drop_motor_loop" i / (35/100)) in E2.
  change (U "battery_coolant_pump.elec_load" i = U "mdot_coolant_battery" i / U "rho_coolant" i * U "pressure_drop_battery_loop" i / (35/100)) in E3.
  pose proof (sol_rel G U _ S ltac:(sub 20%nat) i Hi) as E4. cbv beta in E4. rewrite sum2 in E4 by exact Hi. injection E4 as E4.
  pose proof (sol_rel G U _ S ltac:(sub 27%nat) i Hi) as E5. cbv beta in E5. rewrite sum2 in E5 by exact Hi. injection E5 as E5.
  change (U "motor_hose.delta_p" i * 1 + U "hx_motor.delta_p_hot" i * - (1) = U "pressure_drop_motor_loop" i) in E4.
  change (U "battery_hose.delta_p" i * 1 + U "hx_battery.delta_p_hot" i * - (1) = U "pressure_drop_battery_loop" i) in E5.
  destruct (subgroup_in G U "motorfaultprot" _ _ _ S ltac:(sub 14%nat)) as (T & ST & SEE).
  pose proof (sol_rel _ T _ ST ltac:(sub 2%nat) i Hi) as E6. cbv beta in E6. rewrite multiple_value in E6 by exact Hi. injection E6 as E6.
  change (T "motor_power" i * (1 - 995/1000) = T "elec_load" i) in E6.
  rewrite (SEE "motor_power" "hybrid_motor.elec_load" i ltac:(vm_compute; reflexivity)), (SEE "elec_load" "motorfaultprot.elec_load" i ltac:(vm_compute; reflexivity)) in E6.
  destruct (sa_motor i Hi) as (_ & _ & E7 & _). rewrite E7 in E6, E1. assert (E8 : U "motorfaultprot.elec_load" i = 5/1000 * motor_draw n U i) by lra.
  split; [exact E8|]. rewrite <- E1, E8, E2, E3, <- E4, <- E5. unfold pump_draw, Rdiv. ring.
Qed.
Lemma sa_weigh i : (i < n)%nat -> U "weight" i = U "ac|design_mission|TOW" 0%nat - U "fuel_used" i.
Proof.
  intro Hi. pose proof (sol_rel G U _ S ltac:(sub 29%nat) i Hi) as E. revert E. cbv beta.
  unfold add_compute, add_resolve. cbn [as_ins as_sf as_vec as_len List.length repeat read_sizes Nat.eqb negb res_bind fst snd forallb].
  replace (list_max [1%nat; n]) with n by (change (n = Nat.max 1 (Nat.max n 0)); lia). rewrite fits_refl.
  cbn [fits Nat.eqb orb andb negb combine res_bind fold_left fst snd]. rewrite (bidx_row n i Hi). unfold bidx at 1. cbn [Nat.eqb]. rewrite Nat.mod_1_r. intro E. injection E as E.
  change (0 + U "ac|design_mission|TOW" 0%nat * 1 + U "fuel_used" i * - (1) = U "weight" i) in E. lra.
Qed.
Lemma sa_burn : evolves n (U "ode_integ.duration" 0%nat) (U "fuel_used_initial" 0%nat) (U "fuel_flow") (U "fuel_used") /\ U "fuel_used_final" 0%nat = U "fuel_used" (n - 1)%nat.
Proof. apply (burn G U n X "ode_integ" [P "fuel_used_initial"] [P "fuel_used"; P "fuel_used_final"]); try assumption; try (vm_compute; reflexivity). sub 0%nat. Qed.
Lemma sa_weights : U "OEW" 0%nat = U "ac|weights|OEW" 0%nat + 2 * parts_weight U /\
  U "margin" 0%nat = U "ac|design_mission|TOW" 0%nat - U "OEW" 0%nat - U "fuel_used" (n - 1)%nat - 2 * U "ac|propulsion|battery|weight" 0%nat.
Proof.
  pose proof (sol_rel G U _ S ltac:(sub 28%nat) 0%nat Nat.lt_0_1) as E1. pose proof (sol_rel G U _ S ltac:(sub 30%nat) 0%nat Nat.lt_0_1) as E2. cbv beta in E1, E2.
  rewrite sum4 in E2 by lia. injection E2 as E2.
  change (U "ac|design_mission|TOW" 0%nat * 1 + U "OEW" 0%nat * - (1) + U "fuel_used_final" 0%nat * - (1) + U "ac|propulsion|battery|weight" 0%nat * - (2) = U "margin" 0%nat) in E2.
  rewrite (proj2 sa_burn) in E2. split; [|lra]. revert E1. unfold add_compute, weighted_sys, add_resolve.
  cbn [map fst snd as_ins as_sf as_vec as_len List.length repeat read_sizes Nat.eqb negb res_bind forallb]. rewrite fits_refl. cbn [andb negb combine res_bind fold_left fst snd].
  rewrite bidx_row by lia. intro E1. injection E1 as E1.
  change (0 + U "refrig.component_weight" 0%nat * 2 + U "hx_motor.component_weight" 0%nat * 2 + U "hx_battery.component_weight" 0%nat * 2 + U "battery_hose.component_weight" 0%nat * 2 +
    U "battery_coolant_pump.component_weight" 0%nat * 2 + U "motor_hose.component_weight" 0%nat * 2 + U "motor_coolant_pump.component_weight" 0%nat * 2 +
    U "hx_fault_prot.component_weight" 0%nat * 2 + U "hybrid_motor.component_weight" 0%nat * 2 + U "ac|weights|OEW" 0%nat * 1 = U "OEW" 0%nat) in E1.
  unfold parts_weight, side_parts. cbn [fold_right String.append]. lra.
Qed.
Lemma sa_polar i : (i < n)%nat ->
  U "drag" i = parabolic_drag (U "fltcond|q" i) (U "ac|geom|wing|S_ref" 0%nat) (U (cd0_source p) 0%nat) (U "ac|aero|polar|e" 0%nat) (U "ac|geom|wing|AR" 0%nat) (U "fltcond|CL" i)
    - 2 * (U "motor_duct.force.F_net" i + U "variable_duct.force.F_net" i).
Proof.
  intro Hi. pose proof (sol_rel G U _ S ltac:(sub 2%nat) i Hi) as E1. cbv beta in E1. rewrite sum3 in E1 by exact Hi. injection E1 as E1.
  change (U "airframe_drag.drag" i * 1 + U "variable_duct.force.F_net" i * - (2) + U "motor_duct.force.F_net" i * - (2) = U "drag" i) in E1.
  assert (E2 : U "airframe_drag.drag" i = parabolic_drag (U "fltcond|q" i) (U "ac|geom|wing|S_ref" 0%nat) (U (cd0_source p) 0%nat) (U "ac|aero|polar|e" 0%nat) (U "ac|geom|wing|AR" 0%nat) (U "fltcond|CL" i)).
  { pose proof (sol_comp G U n "airframe_drag" (PolarDrag false) _ _ "drag" _ _ i S ltac:(sub 1%nat) eq_refl Hi) as E.
    revert E. unfold cd0_source. destruct (in_list p _); intro E; (eapply eq_trans; [exact E|]); unfold node; cbn [PolarDrag pc_ins assoc String.eqb Ascii.eqb Bool.eqb]; unfold parabolic_drag, Rdiv; rewrite !Rinv_mult.
    - change (U "fltcond|q" i * U "ac|geom|wing|S_ref" 0%nat * (U "ac|aero|polar|CD0_TO" 0%nat + U "fltcond|CL" i ^ 2 * / PI * / U "ac|aero|polar|e" 0%nat * / U "ac|geom|wing|AR" 0%nat) = U "fltcond|q" i * U "ac|geom|wing|S_ref" 0%nat * (U "ac|aero|polar|CD0_TO" 0%nat + U "fltcond|CL" i ^ 2 * (/ PI * / U "ac|aero|polar|e" 0%nat * / U "ac|geom|wing|AR" 0%nat))). ring.
    - change (U "fltcond|q" i * U "ac|geom|wing|S_ref" 0%nat * (U "ac|aero|polar|CD0_cruise" 0%nat + U "fltcond|CL" i ^ 2 * / PI * / U "ac|aero|polar|e" 0%nat * / U "ac|geom|wing|AR" 0%nat) = U "fltcond|q" i * U "ac|geom|wing|S_ref" 0%nat * (U "ac|aero|polar|CD0_cruise" 0%nat + U "fltcond|CL" i ^ 2 * (/ PI * / U "ac|aero|polar|e" 0%nat * / U "ac|geom|wing|AR" 0%nat))). ring. }
  rewrite E2 in E1. lra.
Qed.
(** What has flowed at the rate [f], over the duration [d]. *)
Let through (d : string) (f : nat -> R) (i : nat) : R := U d 0%nat / INR (n - 1) * area f i.
Let N0 : INR (n - 1) <> 0. Proof. destruct MS; apply not_0_INR; lia. Qed.
Lemma sa_battery : side_capacity U <> 0 ->
  (forall i, (i < n)%nat -> side_capacity U * U "battery.SOC" i = side_capacity U * U "battery.SOC_initial" 0%nat - through "battery.duration" (U "elec_load") i).
Proof.
  intros HC i Hi. destruct (battery_in G U n tri (95/100) "battery" _ _ S ltac:(sub 8%nat)) as (F1 & F2 & _).
  specialize (F2 i Hi). cbv beta in F2.
  change (U "battery.SOC" i = integ_q n tri (TDuration (U "battery.duration" 0%nat)) false (U "battery.SOC_initial" 0%nat) (U "battery.dSOCdt") i) in F2.
  rewrite F2, integ_area by auto. cbn [start_value]. 
  rewrite (area_ext n (U "battery.dSOCdt") (fun j => - / side_capacity U * U "elec_load" j) i MS); [|intros j Hj|exact Hi].
  - rewrite area_scale. unfold through. field. auto.
  - destruct (F1 j Hj) as (_ & E & _). cbv beta in E.
    change (U "battery.dSOCdt" j = - (U "elec_load" j / side_capacity U)) in E. rewrite E. unfold Rdiv. ring.
Qed.
Lemma sa_battery_end : U "battery.SOC_final" 0%nat = U "battery.SOC" (n - 1)%nat.
Proof.
  destruct (battery_in G U n tri (95/100) "battery" _ _ S ltac:(sub 8%nat)) as (_ & F2 & F3). specialize (F2 (n - 1)%nat ltac:(lia)).
  etransitivity; [exact F3|]. symmetry. exact F2.
Qed.
Lemma sa_battery_heat i : (i < n)%nat -> U "battery.heat_out" i = 5/100 * U "elec_load" i.
Proof.
  intro Hi. destruct (battery_in G U n tri (95/100) "battery" _ _ S ltac:(sub 8%nat)) as (F1 & _). destruct (F1 i Hi) as (E & _).
  change (U "battery.heat_out" i = U "elec_load" i * (1 - 95/100)) in E. lra.
Qed.
(** ** Heat *)
Lemma stores T d T0 dT m q i : m <> 0 ->
  (forall j, (j < n)%nat -> U T j = integ_q n tri (TDuration (U d 0%nat)) false (U T0 0%nat) (U dT) j) ->
  (forall j, (j < n)%nat -> m * U dT j = q j) -> (i < n)%nat -> m * (U T i - U T0 0%nat) = through d q i.
Proof.
  intros Hm HI HD Hi. rewrite (HI i Hi), integ_area by auto. cbn [start_value]. unfold through.
  rewrite (area_ext n q (fun j => m * U dT j) i MS); [|intros j Hj; symmetry; auto|exact Hi]. rewrite area_scale. ring.
Qed.
Lemma sa_motor_heat i : U "ac|propulsion|motor|rating" 0%nat <> 0 -> (forall j, (j < n)%nat -> 0 < U "mdot_coolant_motor" j) -> (i < n)%nat ->
  U "ac|propulsion|motor|rating" 0%nat / 5000 * 921 * (U "motorheatsink.T" i - U "motorheatsink.T_initial" 0%nat) =
  through "motorheatsink.duration" (fun j => 5/100 * motor_draw n U j - U "mdot_coolant_motor" j * 3801 * (U "motorheatsink.T_out" j - U "hx_motor.T_out_hot" j)) i.
Proof.
  intros Hr Hm Hi. destruct (subgroup_in G U "motorheatsink" _ _ _ S ltac:(sub 13%nat)) as (T & ST & SEE).
  assert (EQ : forall x y, sub_sees G "motorheatsink" (cooled_motor n tri) [As "power_rating" "ac|propulsion|motor|rating"] [] x y = true -> T x = U y) by (intros x y Hx; extensionality j; now apply SEE).
  apply (stores "motorheatsink.T" "motorheatsink.duration" "motorheatsink.T_initial" "motorheatsink.dTdt"); [| | |exact Hi].
  - intro Z. apply Hr. lra.
  - intros j Hj. destruct (sol_rel _ T _ ST ltac:(right; left; reflexivity)) as [E _]. specialize (E j Hj).
    change (T "T" j = integ_q n tri (TDuration (T "duration" 0%nat)) false (T "T_initial" 0%nat) (T "dTdt") j) in E.
    rewrite (EQ "T" "motorheatsink.T" ltac:(vm_compute; reflexivity)), (EQ "duration" "motorheatsink.duration" ltac:(vm_compute; reflexivity)),
      (EQ "T_initial" "motorheatsink.T_initial" ltac:(vm_compute; reflexivity)), (EQ "dTdt" "motorheatsink.dTdt" ltac:(vm_compute; reflexivity)) in E. exact E.
  - intros j Hj. specialize (Hm j Hj). destruct (sa_motor j Hj) as (_ & QH & _ & MW).
    pose proof (sol_comp _ T n "hex" _ _ _ "dTdt" _ _ j ST ltac:(left; reflexivity) eq_refl Hj) as B.
    pose proof (sol_comp _ T n "hex" _ _ _ "T_out" _ _ j ST ltac:(left; reflexivity) eq_refl Hj) as C.
    set (q := (T "T" j - T "T_in" j) * (1 - exp (- (2100 / 650000 * T "power_rating" 0%nat / T "mdot_coolant" j / c_coolant))) * T "mdot_coolant" j * c_coolant).
    change (T "dTdt" j = (T "q_in" j - q) / T "motor_weight" 0%nat / 921) in B. change (T "T_out" j = T "T_in" j + q / T "mdot_coolant" j / c_coolant) in C. clearbody q.
    rewrite (EQ "dTdt" "motorheatsink.dTdt" ltac:(vm_compute; reflexivity)), (EQ "q_in" "hybrid_motor.heat_out" ltac:(vm_compute; reflexivity)),
      (EQ "motor_weight" "hybrid_motor.component_weight" ltac:(vm_compute; reflexivity)) in B.
    rewrite (EQ "T_out" "motorheatsink.T_out" ltac:(vm_compute; reflexivity)), (EQ "T_in" "hx_motor.T_out_hot" ltac:(vm_compute; reflexivity)),
      (EQ "mdot_coolant" "mdot_coolant_motor" ltac:(vm_compute; reflexivity)) in C.
    rewrite B, C, QH, MW. unfold c_coolant. field. split; lra.
Qed.
Lemma sa_fault i : (i < n)%nat -> 0 < U "mdot_coolant_fault_prot" i ->
  U "mdot_coolant_fault_prot" i * 3801 * (U "motorfaultprot.T_out" i - U "hx_fault_prot.T_out_hot" i) = 5/1000 * motor_draw n U i /\
  U "motorfaultprot.heat_transfer" i = U "hx_motor.heat_transfer" i + U "hx_fault_prot.heat_transfer" i.
Proof.
  intros Hi Hm. destruct (subgroup_in G U "motorfaultprot" _ _ _ S ltac:(sub 14%nat)) as (T & ST & SEE).
  pose proof (sol_comp _ T n "coolant_temps" _ _ _ "T_out" _ _ i ST ltac:(sub 1%nat) eq_refl Hi) as C.
  change (T "T_out" i = T "T_in" i + T "elec_load" i / c_coolant / T "mdot_coolant" i) in C.
  pose proof (sol_rel _ T _ ST ltac:(sub 4%nat) i Hi) as E. cbv beta in E. rewrite add2 in E by exact Hi. injection E as E.
  change (T "heat_transfer_motor_hx" i + T "heat_transfer_fault_prot_hx" i = T "heat_transfer" i) in E.
  rewrite (SEE "T_out" "motorfaultprot.T_out" i ltac:(vm_compute; reflexivity)), (SEE "T_in" "hx_fault_prot.T_out_hot" i ltac:(vm_compute; reflexivity)),
    (SEE "elec_load" "motorfaultprot.elec_load" i ltac:(vm_compute; reflexivity)), (SEE "mdot_coolant" "mdot_coolant_fault_prot" i ltac:(vm_compute; reflexivity)) in C.
  rewrite (SEE "heat_transfer_motor_hx" "hx_motor.heat_transfer" i ltac:(vm_compute; reflexivity)), (SEE "heat_transfer_fault_prot_hx" "hx_fault_prot.heat_transfer" i ltac:(vm_compute; reflexivity)),
    (SEE "heat_transfer" "motorfaultprot.heat_transfer" i ltac:(vm_compute; reflexivity)) in E.
  rewrite (proj1 (sa_loads i Hi)) in C. split; [|now rewrite E]. rewrite C. unfold c_coolant. field. lra.
Qed.
Lemma sa_pumped i : (i < n)%nat -> 0 < U "mdot_coolant_battery" i ->
  U "mdot_coolant_battery" i * 3801 * ((U "refrig.T_out_hot" i + U "refrig.T_out_cold" i) - (U "hx_battery.T_out_hot" i + U "batteryheatsink.T_out" i)) = 95/100 * U "refrig.elec_load" i /\
  U "refrig.elec_load" i = (1 - ramp n (U "refrig.control.bypass_start" 0%nat) (U "refrig.control.bypass_end" 0%nat) i) *
      (U "ac|propulsion|thermal|heatpump|power_rating" 0%nat / (95/100)).
Proof.
  intros Hi Hm. destruct (subgroup_in G U "refrig" _ _ _ S ltac:(sub 23%nat)) as (T & ST & SEE).
  assert (Hc : c_coolant <> 0) by (unfold c_coolant; lra).
  assert (EM : T "mdot_coolant" i = U "mdot_coolant_battery" i) by (apply SEE; vm_compute; reflexivity).
  assert (HM : T "mdot_coolant" i <> 0) by lra.
  destruct (C49_first_law n false c_coolant T i Hi Hc HM ST) as [F _]. destruct (C49_bypass n false c_coolant T i Hi Hc HM ST) as [B _].
  rewrite (C49_bypass_schedule n c_coolant T i ltac:(lia) Hi ST) in B. rewrite EM in F.
  rewrite (SEE "T_out_hot" "refrig.T_out_hot" i ltac:(vm_compute; reflexivity)), (SEE "T_out_cold" "refrig.T_out_cold" i ltac:(vm_compute; reflexivity)),
    (SEE "T_in_hot" "hx_battery.T_out_hot" i ltac:(vm_compute; reflexivity)), (SEE "T_in_cold" "batteryheatsink.T_out" i ltac:(vm_compute; reflexivity)) in F.
  rewrite (SEE "elec_load" "refrig.elec_load" i ltac:(vm_compute; reflexivity)) in F, B.
  rewrite (SEE "control.bypass_start" "refrig.control.bypass_start" 0%nat ltac:(vm_compute; reflexivity)), (SEE "control.bypass_end" "refrig.control.bypass_end" 0%nat ltac:(vm_compute; reflexivity)),
    (SEE "power_rating" "ac|propulsion|thermal|heatpump|power_rating" 0%nat ltac:(vm_compute; reflexivity)) in B.
  split; [exact F|]. rewrite B. unfold ramp. ring.
Qed.
Lemma sa_battery_sink i : 0 < U "ac|propulsion|battery|weight" 0%nat -> (forall j, (j < n)%nat -> 0 < U "mdot_coolant_battery" j) -> (i < n)%nat ->
  U "ac|propulsion|battery|weight" 0%nat * (65/100) * 875 * (U "batteryheatsink.T" i - U "batteryheatsink.T_initial" 0%nat) =
  through "batteryheatsink.duration" (fun j => 5/100 * U "elec_load" j - U "mdot_coolant_battery" j * 3801 * (U "batteryheatsink.T_out" j - U "refrig.T_out_cold" j)) i.
Proof.
  intros Hw Hm Hi. destruct (subgroup_in G U "batteryheatsink" _ _ _ S ltac:(sub 21%nat)) as (T & ST & SEE).
  assert (EQ : forall x y, sub_sees G "batteryheatsink" (LiquidCooledBattery n tri false default_cell) [As "battery_weight" "ac|propulsion|battery|weight"] [] x y = true -> T x = U y) by (intros x y Hx; extensionality j; now apply SEE).
  apply (stores "batteryheatsink.T" "batteryheatsink.duration" "batteryheatsink.T_initial" "batteryheatsink.dTdt"); [| | |exact Hi].
  - lra.
  - intros j Hj. destruct (sol_rel _ T _ ST ltac:(right; left; reflexivity)) as [E _]. specialize (E j Hj).
    change (T "T" j = integ_q n tri (TDuration (T "duration" 0%nat)) false (T "T_initial" 0%nat) (T "dTdt") j) in E.
    rewrite (EQ "T" "batteryheatsink.T" ltac:(vm_compute; reflexivity)), (EQ "duration" "batteryheatsink.duration" ltac:(vm_compute; reflexivity)),
      (EQ "T_initial" "batteryheatsink.T_initial" ltac:(vm_compute; reflexivity)), (EQ "dTdt" "batteryheatsink.dTdt" ltac:(vm_compute; reflexivity)) in E. exact E.
  - intros j Hj. specialize (Hm j Hj). pose proof (sa_battery_heat j Hj) as QH.
    pose proof (sol_comp _ T n "hex" _ _ _ "dTdt" _ _ j ST ltac:(left; reflexivity) eq_refl Hj) as B.
    pose proof (sol_comp _ T n "hex" _ _ _ "T_out" _ _ j ST ltac:(left; reflexivity) eq_refl Hj) as C.
    set (k := k_cell default_cell (T "battery_weight" 0%nat) (T "n_cpb" 0%nat) (T "t_channel" 0%nat) (T "mdot_coolant" j)) in *.
    set (ts := (k_cyl default_cell * T "T" j + k * T "T_in" j) / (k_cyl default_cell + k)).
    change (T "dTdt" j = (T "q_in" j / n_cells default_cell (T "battery_weight" 0%nat) - (ts - T "T_in" j) * k) / (70/1000) / 875) in B.
    change (T "T_out" j = T "T_in" j + (ts - T "T_in" j) * k * n_cells default_cell (T "battery_weight" 0%nat) / T "mdot_coolant" j / 3801) in C.
    clearbody ts k. unfold n_cells in B, C. change (wfrac default_cell) with (65/100) in B, C. change (mc default_cell) with (70/1000) in B, C.
    rewrite (EQ "dTdt" "batteryheatsink.dTdt" ltac:(vm_compute; reflexivity)), (EQ "q_in" "battery.heat_out" ltac:(vm_compute; reflexivity)) in B.
    rewrite (EQ "battery_weight" "ac|propulsion|battery|weight" ltac:(vm_compute; reflexivity)) in B, C. rewrite (EQ "T_in" "refrig.T_out_cold" ltac:(vm_compute; reflexivity)) in B, C.
    rewrite (EQ "T_out" "batteryheatsink.T_out" ltac:(vm_compute; reflexivity)), (EQ "mdot_coolant" "mdot_coolant_battery" ltac:(vm_compute; reflexivity)) in C.
    rewrite B, C, QH. field. split; lra.
Qed.
Lemma sa_warm s h k' pin : In (subgroup s h pin []) (g_subs G) -> nth_error (g_subs h) k' = Some (integrator n tri "ode_integ" "T" "dTdt" "T_initial" "T_final" [P "*"] [P "*"]) ->
  source h "duration" = "duration" -> source h "T_initial" = "T_initial" -> source h "dTdt" = "dTdt" ->
  forallb (fun x => sub_sees G s h pin [] x (String.append s (String.append "." x))) ["T"; "T_initial"; "T_final"] = true ->
  U (String.append s ".T") 0%nat = U (String.append s ".T_initial") 0%nat /\ U (String.append s ".T_final") 0%nat = U (String.append s ".T") (n - 1)%nat.
Proof.
  intros I K D1 D2 D3 F. destruct (subgroup_in G U s _ _ _ S I) as (T & ST & SEE). rewrite forallb_forall in F.
  apply nth_error_In in K. destruct (sol_rel _ T _ ST K) as [E1 E2].
  assert (E1' : forall i, (i < n)%nat -> T "T" i = integ_q n tri (TDuration (T "duration" 0%nat)) false (T "T_initial" 0%nat) (T "dTdt") i).
  { intros i Hi. specialize (E1 i Hi). unfold reads, writes in E1. cbn [integrator gs_name gs_pin gs_pout] in E1.
    change (T "T" i = integ_q n tri (TDuration (T (source h "duration") 0%nat)) false (T (source h "T_initial") 0%nat) (T (source h "dTdt")) i) in E1. now rewrite D1, D2, D3 in E1. }
  assert (E2' : T "T_final" 0%nat = integ_q_final n tri (TDuration (T "duration" 0%nat)) false (T "T_initial" 0%nat) (T "dTdt")).
  { change (T "T_final" 0%nat = integ_q_final n tri (TDuration (T (source h "duration") 0%nat)) false (T (source h "T_initial") 0%nat) (T (source h "dTdt"))) in E2. now rewrite D1, D2, D3 in E2. }
  pose proof (E1' 0%nat ltac:(lia)) as A0. pose proof (E1' (n - 1)%nat ltac:(lia)) as A1. rewrite integ_area in A0 by (auto; lia). rewrite integ_area in A1 by (auto; lia). rewrite integ_final_area in E2' by auto.
  cbn [start_value area] in A0. rewrite <- A1 in E2'.
  rewrite <- !(SEE "T" (String.append s ".T") _ (F "T" ltac:(cbn; tauto))), <- (SEE "T_initial" (String.append s ".T_initial") _ (F "T_initial" ltac:(cbn; tauto))),
    <- (SEE "T_final" (String.append s ".T_final") _ (F "T_final" ltac:(cbn; tauto))).
  split; [rewrite A0; ring|exact E2'].
Qed.
Lemma sa_duct d (cfg : R) pin q i : In (subgroup d (ImplicitCompressibleDuct_ExternalHX n cfg) pin []) (g_subs G) ->
  forallb (fun c => sub_sees G d (ImplicitCompressibleDuct_ExternalHX n cfg) pin [] (fst c) (snd c))
    (("sta3.heat_in", q) :: map (fun x => (x, String.append d (String.append "." x))) ["cp"; "mdot"; "sta3.Tt_out"; "inlet.Tt"; "heat_in_1"; "heat_in_2"]) = true ->
  U (String.append d ".cp") 0%nat <> 0 -> (i < n)%nat ->
  U (String.append d ".cp") 0%nat * U (String.append d ".mdot") i * (U (String.append d ".sta3.Tt_out") i - U (String.append d ".inlet.Tt") i) =
  U (String.append d ".heat_in_1") i + U (String.append d ".heat_in_2") i + U q i.
Proof.
  intros I F Hc Hi. destruct (subgroup_in G U d _ _ _ S I) as (T & ST & SEE). rewrite forallb_forall in F. cbn [map In fst snd] in F.
  assert (EQ : forall x y j, In (x, y) (("sta3.heat_in", q) :: map (fun x => (x, String.append d (String.append "." x))) ["cp"; "mdot"; "sta3.Tt_out"; "inlet.Tt"; "heat_in_1"; "heat_in_2"]) -> T x j = U y j) by (intros x y j Hx; apply SEE; exact (F (x, y) Hx)).
  cbn [map] in EQ. cbn [String.append] in EQ.
  pose proof (EQ "cp" _ 0%nat ltac:(insub)) as E0. rewrite <- E0 in Hc. destruct (C59_conservation n cfg T i Hi Hc) as [_ K]. destruct (K ST) as [E _]. clear K.
  rewrite E0, (EQ "mdot" _ i ltac:(insub)), (EQ "sta3.Tt_out" _ i ltac:(insub)), (EQ "inlet.Tt" _ i ltac:(insub)), (EQ "heat_in_1" _ i ltac:(insub)), (EQ "heat_in_2" _ i ltac:(insub)), (EQ "sta3.heat_in" _ i ltac:(insub)) in E.
  exact E.
Qed.
End Aisle.
