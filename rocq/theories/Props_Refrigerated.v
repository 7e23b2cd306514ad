(** C65 on converged states, the refrigerated twin hybrid: with the refrigerator running
    it has a steady state, so the hypotheses of its energy account are met. *)
From Coq Require Import Reals List Bool PeanoNat String Lia Lra.
From Coquelicot Require Import Coquelicot.
From Verif Require Import Base Py RSum Spec_Integrals Spec_HX Spec_Ducts Spec_Systems Model_Algebra Model_Vectors Model_Integrals Model_Atmos Model_Propulsion Model_Net Model_Thermal
  Model_HX Model_Ducts Model_HeatPipe Model_Systems Proofs_Net Proofs_Cs Proofs_Integrals Proofs_Thermal Proofs_HX Proofs_Ducts Proofs_Systems Proofs_Exec
  Props_Integrals Props_Thermal Props_HX Props_Ducts Props_Systems Props_SystemRuns Props_Cooling Props_CoolingRuns.
Import ListNotations.
Open Scope R_scope.
Open Scope string_scope.
Open Scope list_scope.


(** A heat pump that is not bypassed. *)
Lemma heat_pump_on nn name pin pout (I O : env) k Th Tc : (forall x, In x ["control.bypass_start"; "control.bypass_end"; "bypass"] -> forall j, O x j = 0) ->
  Some k = cop Tc Th (I "eff_factor" 0%nat) ->
  (O "component_weight" 0%nat = I "power_rating" 0%nat / I "specific_power" 0%nat /\ forall i, (i < nn)%nat -> I "mdot_coolant" i <> 0 /\ O "COP" i = k /\
   O "heat_pump.q_in_1" i = - k * I "power_rating" 0%nat /\ O "heat_pump.q_in_2" i = (k + 1) * I "power_rating" 0%nat /\
   O "hot_side.T_out" i = Th /\ O "cold_side.T_out" i = Tc /\ O "hot_side.T_average" i = (I "T_in_hot" i + Th) / 2 /\ O "cold_side.T_average" i = (I "T_in_cold" i + Tc) / 2 /\
   O "elec_load" i = I "power_rating" 0%nat / (95/100) /\ O "T_out_cold" i = Tc /\ O "T_out_hot" i = Th /\
   I "T_in_hot" i + (k + 1) * I "power_rating" 0%nat / 3801 / I "mdot_coolant" i = Th /\ I "T_in_cold" i - k * I "power_rating" 0%nat / 3801 / I "mdot_coolant" i = Tc) ->
  gs_rel (subgroup name (HeatPump nn false c_coolant) pin pout) I O.
Proof.
  intros HB HK [HW H]. set (g := HeatPump nn false c_coolant). set (W := fun x i => if mem x (group_outs g) then O x i else I x i).
  exists W. split; [|split].
  - intros s Hs. unfold g, HeatPump in Hs. cbn [g_subs app In] in Hs. destruct Hs as [<-|[<-|[<-|[<-|[<-|[<-|[<-|[<-|[]]]]]]]]].
    + exact Logic.I.
    + intros i Hi. change (O "bypass" i = lin_compute nn (O "control.bypass_start" 0%nat) (O "control.bypass_end" 0%nat) i).
      rewrite !HB by (cbn; tauto). unfold lin_compute, linspace. destruct (Nat.eqb nn 1), (Nat.eqb i (nn - 1)); try reflexivity; unfold Rdiv; ring.
    + intros o kk f i A Hi. apply assoc_In in A. unfold HeatPumpWeight in A. cbn [pc_outs In] in A. each_in A. cbn [size] in Hi. assert (i = 0)%nat by lia. subst i. exact HW.
    + intros o kk f i A Hi. apply assoc_In in A. unfold PerfectHeatTransferComp in A. cbn [pc_outs In] in A.
      assert (Hi' : (i < nn)%nat) by (destruct A as [A|[A|[]]]; injection A as <- <- <-; exact Hi). each_in A; destruct (H i Hi') as (N&E1&E2&E3&E4&E5&E6&E7&E8&E9&E10&E11&E12).
      * change (O "hot_side.T_out" i = I "T_in_hot" i + O "heat_pump.q_in_2" i / 3801 / I "mdot_coolant" i). rewrite E4, E3. now symmetry.
      * change (O "hot_side.T_average" i = (I "T_in_hot" i + (I "T_in_hot" i + O "heat_pump.q_in_2" i / 3801 / I "mdot_coolant" i)) / 2). now rewrite E6, E3, E11.
    + intros o kk f i A Hi. apply assoc_In in A. unfold PerfectHeatTransferComp in A. cbn [pc_outs In] in A.
      assert (Hi' : (i < nn)%nat) by (destruct A as [A|[A|[]]]; injection A as <- <- <-; exact Hi). each_in A; destruct (H i Hi') as (N&E1&E2&E3&E4&E5&E6&E7&E8&E9&E10&E11&E12);
      assert (E13 : I "T_in_cold" i + - k * I "power_rating" 0%nat / 3801 / I "mdot_coolant" i = Tc) by (rewrite <- E12; field; exact N).
      * change (O "cold_side.T_out" i = I "T_in_cold" i + O "heat_pump.q_in_1" i / 3801 / I "mdot_coolant" i). now rewrite E5, E2, E13.
      * change (O "cold_side.T_average" i = (I "T_in_cold" i + (I "T_in_cold" i + O "heat_pump.q_in_1" i / 3801 / I "mdot_coolant" i)) / 2). now rewrite E7, E2, E13.
    + intros i Hi. destruct (H i Hi) as (N&E1&E2&E3&E4&E5&_). change (Some (O "COP" i) = cop (O "cold_side.T_out" i) (O "hot_side.T_out" i) (I "eff_factor" 0%nat)). now rewrite E1, E4, E5.
    + intros o kk f i A Hi. apply assoc_In in A. unfold COPHeatPump in A. cbn [pc_outs In] in A.
      assert (Hi' : (i < nn)%nat) by (destruct A as [A|[A|[]]]; injection A as <- <- <-; exact Hi). each_in A; destruct (H i Hi') as (N&E1&E2&E3&_).
      * change (O "heat_pump.q_in_1" i = - O "COP" i * I "power_rating" 0%nat). now rewrite E1, E2.
      * change (O "heat_pump.q_in_2" i = (O "COP" i + 1) * I "power_rating" 0%nat). now rewrite E1, E3.
    + intros o kk f i A Hi. apply assoc_In in A. unfold LinearSelector in A. cbn [pc_outs In] in A.
      assert (Hi' : (i < nn)%nat) by (destruct A as [A|[A|[A|[]]]]; injection A as <- <- <-; exact Hi). each_in A; destruct (H i Hi') as (N&E1&E2&E3&E4&E5&E6&E7&E8&E9&E10&_);
      assert (Bi : O "bypass" i = 0) by (apply HB; cbn; tauto).
      * change (O "elec_load" i = (1 - O "bypass" i) * I "power_rating" 0%nat / (95/100)). rewrite Bi, E8. field.
      * change (O "T_out_cold" i = O "bypass" i * I "T_in_hot" i + (1 - O "bypass" i) * O "cold_side.T_out" i). rewrite Bi, E9, E5. ring.
      * change (O "T_out_hot" i = O "bypass" i * I "T_in_cold" i + (1 - O "bypass" i) * O "hot_side.T_out" i). rewrite Bi, E10, E4. ring.
  - intros x i Hx. unfold W. assert (D : disjoint (free_ins g) (group_outs g) = true) by reflexivity. pose proof (disjoint_spec _ _ _ D Hx) as N.
    destruct (mem x (group_outs g)) eqn:E; [|reflexivity]. apply mem_In in E. contradiction.
  - intros o i Ho. unfold W. apply mem_In in Ho. now rewrite Ho.
Qed.
(** The coefficient of performance is positive for a cold side above absolute zero. *)
Lemma cop_positive Tc Th eff : 0 < Tc -> Tc < Th -> 0 <= eff -> 0 < soft10 (cop_a Tc Th eff).
Proof.
  intros H1 H2 H3. assert (A : 0 < cop_a Tc Th eff).
  { unfold cop_a. cbv zeta. assert (T : 0 < tanh (Th - Tc)).
    { unfold tanh. apply Rdiv_lt_0_compat; [|apply cosh_pos]. rewrite <- sinh_0. apply sinh_lt. lra. }
    assert (T2 : -1 < tanh (- (Th - Tc + 3))).
    { unfold tanh. set (x := - (Th - Tc + 3)). assert (C : 0 < cosh x) by apply cosh_pos. apply (Rmult_lt_reg_r (cosh x)); [exact C|].
      unfold Rdiv. rewrite Rmult_assoc, Rinv_l by lra. unfold sinh, cosh. pose proof (exp_pos x). pose proof (exp_pos (- x)). lra. }
    assert (0 <= Tc / (Th - Tc) * tanh (Th - Tc) * eff) by (apply Rmult_le_pos; [left; apply Rmult_lt_0_compat; [apply Rdiv_lt_0_compat; lra|exact T]|exact H3]). lra. }
  unfold soft10. set (a := cop_a Tc Th eff) in *. pose proof (exp_pos (- (15/10) * a)). pose proof (exp_pos (- (15/10) * 10)).
  apply Rdiv_lt_0_compat; [apply Rplus_lt_0_compat; apply Rmult_lt_0_compat; lra|lra].
Qed.

(** ** C65: the twin hybrid with a refrigerator runs steadily *)
Definition refrigerated_inputs : list string :=
  ["duct.mdot"; "mdot_coolant"; "rho_coolant"; "fltcond|rho"; "fltcond|T"; "refrig.T_out_hot"; "refrig.T_out_cold"; "duration"; "propulsor_active"; "hybrid_split.power_split_fraction";
   "ac|propulsion|motor|rating"; "ac|propulsion|engine|rating"; "ac|propulsion|generator|rating"; "ac|weights|W_battery"; "ac|propulsion|propeller|diameter";
   "ac|propulsion|thermal|refrig|specific_power"; "ac|propulsion|thermal|refrig|eff";
   "ac|propulsion|battery|specific_energy"; "ac|propulsion|thermal|hx|coolant_mass"; "ac|propulsion|thermal|hx|channel_width"; "ac|propulsion|thermal|hx|channel_height";
   "ac|propulsion|thermal|hx|channel_length"; "ac|propulsion|thermal|hx|n_parallel";
   "ac|propulsion|thermal|hx|n_wide_cold"; "ac|propulsion|thermal|hx|n_long_cold"; "ac|propulsion|thermal|hx|n_tall";
   "hx.channel_width_hot"; "hx.channel_height_hot"; "hx.fin_length_hot"; "hx.channel_width_cold"; "hx.channel_height_cold"; "hx.fin_length_cold";
   "hx.fin_thickness"; "hx.plate_thickness"; "hx.case_thickness"; "hx.material_rho"; "hx.material_k";
   "hx.mu_cold"; "hx.mu_hot"; "hx.k_cold"; "hx.k_hot"; "hx.cp_cold"; "hx.cp_hot"].
Definition refrigerated_base (H V0 : env) (thr eth U area drag Tb Tm Ti Ts Tr Rc k Pr Qb Qm : R) : env := fun x i =>
  if String.eqb x "throttle" then thr
  else if String.eqb x "eng_throttle_set.eng_throttle" then eth
  else if String.eqb x "fltcond|Utrue" then U
  else if String.eqb x "duct.area_nozzle" then area
  else if String.eqb x "duct.drag" then drag
  else if String.eqb x "ac|propulsion|thermal|hx|mdot_coolant" then V0 "mdot_coolant" 0%nat
  else if String.eqb x "ac|propulsion|thermal|refrig|rating" then Pr
  else if mem x ["batteryheatsink.T"; "batteryheatsink.T_initial"; "batteryheatsink.T_final"] then Tb
  else if mem x ["motorheatsink.T"; "motorheatsink.T_initial"; "motorheatsink.T_final"] then Ts
  else if mem x ["motorheatsink.base.dTdt"; "batteryheatsink.base.dTdt"; "refrig.control.bypass_start"; "refrig.control.bypass_end"; "refrig.bypass"] then 0
  else if String.eqb x "batteryheatsink.hex.q" then Qb
  else if String.eqb x "batteryheatsink.T_out" then Tm
  else if String.eqb x "motorheatsink.hex.q" then Qm
  else if String.eqb x "motorheatsink.T_out" then Ti
  else if String.eqb x "refrig.component_weight" then Pr / V0 "ac|propulsion|thermal|refrig|specific_power" 0%nat
  else if String.eqb x "refrig.COP" then k
  else if String.eqb x "refrig.heat_pump.q_in_1" then - k * Pr
  else if String.eqb x "refrig.heat_pump.q_in_2" then (k + 1) * Pr
  else if String.eqb x "refrig.elec_load" then Pr / (95/100)
  else if String.eqb x "refrig.hot_side.T_out" then V0 "refrig.T_out_hot" 0%nat
  else if String.eqb x "refrig.hot_side.T_average" then (Tr + V0 "refrig.T_out_hot" 0%nat) / 2
  else if String.eqb x "refrig.cold_side.T_out" then Rc
  else if String.eqb x "refrig.cold_side.T_average" then (Ti + Rc) / 2
  else if String.prefix "hx." x then H (String.substring 3 (String.length x) x) 0%nat
  else V0 x 0%nat.
Theorem C65_twin_refrigerated_steady M nn tri V0 : (0 < nn)%nat ->
  hx_positive 1 (fun x _ => V0 (hx_in_system "" "refrig.T_out_hot" x) 0%nat) -> V0 "hx.cp_hot" 0%nat = 3801 ->
  V0 "fltcond|T" 0%nat < V0 "refrig.T_out_hot" 0%nat -> 0 < V0 "ac|propulsion|motor|rating" 0%nat -> 0 < V0 "ac|propulsion|engine|rating" 0%nat ->
  0 <= V0 "propulsor_active" 0%nat -> 0 < V0 "hybrid_split.power_split_fraction" 0%nat <= 1 ->
  V0 "refrig.T_out_cold" 0%nat < V0 "refrig.T_out_hot" 0%nat ->
  3/95 * V0 "hybrid_split.power_split_fraction" 0%nat < soft10 (cop_a (V0 "refrig.T_out_cold" 0%nat) (V0 "refrig.T_out_hot" 0%nat) (V0 "ac|propulsion|thermal|refrig|eff" 0%nat)) ->
  (forall x, In x ["channel_width"; "channel_height"; "channel_length"; "n_parallel"] -> 0 < V0 (String.append "ac|propulsion|thermal|hx|" x) 0%nat) ->
  exists V, solution (TwinSeriesHybridElectricThermalPropulsionRefrigerated M nn tri) V /\
    (forall x i, In x refrigerated_inputs -> V x i = V0 x 0%nat) /\
    forall i, (i < nn)%nat -> 0 < V "throttle" i /\ 0 < V "duct.area_nozzle" i /\ 0 < V "fltcond|Utrue" i /\ 0 < V "refrig.elec_load" i /\
      V "fltcond|T" i < V "hx.T_out_hot" i < V "refrig.T_out_hot" i /\
      V "refrig.T_out_cold" i < V "batteryheatsink.T_out" i < V "motorheatsink.T_out" i /\
      V "batteryheatsink.T_out" i < V "batteryheatsink.T" i /\ V "motorheatsink.T_out" i < V "motorheatsink.T" i /\
      V "batteryheatsink.T" i = V "batteryheatsink.T_initial" 0%nat /\ V "motorheatsink.T" i = V "motorheatsink.T_initial" 0%nat.
Proof.
  intros Hn HP Hcp HT Hr Her Ha Hs Hcold Hk Hch. set (G := TwinSeriesHybridElectricThermalPropulsionRefrigerated M nn tri).
  destruct (C51_solvable 1 _ HP) as [_ [H [SH [PH EH]]]].
  destruct (C51_heat_balance 1 H 0%nat SH PH ltac:(lia)) as [_ [_ [_ HB]]]. cbv zeta in HB.
  destruct (C51_second_law 1 H 0%nat SH PH ltac:(lia)) as [_ [Bh [_ _]]].
  assert (E1 : H "T_in_hot" 0%nat = V0 "refrig.T_out_hot" 0%nat) by (apply (EH "T_in_hot" 0%nat); inl).
  assert (E2 : H "T_in_cold" 0%nat = V0 "fltcond|T" 0%nat) by (apply (EH "T_in_cold" 0%nat); inl).
  assert (E3 : H "mdot_hot" 0%nat = V0 "mdot_coolant" 0%nat) by (apply (EH "mdot_hot" 0%nat); inl).
  assert (E4 : H "cp_hot" 0%nat = 3801) by (rewrite (EH "cp_hot" 0%nat) by inl; exact Hcp).
  assert (P1 : 0 < V0 "mdot_coolant" 0%nat) by (rewrite <- E3; apply (proj2 PH); [inl|lia]).
  assert (P2 : 0 < V0 "duct.mdot" 0%nat) by (exact (proj2 HP "mdot_cold" 0%nat ltac:(inl) ltac:(lia))).
  assert (P3 : 0 < V0 "fltcond|rho" 0%nat) by (exact (proj2 HP "rho_cold" 0%nat ltac:(inl) ltac:(lia))).
  destruct Bh as [Bh _]. rewrite E1, E2 in Bh. specialize (Bh HT). rewrite E1, E3, E4 in HB.
  set (Tc := V0 "fltcond|T" 0%nat) in *. set (Th := V0 "refrig.T_out_hot" 0%nat) in *. set (md := V0 "mdot_coolant" 0%nat) in *. set (Tr := H "T_out_hot" 0%nat) in *.
  set (ma := V0 "duct.mdot" 0%nat) in *. set (rho := V0 "fltcond|rho" 0%nat) in *. set (r := V0 "ac|propulsion|motor|rating" 0%nat) in *.
  set (er := V0 "ac|propulsion|engine|rating" 0%nat) in *. set (act := V0 "propulsor_active" 0%nat) in *. set (sp := V0 "hybrid_split.power_split_fraction" 0%nat) in *.
  set (Rc := V0 "refrig.T_out_cold" 0%nat) in *. set (ef := V0 "ac|propulsion|thermal|refrig|eff" 0%nat) in *. set (k := soft10 (cop_a Rc Th ef)) in *.
  set (Pr := md * 3801 * (Th - Tr) / (k + 1)). set (L := (k * Pr / (3/100) - sp * (Pr / (95/100))) / (1 + sp)). set (TL := L + Pr / (95/100)).
  set (Qb := 3/100 * (sp * TL)). set (Qm := 3/100 * L). set (Tm := Rc + Qb / (md * 3801)). set (Ti := Rc + k * Pr / (md * 3801)).
  set (dp := H "delta_p_cold" 0%nat). set (U := sqrt (2 * Rabs dp / rho + 1)).
  set (UA := plate_UA default_k default_Nu (V0 "ac|propulsion|thermal|hx|channel_width" 0%nat) (V0 "ac|propulsion|thermal|hx|channel_height" 0%nat)
    (V0 "ac|propulsion|thermal|hx|channel_length" 0%nat) (V0 "ac|propulsion|thermal|hx|n_parallel" 0%nat)).
  set (eff := 1 - exp (- (UA / (md * 3801)))). set (Ts := Tm + (Ti - Tm) / eff). set (Tb := Rc + (Tm - Rc) / eff).
  set (thr := L / ((1 + act) * r)). set (eth := (1 - sp) * TL / (97/100 * er)).
  set (int := duct_interior (15/100) rho U dp). set (area := ma / sqrt int). set (drag := ma * (U - 98/100 * ma / area / rho)).
  assert (PP : 0 < Pr) by (unfold Pr; apply Rdiv_lt_0_compat; [apply Rmult_lt_0_compat|]; lra).
  assert (PL : 0 < L).
  { unfold L. apply Rdiv_lt_0_compat; [|lra]. replace (k * Pr / (3/100) - sp * (Pr / (95/100))) with (Pr * (100/3) * (k - 3/95 * sp)) by field.
    apply Rmult_lt_0_compat; lra. }
  assert (PTL : 0 < TL) by (unfold TL; assert (0 < Pr / (95/100)) by (apply Rdiv_lt_0_compat; lra); lra).
  assert (QS : Qb + Qm = k * Pr) by (unfold Qb, Qm, TL, L; field; lra).
  assert (PT : Rc < Tm < Ti).
  { assert (0 < Qb) by (unfold Qb; assert (0 < sp * TL) by (apply Rmult_lt_0_compat; lra); lra). assert (0 < Qm) by (unfold Qm; lra).
    unfold Tm, Ti. rewrite <- QS. assert (0 < Qb / (md * 3801)) by (apply Rdiv_lt_0_compat; lra). assert (0 < Qm / (md * 3801)) by (apply Rdiv_lt_0_compat; lra).
    replace ((Qb + Qm) / (md * 3801)) with (Qb / (md * 3801) + Qm / (md * 3801)) by (field; lra). lra. }
  assert (PU : 0 < U). { unfold U. apply sqrt_lt_R0. pose proof (Rabs_pos dp). assert (0 <= 2 * Rabs dp / rho) by (apply Rmult_le_pos; [lra|]; left; now apply Rinv_0_lt_compat). lra. }
  assert (PI : 0 < int).
  { unfold int, duct_interior. apply Rdiv_lt_0_compat; [|lra]. unfold U. rewrite pow2_sqrt.
    2:{ pose proof (Rabs_pos dp). assert (0 <= 2 * Rabs dp / rho) by (apply Rmult_le_pos; [lra|]; left; now apply Rinv_0_lt_compat). lra. }
    replace (rho ^ 2 * (2 * Rabs dp / rho + 1) + 2 * rho * dp) with (2 * rho * (Rabs dp + dp) + rho ^ 2) by (field; lra).
    pose proof (Rle_abs (- dp)). rewrite Rabs_Ropp in *. assert (0 < rho ^ 2) by (apply pow_lt; lra). nra. }
  assert (PS : 0 < sqrt int) by now apply sqrt_lt_R0.
  assert (PA : 0 < area) by (unfold area; now apply Rdiv_lt_0_compat).
  assert (PUA : 0 < UA).
  { unfold UA, plate_UA, default_Nu, default_k. pose proof (Hch "channel_width" ltac:(inl)). pose proof (Hch "channel_height" ltac:(inl)).
    pose proof (Hch "channel_length" ltac:(inl)). pose proof (Hch "n_parallel" ltac:(inl)). cbn [String.append] in *.
    repeat first [lra | apply Rdiv_lt_0_compat | apply Rmult_lt_0_compat | apply Rplus_lt_0_compat]. }
  assert (PE : 0 < eff < 1).
  { unfold eff. assert (0 < UA / (md * 3801)) by (apply Rdiv_lt_0_compat; lra). pose proof (exp_pos (- (UA / (md * 3801)))).
    assert (exp (- (UA / (md * 3801))) < 1) by (rewrite <- exp_0; apply exp_increasing; lra). lra. }
  assert (GE : forall d, 0 < d -> d < d / eff).
  { intros d Hd. apply (Rmult_lt_reg_r eff); [lra|]. unfold Rdiv. rewrite Rmult_assoc, Rinv_l by lra. nra. }
  assert (PT1 : Ti < Ts) by (unfold Ts; pose proof (GE (Ti - Tm) ltac:(lra)); lra).
  assert (PT2 : Tm < Tb) by (unfold Tb; pose proof (GE (Tm - Rc) ltac:(lra)); lra).
  set (B := refrigerated_base H V0 thr eth U area drag Tb Tm Ti Ts Tr Rc k Pr Qb Qm).
  set (bal := balance2 nn "eng_throttle_set" "eng_throttle" "gen_power_available" "gen_power_required" [] []).
  set (order := match g_subs G with
    | [dv; pw; wt; m1; p1; fm; m2; p2; sp; en; ge; ba; _; re; _; _; _; _; _; _] => [dv; m1; p1; fm; m2; p2; pw; wt; sp; en; ge; ba; re] | l => l end).
  set (G' := {| g_subs := order; g_conns := g_conns G |}).
  destruct (exec G' order B) as [V [S HV]];
    [unfold order, G, TwinSeriesHybridElectricThermalPropulsionRefrigerated; cbn [g_subs hybrid_subs app]; unfold heat_adder; all_run|reflexivity|intros s K; exact K|].
  assert (F : forall x i, mem x (flat_map out_names order) = false -> V x i = B x i).
  { intros x i A. apply HV. intro K. apply mem_In in K. congruence. }
  assert (DV : forall a b i, In (a, b) (hybrid_dvs ++ [("ac|propulsion|thermal|refrig|rating", "refrig_rating"); ("ac|propulsion|thermal|refrig|specific_power", "refrig_spec_pow");
       ("ac|propulsion|thermal|refrig|eff", "refrig_eff_factor")] ++ coolant_dvs ++ [("ac|propulsion|thermal|duct|area_nozzle", "area_nozzle"); ("ac|propulsion|battery|specific_energy", "specific_energy")]) -> V b i = V (source G' a) i).
  { intros a b i Hab. pose proof (relabel_eq G' V _ _ S ltac:(nth_sub 0%nat) eq_refl _ _ Hab i) as D. rewrite D. f_equal.
    unfold hybrid_dvs, coolant_dvs in Hab. cbn [app In] in Hab. repeat (destruct Hab as [E|Hab]; [injection E as <- <-; reflexivity|]). destruct Hab. }
  assert (Dmd : forall i, V "mdot_coolant" i = md) by (intro i; rewrite (DV _ "mdot_coolant" i ltac:(nth_sub 8%nat)); change (V "ac|propulsion|thermal|hx|mdot_coolant" i = md); now rewrite F by reflexivity).
  assert (Dr : forall i, V "motor_rating" i = r) by (intro i; rewrite (DV _ "motor_rating" i ltac:(nth_sub 2%nat)); change (V "ac|propulsion|motor|rating" i = r); now rewrite F by reflexivity).
  assert (De : forall i, V "eng_rating" i = er) by (intro i; rewrite (DV _ "eng_rating" i ltac:(nth_sub 0%nat)); change (V "ac|propulsion|engine|rating" i = er); now rewrite F by reflexivity).
  assert (Drr : forall i, V "refrig_rating" i = Pr) by (intro i; rewrite (DV _ "refrig_rating" i ltac:(nth_sub 5%nat)); change (V "ac|propulsion|thermal|refrig|rating" i = Pr); now rewrite F by reflexivity).
  assert (Dsp : forall i, V "refrig_spec_pow" i = V0 "ac|propulsion|thermal|refrig|specific_power" 0%nat) by (intro i; rewrite (DV _ "refrig_spec_pow" i ltac:(nth_sub 6%nat)); change (V "ac|propulsion|thermal|refrig|specific_power" i = V0 "ac|propulsion|thermal|refrig|specific_power" 0%nat); now rewrite F by reflexivity).
  assert (Def : forall i, V "refrig_eff_factor" i = ef) by (intro i; rewrite (DV _ "refrig_eff_factor" i ltac:(nth_sub 7%nat)); change (V "ac|propulsion|thermal|refrig|eff" i = ef); now rewrite F by reflexivity).
  assert (DUA : plate_UA default_k default_Nu (V "channel_width" 0%nat) (V "channel_height" 0%nat) (V "channel_length" 0%nat) (V "n_parallel" 0%nat) = UA).
  { rewrite (DV _ "channel_width" 0%nat ltac:(nth_sub 10%nat)), (DV _ "channel_height" 0%nat ltac:(nth_sub 11%nat)), (DV _ "channel_length" 0%nat ltac:(nth_sub 12%nat)), (DV _ "n_parallel" 0%nat ltac:(nth_sub 13%nat)).
    change (plate_UA default_k default_Nu (V "ac|propulsion|thermal|hx|channel_width" 0%nat) (V "ac|propulsion|thermal|hx|channel_height" 0%nat)
      (V "ac|propulsion|thermal|hx|channel_length" 0%nat) (V "ac|propulsion|thermal|hx|n_parallel" 0%nat) = UA). now rewrite !F by reflexivity. }
  assert (LOADS : forall i, (i < nn)%nat -> V "total_elec_load" i = TL /\ V "motors_heat" i = Qm /\ V "batt1.heat_out" i = Qb /\ V "gen1.elec_power_out" i = V "hybrid_split.power_out_B" i).
  { intros i Hi.
    pose proof (sol_comp G' V _ _ _ _ _ "elec_load" _ _ i S ltac:(nth_sub 1%nat) eq_refl Hi) as L1. pose proof (sol_comp G' V _ _ _ _ _ "heat_out" _ _ i S ltac:(nth_sub 1%nat) eq_refl Hi) as H1.
    pose proof (sol_rel G' V _ S ltac:(nth_sub 3%nat) i Hi) as A. rewrite active_value in A by exact Hi. injection A as A.
    pose proof (sol_comp G' V _ _ _ _ _ "elec_load" _ _ i S ltac:(nth_sub 4%nat) eq_refl Hi) as L2. pose proof (sol_comp G' V _ _ _ _ _ "heat_out" _ _ i S ltac:(nth_sub 4%nat) eq_refl Hi) as H2.
    pose proof (sol_adders G' V "add_power" _ _ _ _ i S ltac:(nth_sub 6%nat) ltac:(nth_sub 0%nat) Hi) as LL. rewrite add3 in LL by exact Hi. injection LL as LL.
    pose proof (sol_adders G' V "adder" _ _ _ _ i S ltac:(nth_sub 7%nat) ltac:(nth_sub 2%nat) Hi) as HH. rewrite add2 in HH by exact Hi. injection HH as HH.
    pose proof (sol_comp G' V _ _ _ _ _ "power_out_A" _ _ i S ltac:(nth_sub 8%nat) eq_refl Hi) as SA.
    pose proof (sol_comp G' V _ _ _ _ _ "power_out_B" _ _ i S ltac:(nth_sub 8%nat) eq_refl Hi) as SB.
    pose proof (sol_comp G' V _ _ _ _ _ "shaft_power_out" _ _ i S ltac:(nth_sub 9%nat) eq_refl Hi) as EP.
    pose proof (sol_comp G' V _ _ _ _ _ "elec_power_out" _ _ i S ltac:(nth_sub 10%nat) eq_refl Hi) as GP.
    destruct (battery_in G' V nn tri _ "batt1" _ _ S ltac:(nth_sub 11%nat)) as [BB _]. destruct (BB i Hi) as [BH _]. clear BB.
    change (V "motor1.elec_load" i = V "throttle" i * V "motor_rating" 0%nat) in L1. change (V "motor1.heat_out" i = V "throttle" i * V "motor_rating" 0%nat * (1 - 97/100)) in H1.
    change (V "motor2.elec_load" i = V "failedmotor.motor2throttle" i * V "motor_rating" 0%nat) in L2. change (V "motor2.heat_out" i = V "failedmotor.motor2throttle" i * V "motor_rating" 0%nat * (1 - 97/100)) in H2.
    change (V "throttle" i * V "propulsor_active" i = V "failedmotor.motor2throttle" i) in A.
    change (V "motor1.elec_load" i + V "motor2.elec_load" i + V "refrig.elec_load" i = V "total_elec_load" i) in LL. change (V "motor1.heat_out" i + V "motor2.heat_out" i = V "motors_heat" i) in HH.
    change (V "hybrid_split.power_out_A" i = V "total_elec_load" i * V "hybrid_split.power_split_fraction" i * 1) in SA.
    change (V "hybrid_split.power_out_B" i = V "total_elec_load" i * (1 - V "hybrid_split.power_split_fraction" i) * 1) in SB.
    change (V "eng1.shaft_power_out" i = V "eng_throttle_set.eng_throttle" i * V "eng_rating" 0%nat) in EP.
    change (V "gen1.elec_power_out" i = V "eng1.shaft_power_out" i * (97/100)) in GP.
    change (V "batt1.heat_out" i = V "hybrid_split.power_out_A" i * (1 - 97/100)) in BH.
    assert (f1 : V "throttle" i = thr) by now rewrite F by reflexivity. assert (f2 : V "propulsor_active" i = act) by now rewrite F by reflexivity.
    assert (f3 : V "hybrid_split.power_split_fraction" i = sp) by now rewrite F by reflexivity. assert (f4 : V "eng_throttle_set.eng_throttle" i = eth) by now rewrite F by reflexivity.
    rewrite Dr, f1 in L1, H1. rewrite <- A, Dr, f1, f2 in L2, H2. rewrite De, f4 in EP.
    assert (f5 : V "refrig.elec_load" i = Pr / (95/100)) by now rewrite F by reflexivity.
    assert (ML : V "total_elec_load" i = TL) by (rewrite <- LL, L1, L2, f5; unfold TL, thr; field; lra).
    rewrite ML, f3 in SA, SB. rewrite SA in BH. split; [exact ML|]. split; [|split].
    - rewrite <- HH, H1, H2. unfold Qm, thr. field. lra.
    - rewrite BH. unfold Qb. field.
    - rewrite GP, EP, SB. unfold eth. field. lra. }
  assert (K : forall s, In s (g_subs G) -> In s order \/ s = bal \/ In s (skipn 14 (g_subs G))).
  { intros s Hs'. unfold order, G, TwinSeriesHybridElectricThermalPropulsionRefrigerated in *. cbn [g_subs hybrid_subs app In skipn] in *.
    repeat (destruct Hs' as [<-|Hs']; [first [right; left; reflexivity|tauto]|]). destruct Hs'. }
  exists V. split; [|split].
  - intros s Hs'. apply K in Hs'. clear K. destruct Hs' as [Hs'|[->|Hs']]; [exact (S s Hs')| |].
    { intros i Hi. change (V "gen1.elec_power_out" i = V "hybrid_split.power_out_B" i). now destruct (LOADS i Hi) as (_&_&_&E). }
    unfold G, TwinSeriesHybridElectricThermalPropulsionRefrigerated in Hs'. cbn [g_subs hybrid_subs app skipn In] in Hs'.
    destruct Hs' as [<-|[<-|[<-|[<-|[<-|[<-|[]]]]]]].
    + exact Logic.I.
    + apply heat_pump_on with (k := k) (Th := Th) (Tc := Rc); [|unfold k; unfold cop; destruct (Req_EM_T (Th - Rc) 0); [lra|]|].
      * intros x Hx j. cbn [In] in Hx. destruct Hx as [<-|[<-|[<-|[]]]];
        [change (V "refrig.control.bypass_start" j = 0)|change (V "refrig.control.bypass_end" j = 0)|change (V "refrig.bypass" j = 0)]; now rewrite F by reflexivity.
      * change (Some (soft10 (cop_a Rc Th ef)) = Some (soft10 (cop_a Rc Th (V "refrig_eff_factor" 0%nat)))). now rewrite Def.
      * change (V "refrig.component_weight" 0%nat = V "refrig_rating" 0%nat / V "refrig_spec_pow" 0%nat /\ forall i, (i < nn)%nat ->
          V "mdot_coolant" i <> 0 /\ V "refrig.COP" i = k /\ V "refrig.heat_pump.q_in_1" i = - k * V "refrig_rating" 0%nat /\ V "refrig.heat_pump.q_in_2" i = (k + 1) * V "refrig_rating" 0%nat /\
          V "refrig.hot_side.T_out" i = Th /\ V "refrig.cold_side.T_out" i = Rc /\ V "refrig.hot_side.T_average" i = (V "hx.T_out_hot" i + Th) / 2 /\ V "refrig.cold_side.T_average" i = (V "motorheatsink.T_out" i + Rc) / 2 /\
          V "refrig.elec_load" i = V "refrig_rating" 0%nat / (95/100) /\ V "refrig.T_out_cold" i = Rc /\ V "refrig.T_out_hot" i = Th /\
          V "hx.T_out_hot" i + (k + 1) * V "refrig_rating" 0%nat / 3801 / V "mdot_coolant" i = Th /\ V "motorheatsink.T_out" i - k * V "refrig_rating" 0%nat / 3801 / V "mdot_coolant" i = Rc).
        split; [rewrite Drr, Dsp, F by reflexivity; reflexivity|]. intros i Hi. rewrite Dmd, Drr. rewrite !F by reflexivity.
        change (md <> 0 /\ k = k /\ - k * Pr = - k * Pr /\ (k + 1) * Pr = (k + 1) * Pr /\ Th = Th /\ Rc = Rc /\ (Tr + Th) / 2 = (Tr + Th) / 2 /\ (Ti + Rc) / 2 = (Ti + Rc) / 2 /\
          Pr / (95/100) = Pr / (95/100) /\ Rc = Rc /\ Th = Th /\ Tr + (k + 1) * Pr / 3801 / md = Th /\ Ti - k * Pr / 3801 / md = Rc).
        repeat split; try lra; [unfold Pr|unfold Ti]; field; lra.
    + apply heatsink_steady; [exact Hn| |].
      * intros i Hi. change (V "mdot_coolant" i <> 0 /\ V "batt1.heat_out" i = V "batteryheatsink.hex.q" i /\
          (1 - exp (- (plate_UA default_k default_Nu (V "channel_width" 0%nat) (V "channel_height" 0%nat) (V "channel_length" 0%nat) (V "n_parallel" 0%nat) /
          (V "mdot_coolant" i * 3801)))) * (V "mdot_coolant" i * 3801) * (V "batteryheatsink.T_initial" 0%nat - V "refrig.T_out_cold" i) = V "batteryheatsink.hex.q" i /\
          V "batteryheatsink.base.dTdt" i = 0 /\ V "batteryheatsink.T" i = V "batteryheatsink.T_initial" 0%nat /\
          V "batteryheatsink.T_out" i = V "refrig.T_out_cold" i + V "batteryheatsink.hex.q" i / V "mdot_coolant" i / 3801).
        destruct (LOADS i Hi) as (_&_&E&_). rewrite E, DUA, !Dmd. rewrite !F by reflexivity.
        change (md <> 0 /\ Qb = Qb /\ eff * (md * 3801) * (Tb - Rc) = Qb /\ 0 = 0 /\ Tb = Tb /\ Tm = Rc + Qb / md / 3801).
        repeat split; try lra; [unfold Tb, Tm|unfold Tm]; field; lra.
      * change (V "batteryheatsink.T_final" 0%nat = V "batteryheatsink.T_initial" 0%nat). now rewrite !F by reflexivity.
    + apply heatsink_steady; [exact Hn| |].
      * intros i Hi. change (V "mdot_coolant" i <> 0 /\ V "motors_heat" i = V "motorheatsink.hex.q" i /\
          (1 - exp (- (plate_UA default_k default_Nu (V "channel_width" 0%nat) (V "channel_height" 0%nat) (V "channel_length" 0%nat) (V "n_parallel" 0%nat) /
          (V "mdot_coolant" i * 3801)))) * (V "mdot_coolant" i * 3801) * (V "motorheatsink.T_initial" 0%nat - V "batteryheatsink.T_out" i) = V "motorheatsink.hex.q" i /\
          V "motorheatsink.base.dTdt" i = 0 /\ V "motorheatsink.T" i = V "motorheatsink.T_initial" 0%nat /\
          V "motorheatsink.T_out" i = V "batteryheatsink.T_out" i + V "motorheatsink.hex.q" i / V "mdot_coolant" i / 3801).
        destruct (LOADS i Hi) as (_&E&_&_). rewrite E, DUA, !Dmd. rewrite !F by reflexivity.
        change (md <> 0 /\ Qm = Qm /\ eff * (md * 3801) * (Ts - Tm) = Qm /\ 0 = 0 /\ Ts = Ts /\ Ti = Tm + Qm / md / 3801).
        assert (QM : Qm = md * 3801 * (Ti - Tm)) by (unfold Ti, Tm; rewrite <- QS; field; lra).
        rewrite QM. repeat split; try lra; [unfold Ts|]; field; lra.
      * change (V "motorheatsink.T_final" 0%nat = V "motorheatsink.T_initial" 0%nat). now rewrite !F by reflexivity.
    + intros o kk f i A Hi. apply assoc_In in A. unfold ExplicitIncompressibleDuct in A. cbn [pc_outs In] in A.
      assert (M0 : unspurious (area * sqrt (unspurious int)) = ma).
      { unfold unspurious at 2. destruct Rlt_dec; [lra|]. replace (area * sqrt int) with ma by (unfold area; field; lra). unfold unspurious. destruct Rlt_dec; lra. }
      each_in A.
      * change (V "duct.mdot" i = unspurious (V "duct.area_nozzle" i * sqrt (unspurious (duct_interior (15/100) (V "fltcond|rho" i) (V "fltcond|Utrue" i) (V "hx.delta_p_cold" i))))).
        rewrite !F by reflexivity. symmetry. exact M0.
      * change (V "duct.drag" i = unspurious (V "duct.area_nozzle" i * sqrt (unspurious (duct_interior (15/100) (V "fltcond|rho" i) (V "fltcond|Utrue" i) (V "hx.delta_p_cold" i)))) *
          (V "fltcond|Utrue" i - 98/100 * unspurious (V "duct.area_nozzle" i * sqrt (unspurious (duct_interior (15/100) (V "fltcond|rho" i) (V "fltcond|Utrue" i) (V "hx.delta_p_cold" i)))) /
          V "duct.area_nozzle" i / V "fltcond|rho" i)).
        rewrite !F by reflexivity.
        change (drag = unspurious (area * sqrt (unspurious int)) * (U - 98/100 * unspurious (area * sqrt (unspurious int)) / area / rho)).
        rewrite M0. reflexivity.
    + exists (fun x _ => H x 0%nat). split; [now apply hx_steady|]. split.
      * intros x i Hx. cbn in Hx.
        repeat (destruct Hx as [<-|Hx]; [match goal with |- H ?y 0%nat = _ => let z := eval vm_compute in (hx_in_system "" "refrig.T_out_hot" y) in
          change (H y 0%nat = V z i); first [rewrite Dmd|rewrite F by reflexivity]; first [reflexivity | rewrite (EH y 0%nat) by inl; reflexivity] end|]). destruct Hx.
      * intros o i Ho. cbn in Ho.
        repeat (destruct Ho as [<-|Ho]; [match goal with |- H ?y 0%nat = _ => let z := eval vm_compute in (String.append "hx." y) in
          change (H y 0%nat = V z i); rewrite F by reflexivity; reflexivity end|]). destruct Ho.
  - intros x i Hx. unfold refrigerated_inputs in Hx. cbn [In] in Hx.
    repeat (destruct Hx as [<-|Hx]; [first [apply Dmd | rewrite F by reflexivity; first [reflexivity |
      match goal with |- _ = V0 ?z 0%nat => let y := eval vm_compute in (String.substring 3 (String.length z) z) in change (H y 0%nat = V0 z 0%nat); rewrite (EH y 0%nat) by inl; reflexivity end]]|]). destruct Hx.
  - intros i Hi. rewrite !F by reflexivity.
    change (0 < thr /\ 0 < area /\ 0 < U /\ 0 < Pr / (95/100) /\ Tc < Tr < Th /\ Rc < Tm < Ti /\ Tm < Tb /\ Ti < Ts /\ Tb = Tb /\ Ts = Ts).
    assert (0 < Pr / (95/100)) by (apply Rdiv_lt_0_compat; lra).
    assert (0 < thr) by (unfold thr; apply Rdiv_lt_0_compat; [lra|apply Rmult_lt_0_compat; lra]). repeat split; lra.
Qed.
Print Assumptions C65_twin_refrigerated_steady.

(** Systems with such inputs exist, for any number of nodes. *)
Definition cooling_case (sp : R) : env := fun x _ =>
  if String.eqb x "hx.cp_hot" then 3801 else if String.eqb x "fltcond|T" then 280 else if mem x ["refrig.T_out_hot"; "motorheatsink.T_out"] then 330
  else if String.eqb x "refrig.T_out_cold" then 290 else if String.eqb x "hybrid_split.power_split_fraction" then sp else 1.
Example C65_cases M nn tri : (0 < nn)%nat ->
  (exists V, solution (AllElectricIncompressible M nn tri) V /\ 0 < V "throttle" 0%nat) /\
  (exists V, solution (TwinSeriesHybridElectricThermalPropulsionSystem M nn tri) V /\ 0 < V "throttle" 0%nat) /\
  (exists V, solution (TwinSeriesHybridElectricThermalPropulsionRefrigerated M nn tri) V /\ 0 < V "throttle" 0%nat).
Proof.
  intro Hn.
  assert (HP : forall sp own hot, In own ["hx."; ""] -> In hot ["motorheatsink.T_out"; "refrig.T_out_hot"] -> hx_positive 1 (fun x _ => cooling_case sp (hx_in_system own hot x) 0%nat)).
  { intros sp own hot [<-|[<-|[]]] [<-|[<-|[]]]; (split; [intros x Hx|intros x i Hx _]; unfold hx_scalars, hx_flows in Hx; cbn [In] in Hx;
      repeat (destruct Hx as [<-|Hx]; [unfold cooling_case; cbn; lra|]); destruct Hx). }
  assert (HC : forall sp pre x, In pre [""; "ac|propulsion|thermal|hx|"] -> In x ["channel_width"; "channel_height"; "channel_length"; "n_parallel"] -> 0 < cooling_case sp (String.append pre x) 0%nat).
  { intros sp pre x [<-|[<-|[]]] Hx; cbn [In] in Hx; repeat (destruct Hx as [<-|Hx]; [unfold cooling_case; cbn; lra|]); destruct Hx. }
  set (k := soft10 (cop_a 290 330 1)). assert (Hk : 0 < k) by (apply cop_positive; lra).
  set (sp := Rmin 1 k). assert (Hs : 0 < sp <= 1) by (unfold sp, Rmin; destruct Rle_dec; lra). assert (Hsk : sp <= k) by apply Rmin_r.
  split; [|split].
  - destruct (C65_all_electric_steady M nn tri (cooling_case sp)) as [V [S [_ H]]]; try (unfold cooling_case; cbn; lra); try exact Hn.
    + apply HP; cbn; tauto.
    + intros x Hx. apply (HC sp "" x); [cbn; tauto|exact Hx].
    + exists V. split; [exact S|]. apply (H 0%nat Hn).
  - destruct (C65_twin_thermal_steady M nn tri (cooling_case sp)) as [V [S [_ H]]]; try (unfold cooling_case; cbn; lra); try exact Hn.
    + apply HP; cbn; tauto.
    + intros x Hx. apply (HC sp "ac|propulsion|thermal|hx|" x); [cbn; tauto|exact Hx].
    + exists V. split; [exact S|]. apply (H 0%nat Hn).
  - destruct (C65_twin_refrigerated_steady M nn tri (cooling_case sp)) as [V [S [_ H]]]; try (unfold cooling_case; cbn; lra); try exact Hn.
    + apply HP; cbn; tauto.
    + change (3/95 * sp < k). lra.
    + intros x Hx. apply (HC sp "ac|propulsion|thermal|hx|" x); [cbn; tauto|exact Hx].
    + exists V. split; [exact S|]. apply (H 0%nat Hn).
Qed.
