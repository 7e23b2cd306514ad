(** Reading the equations of the propulsion systems. *)
From Coq Require Import Reals List Bool PeanoNat String Lia Lra.
From Coquelicot Require Import Coquelicot.
From Verif Require Import Base Py RSum Spec_Systems Model_Algebra Model_Integrals Model_Atmos Model_Propulsion Model_Net Model_Thermal
  Model_HX Model_Ducts Model_HeatPipe Model_Systems Proofs_Net Proofs_Ducts.
Import ListNotations.
Open Scope R_scope.
Open Scope string_scope.
Open Scope list_scope.

Ltac nth_sub k := eapply (nth_error_In _ k); reflexivity.

(** ** Propeller *)
Lemma propeller_facts M nn V i : solution (SimplePropeller M nn) V -> (i < nn)%nat ->
  V "fltcond|rho" i <> 0 -> V "rpm" i <> 0 -> V "diameter" 0%nat <> 0 ->
  V "thrust" i = propeller_thrust (eta_map M) (static_map M) (V "fltcond|rho" i) (V "fltcond|Utrue" i) (V "diameter" 0%nat) (V "rpm" i) (V "shaft_power_in" i).
Proof.
  intros S Hi Hr Hn HD. set (G := SimplePropeller M nn) in *.
  pose proof (sol_comp G V _ _ _ _ _ "cp" _ _ i S ltac:(nth_sub 0%nat) eq_refl Hi) as Ec.
  pose proof (sol_comp G V _ _ _ _ _ "J" _ _ i S ltac:(nth_sub 0%nat) eq_refl Hi) as EJ.
  pose proof (sol_rel G V _ S ltac:(nth_sub 1%nat) i Hi) as Ee.
  pose proof (sol_rel G V _ S ltac:(nth_sub 2%nat) i Hi) as Ek.
  pose proof (sol_comp G V _ _ _ _ _ "thrust" _ _ i S ltac:(nth_sub 3%nat) eq_refl Hi) as Et.
  change (V "cp" i = V "shaft_power_in" i / V "fltcond|rho" i / (V "rpm" i / 60) ^ 3 / V "diameter" 0%nat ^ 5) in Ec.
  change (V "J" i = 60 * V "fltcond|Utrue" i / V "rpm" i / V "diameter" 0%nat) in EJ.
  change (V "eta_prop" i = eta_map M (V "cp" i) (V "J" i)) in Ee.
  change (V "ct_over_cp" i = static_map M (V "cp" i)) in Ek.
  change (V "thrust" i = by_regime (V "J" i) (V "ct_over_cp" i * V "cp" i)
     (interp1 (V "J" i) * (V "ct_over_cp" i * V "cp" i) + interp2 (V "J" i) * (V "cp" i * V "eta_prop" i / V "J" i))
     (V "cp" i * V "eta_prop" i / V "J" i) * V "fltcond|rho" i * (V "rpm" i / 60) ^ 2 * V "diameter" 0%nat ^ 4) in Et.
  unfold propeller_thrust.
  replace (V "shaft_power_in" i / (V "fltcond|rho" i * (V "rpm" i / 60) ^ 3 * V "diameter" 0%nat ^ 5)) with (V "cp" i) by (rewrite Ec; field; auto).
  replace (V "fltcond|Utrue" i / (V "rpm" i / 60 * V "diameter" 0%nat)) with (V "J" i) by (rewrite EJ; field; auto).
  rewrite <- Ee, <- Ek. rewrite Et. unfold by_regime, interp1, interp2. change jmin with (1/10). change jmax with (2/10).
  assert (St : V "ct_over_cp" i * V "cp" i * V "fltcond|rho" i * (V "rpm" i / 60) ^ 2 * V "diameter" 0%nat ^ 4 =
    V "ct_over_cp" i * V "shaft_power_in" i / (V "rpm" i / 60 * V "diameter" 0%nat)) by (rewrite Ec; field; auto).
  assert (Dy : 0 < V "J" i -> V "cp" i * V "eta_prop" i / V "J" i * V "fltcond|rho" i * (V "rpm" i / 60) ^ 2 * V "diameter" 0%nat ^ 4 =
    V "eta_prop" i * V "shaft_power_in" i / V "fltcond|Utrue" i).
  { intro H. assert (V "fltcond|Utrue" i <> 0). { intro Z. rewrite Z in EJ. replace (60 * 0 / V "rpm" i / V "diameter" 0%nat) with 0 in EJ by (field; auto). lra. }
    rewrite EJ, Ec. field. auto. }
  destruct (Rle_dec (V "J" i) (1/10)) as [L|L]; [exact St|]. specialize (Dy ltac:(lra)).
  destruct (Rge_dec (V "J" i) (2/10)) as [L2|L2], (Rle_dec (2/10) (V "J" i)) as [L3|L3]; try lra.
  rewrite <- St, <- Dy. field. lra.
Qed.
Lemma propeller_weight_facts M nn V : solution (SimplePropeller M nn) V ->
  V "component_weight" 0%nat = propeller_weight (V "power_rating" 0%nat) (V "diameter" 0%nat).
Proof.
  intro S. set (G := SimplePropeller M nn) in *. pose proof (sol_rel G V _ S ltac:(nth_sub 4%nat)) as E.
  change (V "component_weight" 0%nat = pound * (108/1000 * Rpower (V "diameter" 0%nat / foot * (V "power_rating" 0%nat / hp) * Rpower 4 (1/2)) (782/1000))) in E.
  rewrite E. unfold propeller_weight, pound, foot, hp. replace (Rpower 4 (1/2)) with 2; [reflexivity|].
  replace (1/2) with (/2) by field. rewrite Rpower_sqrt by lra. replace 4 with (2 ^ 2) by ring. rewrite sqrt_pow2; lra.
Qed.
Lemma propeller_in G V M nn name pin pout : solution G V -> In (subgroup name (SimplePropeller M nn) pin pout) (g_subs G) ->
  let r x := V (source G (gname name pin x)) in let w x := V (gname name pout x) in
  w "component_weight" 0%nat = propeller_weight (r "power_rating" 0%nat) (r "diameter" 0%nat) /\
  forall i, (i < nn)%nat -> r "fltcond|rho" i <> 0 -> r "rpm" i <> 0 -> r "diameter" 0%nat <> 0 ->
  w "thrust" i = propeller_thrust (eta_map M) (static_map M) (r "fltcond|rho" i) (r "fltcond|Utrue" i) (r "diameter" 0%nat) (r "rpm" i) (r "shaft_power_in" i).
Proof.
  intros S I r w. destruct (sol_nested _ _ _ _ _ _ _ _ S I) as [W [SW [HI HO]]]. split.
  - pose proof (propeller_weight_facts M nn W SW) as F.
    rewrite (HO "component_weight" 0%nat ltac:(inl)), (HI "power_rating" 0%nat ltac:(inl)), (HI "diameter" 0%nat ltac:(inl)) in F. exact F.
  - intros i Hi. pose proof (propeller_facts M nn W i SW Hi) as F.
    rewrite (HO "thrust" i ltac:(inl)), (HI "fltcond|rho" i ltac:(inl)), (HI "fltcond|Utrue" i ltac:(inl)), (HI "rpm" i ltac:(inl)),
      (HI "shaft_power_in" i ltac:(inl)), (HI "diameter" 0%nat ltac:(inl)) in F. exact F.
Qed.

(** A propeller without power gives no thrust. *)
Lemma thrust_no_power eta k rho U D rpm : propeller_thrust eta k rho U D rpm 0 = 0.
Proof. unfold propeller_thrust, Rdiv. destruct Rle_dec; [|destruct Rle_dec]; rewrite !Rmult_0_r, ?Rmult_0_l; ring. Qed.

(** ** Adders and multipliers *)
Lemma bidx_row n i : (i < n)%nat -> bidx n 1 i = i.
Proof. intro H. unfold bidx. destruct (Nat.eqb_spec n 1); [|reflexivity]. rewrite Nat.mod_1_r. lia. Qed.
Lemma fits_refl n : fits n n = true.
Proof. unfold fits. rewrite Nat.eqb_refl. now destruct (Nat.eqb n 1). Qed.
Lemma add1 out a n u E i : (i < n)%nat -> add_compute (sum out [a] n u) E i = Ok (E a i).
Proof.
  intro H. unfold add_compute, sum, add_resolve. cbn [as_ins as_sf as_vec as_len List.length repeat read_sizes Nat.eqb negb res_bind fst snd forallb].
  rewrite fits_refl. cbn [andb negb combine res_bind fold_left fst snd]. rewrite bidx_row by auto. f_equal. ring.
Qed.
Lemma add2 out a b n u E i : (i < n)%nat -> add_compute (sum out [a; b] n u) E i = Ok (E a i + E b i).
Proof.
  intro H. unfold add_compute, sum, add_resolve. cbn [as_ins as_sf as_vec as_len List.length repeat read_sizes Nat.eqb negb res_bind fst snd forallb].
  rewrite fits_refl. cbn [andb negb combine res_bind fold_left fst snd]. rewrite bidx_row by auto. f_equal. ring.
Qed.
Lemma add3 out a b c n u E i : (i < n)%nat -> add_compute (sum out [a; b; c] n u) E i = Ok (E a i + E b i + E c i).
Proof.
  intro H. unfold add_compute, sum, add_resolve. cbn [as_ins as_sf as_vec as_len List.length repeat read_sizes Nat.eqb negb res_bind fst snd forallb].
  rewrite fits_refl. cbn [andb negb combine res_bind fold_left fst snd]. rewrite bidx_row by auto. f_equal. ring.
Qed.
Lemma active_value nn out E i : (i < nn)%nat -> mul_compute (active_throttle nn out) E i = Ok (E "throttle" i * E "propulsor_active" i).
Proof.
  intro H. unfold mul_compute, active_throttle, mul_resolve. cbn [ms_ins ms_div ms_units ms_sf ms_vec ms_len List.length repeat read_sizes Nat.eqb negb res_bind fst snd forallb].
  rewrite fits_refl. cbn [andb negb combine res_bind fold_left fst snd]. rewrite bidx_row by auto. f_equal. ring.
Qed.
Lemma soc_rate_value nn E i : (i < nn)%nat -> mul_compute (soc_divider nn) E i = Ok (- (E "elec_load" i / E "max_energy" 0%nat)).
Proof.
  intro H. unfold mul_compute, soc_divider, mul_resolve.
  cbn [ms_ins ms_div ms_units ms_sf ms_vec ms_len List.length repeat read_sizes Nat.eqb negb res_bind fst snd forallb].
  replace (list_max [nn; 1%nat]) with nn by (cbn [list_max fold_right]; lia). rewrite fits_refl. cbn [fits Nat.eqb orb andb negb combine res_bind fold_left fst snd].
  rewrite bidx_row by auto. cbn [bidx Nat.eqb]. rewrite Nat.mod_1_r. unfold bidx. cbn [Nat.eqb]. f_equal. unfold Rdiv. ring.
Qed.
(** Row [i] of the sum [s] in an adder. *)
Lemma sol_adders G V name l pin pout s i : solution G V -> In (adders name l pin pout) (g_subs G) -> In s l -> (i < rows (as_vec s))%nat ->
  add_compute s (fun x => V (source G (gname name pin x))) i = Ok (V (gname name pout (as_out s)) i).
Proof. intros S I Hs Hi. exact (S _ I s Hs i Hi). Qed.

(** ** Battery *)
Lemma battery_facts nn tri eta V : solution (SOCBattery nn tri eta) V ->
  (forall i, (i < nn)%nat -> V "heat_out" i = V "elec_load" i * (1 - eta) /\
    V "dSOCdt" i = - (V "elec_load" i / (V "battery_weight" 0%nat * V "specific_energy" 0%nat)) /\
    V "component_sizing_margin" i = V "elec_load" i / (5000 * V "battery_weight" 0%nat)) /\
  (forall i, (i < nn)%nat -> V "SOC" i = integ_q nn tri (TDuration (V "duration" 0%nat)) false (V "SOC_initial" 0%nat) (V "dSOCdt") i) /\
  V "SOC_final" 0%nat = integ_q_final nn tri (TDuration (V "duration" 0%nat)) false (V "SOC_initial" 0%nat) (V "dSOCdt").
Proof.
  intro S. set (G := SOCBattery nn tri eta) in *.
  pose proof (sol_comp G V _ _ _ _ _ "max_energy" _ _ 0%nat S ltac:(nth_sub 0%nat) eq_refl Nat.lt_0_1) as E2.
  split; [|exact (sol_rel G V _ S ltac:(nth_sub 2%nat))].
  intros i Hi.
  pose proof (sol_comp G V _ _ _ _ _ "heat_out" _ _ i S ltac:(nth_sub 0%nat) eq_refl Hi) as E1.
  pose proof (sol_comp G V _ _ _ _ _ "component_sizing_margin" _ _ i S ltac:(nth_sub 0%nat) eq_refl Hi) as E4.
  pose proof (sol_rel G V _ S ltac:(nth_sub 1%nat) i Hi) as E3.
  split; [exact E1|]. split; [|exact E4].
  rewrite soc_rate_value in E3 by exact Hi. injection E3 as E3.
  change (V "max_energy" 0%nat = V "battery_weight" 0%nat * V "specific_energy" 0%nat) in E2.
  change (- (V "elec_load" i / V "max_energy" 0%nat) = V "dSOCdt" i) in E3. now rewrite <- E3, E2.
Qed.
Lemma battery_in G V nn tri eta name pin pout : solution G V -> In (subgroup name (SOCBattery nn tri eta) pin pout) (g_subs G) ->
  let r x := V (source G (gname name pin x)) in let w x := V (gname name pout x) in
  (forall i, (i < nn)%nat -> w "heat_out" i = r "elec_load" i * (1 - eta) /\
    w "dSOCdt" i = - (r "elec_load" i / (r "battery_weight" 0%nat * r "specific_energy" 0%nat)) /\
    w "component_sizing_margin" i = r "elec_load" i / (5000 * r "battery_weight" 0%nat)) /\
  (forall i, (i < nn)%nat -> w "SOC" i = integ_q nn tri (TDuration (r "duration" 0%nat)) false (r "SOC_initial" 0%nat) (w "dSOCdt") i) /\
  w "SOC_final" 0%nat = integ_q_final nn tri (TDuration (r "duration" 0%nat)) false (r "SOC_initial" 0%nat) (w "dSOCdt").
Proof.
  intros S I r w. destruct (sol_nested _ _ _ _ _ _ _ _ S I) as [W [SW [HI HO]]].
  destruct (battery_facts nn tri eta W SW) as [F1 [F2 F3]].
  assert (D : W "dSOCdt" = w "dSOCdt").
  { apply FunctionalExtensionality.functional_extensionality. intro i. exact (HO "dSOCdt" i ltac:(inl)). }
  rewrite D, (HO "SOC_final" 0%nat ltac:(inl)), (HI "duration" 0%nat ltac:(inl)), (HI "SOC_initial" 0%nat ltac:(inl)) in F3.
  split; [|split; [|exact F3]]; intros i Hi.
  - specialize (F1 i Hi). rewrite (HO "heat_out" i ltac:(inl)), (HO "dSOCdt" i ltac:(inl)), (HO "component_sizing_margin" i ltac:(inl)),
      (HI "elec_load" i ltac:(inl)), (HI "battery_weight" 0%nat ltac:(inl)), (HI "specific_energy" 0%nat ltac:(inl)) in F1. exact F1.
  - specialize (F2 i Hi). rewrite D, (HO "SOC" i ltac:(inl)), (HI "duration" 0%nat ltac:(inl)), (HI "SOC_initial" 0%nat ltac:(inl)) in F2. exact F2.
Qed.

(** ** The part the twin series hybrids share *)
Section hybrid.
Context (M : maps) (nn : nat) (tri : mat) (G : group) (load : string) (V : env).
Hypothesis S : solution G V.
Hypothesis subs : forall s, In s (hybrid_subs M nn tri) -> In s (g_subs G).
Hypothesis conns : forallb (fun p => String.eqb (source G (snd p)) (fst p)) (hybrid_conns load) = true.
Hypothesis frees : forallb (fun x => String.eqb (source G x) x)
  ["throttle"; "propulsor_active"; "fltcond|rho"; "fltcond|Utrue"; "prop1.rpm"; "prop2.rpm"; "hybrid_split.power_split_fraction"; "duration"; "batt1.SOC_initial"] = true.
Hypothesis energy : source G "specific_energy" = "specific_energy".
Hypothesis dvs : forall a b, In (a, b) (hybrid_dvs ++ [("ac|propulsion|battery|specific_energy", "specific_energy")]) -> forall i, V b i = V a i.
Lemma src a b : In (a, b) (hybrid_conns load) -> source G b = a.
Proof. intro H. rewrite forallb_forall in conns. specialize (conns _ H). now apply String.eqb_eq in conns. Qed.
Lemma free x : In x ["throttle"; "propulsor_active"; "fltcond|rho"; "fltcond|Utrue"; "prop1.rpm"; "prop2.rpm"; "hybrid_split.power_split_fraction"; "duration"; "batt1.SOC_initial"] -> source G x = x.
Proof. intro H. rewrite forallb_forall in frees. specialize (frees _ H). now apply String.eqb_eq in frees. Qed.
Ltac nth_of k := apply subs; nth_sub k.
Ltac conn k := apply src; nth_sub k.
Ltac own k := apply free; nth_sub k.
Lemma c_power1 : source G "prop1.shaft_power_in" = "motor1.shaft_power_out". Proof. conn 0%nat. Qed.
Lemma c_power2 : source G "prop2.shaft_power_in" = "motor2.shaft_power_out". Proof. conn 1%nat. Qed.
Lemma c_throttle2 : source G "motor2.throttle" = "failedmotor.motor2throttle". Proof. conn 2%nat. Qed.
Lemma c_load : source G "hybrid_split.power_in" = load. Proof. conn 7%nat. Qed.
Lemma c_gen : source G "gen1.shaft_power_in" = "eng1.shaft_power_out". Proof. conn 8%nat. Qed.
Lemma c_batt : source G "batt1.elec_load" = "hybrid_split.power_out_A". Proof. conn 9%nat. Qed.
Lemma c_req : source G "eng_throttle_set.gen_power_required" = "hybrid_split.power_out_B". Proof. conn 10%nat. Qed.
Lemma c_avail : source G "eng_throttle_set.gen_power_available" = "gen1.elec_power_out". Proof. conn 11%nat. Qed.
Lemma c_et : source G "eng1.throttle" = "eng_throttle_set.eng_throttle". Proof. conn 12%nat. Qed.
Lemma c_rel : source G "relabel.hybrid_split_A_in" = "hybrid_split.power_out_A". Proof. conn 13%nat. Qed.
Lemma c_er : source G "eng1.shaft_power_rating" = "eng_rating". Proof. conn 18%nat. Qed.
Lemma c_d1 : source G "prop1.diameter" = "prop_diameter". Proof. conn 19%nat. Qed.
Lemma c_d2 : source G "prop2.diameter" = "prop_diameter". Proof. conn 20%nat. Qed.
Lemma c_m1 : source G "motor1.elec_power_rating" = "motor_rating". Proof. conn 21%nat. Qed.
Lemma c_m2 : source G "motor2.elec_power_rating" = "motor_rating". Proof. conn 22%nat. Qed.
Lemma c_p1 : source G "prop1.power_rating" = "motor_rating". Proof. conn 23%nat. Qed.
Lemma c_p2 : source G "prop2.power_rating" = "motor_rating". Proof. conn 24%nat. Qed.
Lemma c_gr : source G "gen1.elec_power_rating" = "gen_rating". Proof. conn 25%nat. Qed.
Lemma c_bw : source G "batt1.battery_weight" = "batt_weight". Proof. conn 26%nat. Qed.
Lemma dv_er : V "eng_rating" 0%nat = V "ac|propulsion|engine|rating" 0%nat. Proof. apply dvs. nth_sub 0%nat. Qed.
Lemma dv_d : V "prop_diameter" 0%nat = V "ac|propulsion|propeller|diameter" 0%nat. Proof. apply dvs. nth_sub 1%nat. Qed.
Lemma dv_mr : V "motor_rating" 0%nat = V "ac|propulsion|motor|rating" 0%nat. Proof. apply dvs. nth_sub 2%nat. Qed.
Lemma dv_gr : V "gen_rating" 0%nat = V "ac|propulsion|generator|rating" 0%nat. Proof. apply dvs. nth_sub 3%nat. Qed.
Lemma dv_bw : V "batt_weight" 0%nat = V "ac|weights|W_battery" 0%nat. Proof. apply dvs. nth_sub 4%nat. Qed.
Lemma dv_se : V "specific_energy" 0%nat = V "ac|propulsion|battery|specific_energy" 0%nat. Proof. apply dvs. nth_sub 5%nat. Qed.

(** Everything but the two sums, which differ between the systems. *)
Lemma hybrid_core i : (i < nn)%nat ->
  V "motor1.elec_load" i = V "throttle" i * V "ac|propulsion|motor|rating" 0%nat /\
  V "motor2.elec_load" i = V "propulsor_active" i * V "throttle" i * V "ac|propulsion|motor|rating" 0%nat /\
  V "motor1.heat_out" i = 3/100 * V "motor1.elec_load" i /\ V "motor2.heat_out" i = 3/100 * V "motor2.elec_load" i /\
  V "battery_load" i = V "hybrid_split.power_split_fraction" i * V load i /\
  V "gen1.elec_power_out" i + V "battery_load" i = V load i /\
  97/100 * V "eng1.shaft_power_out" i = V "gen1.elec_power_out" i /\
  V "eng_throttle_set.eng_throttle" i * V "ac|propulsion|engine|rating" 0%nat = V "eng1.shaft_power_out" i /\
  V "fuel_flow" i = fuel_per_joule * V "eng1.shaft_power_out" i /\
  V "batt1.heat_out" i = 3/100 * V "battery_load" i /\
  (propeller_runs V i "prop1.rpm" "ac|propulsion|propeller|diameter" ->
   V "prop1.thrust" i = propeller_thrust (eta_map M) (static_map M) (V "fltcond|rho" i) (V "fltcond|Utrue" i)
     (V "ac|propulsion|propeller|diameter" 0%nat) (V "prop1.rpm" i) (97/100 * V "motor1.elec_load" i)) /\
  (propeller_runs V i "prop2.rpm" "ac|propulsion|propeller|diameter" ->
   V "prop2.thrust" i = propeller_thrust (eta_map M) (static_map M) (V "fltcond|rho" i) (V "fltcond|Utrue" i)
     (V "ac|propulsion|propeller|diameter" 0%nat) (V "prop2.rpm" i) (97/100 * V "motor2.elec_load" i)).
Proof.
  intro Hi.
  pose proof (sol_comp G V _ _ _ _ _ "elec_load" _ _ i S ltac:(nth_of 0%nat) eq_refl Hi) as L1.
  pose proof (sol_comp G V _ _ _ _ _ "heat_out" _ _ i S ltac:(nth_of 0%nat) eq_refl Hi) as H1.
  pose proof (sol_comp G V _ _ _ _ _ "shaft_power_out" _ _ i S ltac:(nth_of 0%nat) eq_refl Hi) as P1.
  pose proof (propeller_in G V M nn "prop1" _ _ S ltac:(nth_of 1%nat)) as [_ T1]. specialize (T1 i Hi).
  pose proof (sol_rel G V _ S ltac:(nth_of 2%nat) i Hi) as A.
  pose proof (sol_comp G V _ _ _ _ _ "elec_load" _ _ i S ltac:(nth_of 3%nat) eq_refl Hi) as L2.
  pose proof (sol_comp G V _ _ _ _ _ "heat_out" _ _ i S ltac:(nth_of 3%nat) eq_refl Hi) as H2.
  pose proof (sol_comp G V _ _ _ _ _ "shaft_power_out" _ _ i S ltac:(nth_of 3%nat) eq_refl Hi) as P2.
  pose proof (propeller_in G V M nn "prop2" _ _ S ltac:(nth_of 4%nat)) as [_ T2]. specialize (T2 i Hi).
  pose proof (sol_comp G V _ _ _ _ _ "power_out_A" _ _ i S ltac:(nth_of 5%nat) eq_refl Hi) as SA.
  pose proof (sol_comp G V _ _ _ _ _ "power_out_B" _ _ i S ltac:(nth_of 5%nat) eq_refl Hi) as SB.
  pose proof (sol_comp G V _ _ _ _ _ "shaft_power_out" _ _ i S ltac:(nth_of 6%nat) eq_refl Hi) as EP.
  pose proof (sol_comp G V _ _ _ _ _ "fuel_flow" _ _ i S ltac:(nth_of 6%nat) eq_refl Hi) as EF.
  pose proof (sol_comp G V _ _ _ _ _ "elec_power_out" _ _ i S ltac:(nth_of 7%nat) eq_refl Hi) as GP.
  pose proof (battery_in G V nn tri _ "batt1" _ _ S ltac:(nth_of 8%nat)) as [B _]. specialize (B i Hi). destruct B as [BH _].
  pose proof (sol_rel G V _ S ltac:(nth_of 9%nat) i Hi) as BA.
  pose proof (sol_rel G V _ S ltac:(nth_of 10%nat) _ _ ltac:(left; reflexivity) i) as RL.
  change (V "motor1.elec_load" i = V (source G "throttle") i * V (source G "motor1.elec_power_rating") 0%nat) in L1.
  change (V "motor1.heat_out" i = V (source G "throttle") i * V (source G "motor1.elec_power_rating") 0%nat * (1 - 97/100)) in H1.
  change (V "motor1.shaft_power_out" i = V (source G "throttle") i * V (source G "motor1.elec_power_rating") 0%nat * (97/100)) in P1.
  change (V "motor2.elec_load" i = V (source G "motor2.throttle") i * V (source G "motor2.elec_power_rating") 0%nat) in L2.
  change (V "motor2.heat_out" i = V (source G "motor2.throttle") i * V (source G "motor2.elec_power_rating") 0%nat * (1 - 97/100)) in H2.
  change (V "motor2.shaft_power_out" i = V (source G "motor2.throttle") i * V (source G "motor2.elec_power_rating") 0%nat * (97/100)) in P2.
  rewrite active_value in A by exact Hi. injection A as A.
  change (V (source G "throttle") i * V (source G "propulsor_active") i = V "failedmotor.motor2throttle" i) in A.
  change (V "hybrid_split.power_out_A" i = V (source G "hybrid_split.power_in") i * V (source G "hybrid_split.power_split_fraction") i * 1) in SA.
  change (V "hybrid_split.power_out_B" i = V (source G "hybrid_split.power_in") i * (1 - V (source G "hybrid_split.power_split_fraction") i) * 1) in SB.
  change (V "eng1.shaft_power_out" i = V (source G "eng1.throttle") i * V (source G "eng1.shaft_power_rating") 0%nat) in EP.
  change (V "fuel_flow" i = V (source G "eng1.throttle") i * V (source G "eng1.shaft_power_rating") 0%nat * psfc) in EF.
  change (V "gen1.elec_power_out" i = V (source G "gen1.shaft_power_in") i * (97/100)) in GP.
  change (V "batt1.heat_out" i = V (source G "batt1.elec_load") i * (1 - 97/100)) in BH.
  change (V (source G "eng_throttle_set.gen_power_available") i = V (source G "eng_throttle_set.gen_power_required") i) in BA.
  change (V "battery_load" i = V (source G "relabel.hybrid_split_A_in") i) in RL.
  change (V (source G "fltcond|rho") i <> 0 -> V (source G "prop1.rpm") i <> 0 -> V (source G "prop1.diameter") 0%nat <> 0 ->
    V "prop1.thrust" i = propeller_thrust (eta_map M) (static_map M) (V (source G "fltcond|rho") i) (V (source G "fltcond|Utrue") i)
     (V (source G "prop1.diameter") 0%nat) (V (source G "prop1.rpm") i) (V (source G "prop1.shaft_power_in") i)) in T1.
  change (V (source G "fltcond|rho") i <> 0 -> V (source G "prop2.rpm") i <> 0 -> V (source G "prop2.diameter") 0%nat <> 0 ->
    V "prop2.thrust" i = propeller_thrust (eta_map M) (static_map M) (V (source G "fltcond|rho") i) (V (source G "fltcond|Utrue") i)
     (V (source G "prop2.diameter") 0%nat) (V (source G "prop2.rpm") i) (V (source G "prop2.shaft_power_in") i)) in T2.
  assert (F1 : source G "throttle" = "throttle") by own 0%nat. assert (F2 : source G "propulsor_active" = "propulsor_active") by own 1%nat.
  assert (F3 : source G "fltcond|rho" = "fltcond|rho") by own 2%nat. assert (F4 : source G "fltcond|Utrue" = "fltcond|Utrue") by own 3%nat.
  assert (F5 : source G "prop1.rpm" = "prop1.rpm") by own 4%nat. assert (F6 : source G "prop2.rpm" = "prop2.rpm") by own 5%nat.
  assert (F7 : source G "hybrid_split.power_split_fraction" = "hybrid_split.power_split_fraction") by own 6%nat.
  rewrite ?c_power1, ?c_power2, ?c_throttle2, ?c_load, ?c_gen, ?c_batt, ?c_req, ?c_avail, ?c_et, ?c_rel, ?c_er, ?c_d1, ?c_d2, ?c_m1, ?c_m2,
    ?c_gr, ?dv_er, ?dv_d, ?dv_mr, ?F1, ?F2, ?F3, ?F4, ?F5, ?F6, ?F7 in *.
  unfold fuel_per_joule. fold psfc. unfold psfc in EF.
  split; [exact L1|]. split; [rewrite L2, <- A; ring|]. split; [rewrite H1, L1; field|]. split; [rewrite H2, L2; field|].
  split; [rewrite RL, SA; ring|]. split; [rewrite BA, SB, RL, SA; ring|]. split; [rewrite GP; ring|]. split; [rewrite EP; ring|].
  split; [rewrite EF, EP; unfold psfc; ring|]. split; [rewrite BH, RL; field|].
  unfold propeller_runs. split; intros [Q1 [Q2 Q3]].
  - rewrite (T1 Q1 Q2 Q3). f_equal. rewrite P1, L1. ring.
  - rewrite (T2 Q1 Q2 Q3). f_equal. rewrite P2, L2. ring.
Qed.

Lemma hybrid_weights_core :
  (V "motor1.component_weight" 0%nat = machine_weight (V "ac|propulsion|motor|rating" 0%nat) /\ V "motor2.component_weight" 0%nat = machine_weight (V "ac|propulsion|motor|rating" 0%nat)) /\
  (V "prop1.component_weight" 0%nat = propeller_weight (V "ac|propulsion|motor|rating" 0%nat) (V "ac|propulsion|propeller|diameter" 0%nat) /\
   V "prop2.component_weight" 0%nat = propeller_weight (V "ac|propulsion|motor|rating" 0%nat) (V "ac|propulsion|propeller|diameter" 0%nat)) /\
  V "eng1.component_weight" 0%nat = engine_weight (V "ac|propulsion|engine|rating" 0%nat) /\
  V "gen1.component_weight" 0%nat = machine_weight (V "ac|propulsion|generator|rating" 0%nat).
Proof.
  pose proof (sol_comp G V _ _ _ _ _ "component_weight" _ _ 0%nat S ltac:(nth_of 0%nat) eq_refl Nat.lt_0_1) as W1.
  pose proof (sol_comp G V _ _ _ _ _ "component_weight" _ _ 0%nat S ltac:(nth_of 3%nat) eq_refl Nat.lt_0_1) as W2.
  pose proof (sol_comp G V _ _ _ _ _ "component_weight" _ _ 0%nat S ltac:(nth_of 6%nat) eq_refl Nat.lt_0_1) as W3.
  pose proof (sol_comp G V _ _ _ _ _ "component_weight" _ _ 0%nat S ltac:(nth_of 7%nat) eq_refl Nat.lt_0_1) as W4.
  pose proof (propeller_in G V M nn "prop1" _ _ S ltac:(nth_of 1%nat)) as [T1 _].
  pose proof (propeller_in G V M nn "prop2" _ _ S ltac:(nth_of 4%nat)) as [T2 _].
  change (V "motor1.component_weight" 0%nat = V (source G "motor1.elec_power_rating") 0%nat * (1/5000) + 0) in W1.
  change (V "motor2.component_weight" 0%nat = V (source G "motor2.elec_power_rating") 0%nat * (1/5000) + 0) in W2.
  change (V "eng1.component_weight" 0%nat = V (source G "eng1.shaft_power_rating") 0%nat * (14/100 / 1000) + 104) in W3.
  change (V "gen1.component_weight" 0%nat = V (source G "gen1.elec_power_rating") 0%nat * (1/5000) + 0) in W4.
  change (V "prop1.component_weight" 0%nat = propeller_weight (V (source G "prop1.power_rating") 0%nat) (V (source G "prop1.diameter") 0%nat)) in T1.
  change (V "prop2.component_weight" 0%nat = propeller_weight (V (source G "prop2.power_rating") 0%nat) (V (source G "prop2.diameter") 0%nat)) in T2.
  rewrite ?c_er, ?c_d1, ?c_d2, ?c_m1, ?c_m2, ?c_p1, ?c_p2, ?c_gr, ?dv_er, ?dv_d, ?dv_mr, ?dv_gr in *.
  unfold machine_weight, engine_weight. repeat split; first [exact T1|exact T2|rewrite W1; field|rewrite W2; field|rewrite W3; field|rewrite W4; field].
Qed.

Lemma hybrid_battery_core :
  (forall i, (i < nn)%nat -> V "batt1.dSOCdt" i =
     - (V "battery_load" i / (V "ac|weights|W_battery" 0%nat * V "ac|propulsion|battery|specific_energy" 0%nat)) /\
     V "batt1.component_sizing_margin" i = V "battery_load" i / (5000 * V "ac|weights|W_battery" 0%nat)) /\
  (forall i, (i < nn)%nat -> V "batt1.SOC" i = integ_q nn tri (TDuration (V "duration" 0%nat)) false (V "batt1.SOC_initial" 0%nat) (V "batt1.dSOCdt") i) /\
  V "batt1.SOC_final" 0%nat = integ_q_final nn tri (TDuration (V "duration" 0%nat)) false (V "batt1.SOC_initial" 0%nat) (V "batt1.dSOCdt").
Proof.
  pose proof (battery_in G V nn tri _ "batt1" _ _ S ltac:(nth_of 8%nat)) as [B1 [B2 B3]].
  assert (F1 : source G "duration" = "duration") by own 7%nat. assert (F2 : source G "batt1.SOC_initial" = "batt1.SOC_initial") by own 8%nat.
  split; [|split].
  - intros i Hi. specialize (B1 i Hi). destruct B1 as [_ [B Bm]].
    pose proof (sol_rel G V _ S ltac:(nth_of 10%nat) _ _ ltac:(left; reflexivity) i) as RL.
    change (V "battery_load" i = V (source G "relabel.hybrid_split_A_in") i) in RL.
    change (V "batt1.dSOCdt" i = - (V (source G "batt1.elec_load") i / (V (source G "batt1.battery_weight") 0%nat * V (source G "specific_energy") 0%nat))) in B.
    change (V "batt1.component_sizing_margin" i = V (source G "batt1.elec_load") i / (5000 * V (source G "batt1.battery_weight") 0%nat)) in Bm.
    rewrite ?c_rel, ?c_batt, ?c_bw, ?energy, ?dv_bw, ?dv_se in *. rewrite RL. split; [exact B|exact Bm].
  - intros i Hi. specialize (B2 i Hi).
    change (V "batt1.SOC" i = integ_q nn tri (TDuration (V (source G "duration") 0%nat)) false (V (source G "batt1.SOC_initial") 0%nat) (V "batt1.dSOCdt") i) in B2.
    now rewrite F1, F2 in B2.
  - change (V "batt1.SOC_final" 0%nat = integ_q_final nn tri (TDuration (V (source G "duration") 0%nat)) false (V (source G "batt1.SOC_initial") 0%nat) (V "batt1.dSOCdt")) in B3.
    now rewrite F1, F2 in B3.
Qed.
End hybrid.
