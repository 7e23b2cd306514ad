(** C65: energy accounts of the coolant loops of the propulsion systems. *)
From Coq Require Import Reals List Bool PeanoNat String Lia Lra.
From Coquelicot Require Import Coquelicot.
From Verif Require Import Base Py RSum Spec_Integrals Spec_HX Spec_Ducts Spec_Systems Model_Algebra Model_Integrals Model_Atmos Model_Propulsion Model_Net Model_Thermal
  Model_HX Model_Ducts Model_HeatPipe Model_Systems Proofs_Net Proofs_Ducts Proofs_Systems Proofs_Integrals Props_Integrals Proofs_Thermal Props_Thermal
  Props_HX Props_Ducts Props_Systems.
Import ListNotations.
Open Scope R_scope.
Open Scope string_scope.
Open Scope list_scope.

(** ** Simpson sums *)
Lemma simpson_ext m dt f g : (forall i, (i < 2 * m + 1)%nat -> f i = g i) -> simpson_sum m dt f = simpson_sum m dt g.
Proof. intro H. unfold simpson_sum. f_equal. apply rsum_ext. intros k Hk. rewrite !H by lia. reflexivity. Qed.
Lemma simpson_plus m dt f g : simpson_sum m dt f + simpson_sum m dt g = simpson_sum m dt (fun i => f i + g i).
Proof. unfold simpson_sum. rewrite <- Rmult_plus_distr_l, <- rsum_plus. f_equal. apply rsum_ext. intros. ring. Qed.
Lemma simpson_mult m dt a f : a * simpson_sum m dt f = simpson_sum m dt (fun i => a * f i).
Proof. unfold simpson_sum. rewrite <- (Rmult_assoc a), (Rmult_comm a), Rmult_assoc, <- rsum_scal. f_equal. apply rsum_ext. intros. ring. Qed.

(** ** The parts of a loop, in the enclosing group's names *)
Lemma heatsink_in G V m X dt name pin pout : (0 < m)%nat -> is_inverse (2 * m) simpson_a X -> let tri := method_tri Simpson (2 * m + 1) X in
  solution G V -> In (subgroup name (LiquidCooledComp (2 * m + 1) tri false c_object c_coolant) pin pout) (g_subs G) ->
  let r x := V (source G (gname name pin x)) in let w x := V (gname name pout x) in
  r "duration" 0%nat = INR (2 * m) * dt -> r "mass" 0%nat <> 0 -> (forall i, (i < 2 * m + 1)%nat -> r "mdot_coolant" i <> 0) ->
  r "mass" 0%nat * 921 * (w "T_final" 0%nat - r "T_initial" 0%nat) =
  simpson_sum m dt (fun i => r "q_in" i - r "mdot_coolant" i * 3801 * (w "T_out" i - r "T_in" i)).
Proof.
  intros Hm HX tri S I r w Hd HM Hf. destruct (sol_nested _ _ _ _ _ _ _ _ S I) as [W [SW [HI HO]]].
  pose proof (HI "duration" 0%nat ltac:(inl)) as E1. pose proof (HI "mass" 0%nat ltac:(inl)) as E2.
  pose proof (C47_cooled_component_energy m X c_object c_coolant dt W Hm HX) as F.
  assert (N1 : c_object <> 0) by (unfold c_object; lra). assert (N2 : c_coolant <> 0) by (unfold c_coolant; lra).
  specialize (F N1 N2). rewrite E1, E2 in F. specialize (F HM).
  assert (Hf' : forall i, (i < 2 * m + 1)%nat -> W "mdot_coolant" i <> 0) by (intros i Hi; rewrite (HI "mdot_coolant" i ltac:(inl)); now apply Hf).
  destruct (F Hf' Hd SW) as [F1 _]. rewrite (HO "T_final" 0%nat ltac:(inl)), (HI "T_initial" 0%nat ltac:(inl)) in F1.
  change c_object with 921 in F1. change c_coolant with 3801 in F1. etransitivity; [exact F1|]. apply simpson_ext. intros i _.
  rewrite (HO "T_out" i ltac:(inl)), (HI "q_in" i ltac:(inl)), (HI "mdot_coolant" i ltac:(inl)), (HI "T_in" i ltac:(inl)). reflexivity.
Qed.
Lemma tank_in G V m X dt name pin pout : (0 < m)%nat -> is_inverse (2 * m) simpson_a X -> let tri := method_tri Simpson (2 * m + 1) X in
  solution G V -> In (subgroup name (CoolantReservoir (2 * m + 1) tri) pin pout) (g_subs G) ->
  let r x := V (source G (gname name pin x)) in let w x := V (gname name pout x) in
  r "duration" 0%nat = INR (2 * m) * dt -> r "mass" 0%nat <> 0 ->
  r "mass" 0%nat * (w "T_final" 0%nat - r "T_initial" 0%nat) = simpson_sum m dt (fun i => r "mdot_coolant" i * (r "T_in" i - w "T_out" i)).
Proof.
  intros Hm HX tri S I r w Hd HM. destruct (sol_nested _ _ _ _ _ _ _ _ S I) as [W [SW [HI HO]]].
  pose proof (C47_reservoir_energy m X dt W Hm HX) as F. rewrite (HI "duration" 0%nat ltac:(inl)), (HI "mass" 0%nat ltac:(inl)) in F.
  destruct (F HM Hd SW) as [F1 _]. rewrite (HO "T_final" 0%nat ltac:(inl)), (HI "T_initial" 0%nat ltac:(inl)) in F1. etransitivity; [exact F1|].
  apply simpson_ext. intros i _. rewrite (HO "T_out" i ltac:(inl)), (HI "mdot_coolant" i ltac:(inl)), (HI "T_in" i ltac:(inl)). reflexivity.
Qed.
(** [nm] says where the heat exchanger's variables are found in the enclosing group. *)
Lemma hx_in G V nn name pin pout nm i : solution G V -> In (subgroup name (HXGroup nn) pin pout) (g_subs G) -> (i < nn)%nat ->
  forallb (fun x => String.eqb (source G (gname name pin x)) (nm x)) (free_ins (HXGroup nn)) = true ->
  forallb (fun x => String.eqb (gname name pout x) (nm x)) (group_outs (HXGroup nn)) = true ->
  hx_positive nn (fun x => V (nm x)) ->
  V (nm "mdot_hot") i * V (nm "cp_hot") 0%nat * (V (nm "T_in_hot") i - V (nm "T_out_hot") i) = V (nm "heat_transfer") i /\
  V (nm "mdot_cold") i * V (nm "cp_cold") 0%nat * (V (nm "T_out_cold") i - V (nm "T_in_cold") i) = V (nm "heat_transfer") i /\
  (V (nm "T_in_cold") i < V (nm "T_in_hot") i <-> 0 < V (nm "heat_transfer") i).
Proof.
  intros S I Hi FI FO [P1 P2]. destruct (sol_nested _ _ _ _ _ _ _ _ S I) as [W [SW [HI HO]]].
  assert (RI : forall x j, In x (free_ins (HXGroup nn)) -> W x j = V (nm x) j).
  { intros x j Hx. rewrite (HI x j Hx). rewrite forallb_forall in FI. specialize (FI x Hx). apply String.eqb_eq in FI. now rewrite FI. }
  assert (RO : forall x j, In x (group_outs (HXGroup nn)) -> W x j = V (nm x) j).
  { intros x j Hx. rewrite (HO x j Hx). rewrite forallb_forall in FO. specialize (FO x Hx). apply String.eqb_eq in FO. now rewrite FO. }
  assert (PW : hx_positive nn W).
  { split.
    - intros x Hx. rewrite RI; [now apply P1|]. assert (F : forallb (fun x => mem x (free_ins (HXGroup nn))) hx_scalars = true) by reflexivity.
      rewrite forallb_forall in F. apply mem_In. now apply F.
    - intros x j Hx Hj. rewrite RI; [now apply P2|]. assert (F : forallb (fun x => mem x (free_ins (HXGroup nn))) hx_flows = true) by reflexivity.
      rewrite forallb_forall in F. apply mem_In. now apply F. }
  destruct (C51_heat_balance nn W i SW PW Hi) as [_ [_ [H2 H3]]]. destruct (C51_second_law nn W i SW PW Hi) as [_ [_ [Sg _]]]. cbv zeta in *.
  rewrite (RI "mdot_cold" i ltac:(inl)), (RI "cp_cold" 0%nat ltac:(inl)), (RO "T_out_cold" i ltac:(inl)), (RI "T_in_cold" i ltac:(inl)), (RO "heat_transfer" i ltac:(inl)) in H2.
  rewrite (RI "mdot_hot" i ltac:(inl)), (RI "cp_hot" 0%nat ltac:(inl)), (RO "T_out_hot" i ltac:(inl)), (RI "T_in_hot" i ltac:(inl)), (RO "heat_transfer" i ltac:(inl)) in H3.
  rewrite (RI "T_in_cold" i ltac:(inl)), (RI "T_in_hot" i ltac:(inl)), (RO "heat_transfer" i ltac:(inl)) in Sg. auto.
Qed.
(** Where a user finds the heat exchanger's variables: the two fluids are the outside
    air at the duct's mass flow and the coolant; [own] prefixes the three design
    variables, [hot] names the coolant temperature at the entry. *)
Definition hx_in_system (own hot : string) (x : string) : string :=
  if String.eqb x "mdot_cold" then "duct.mdot"
  else if String.eqb x "mdot_hot" then "mdot_coolant"
  else if String.eqb x "rho_hot" then "rho_coolant"
  else if String.eqb x "rho_cold" then "fltcond|rho"
  else if String.eqb x "T_in_cold" then "fltcond|T"
  else if String.eqb x "T_in_hot" then hot
  else if String.prefix "ac|" x then String.append own x
  else String.append "hx." x.

(** ** C65 *)
(** All-electric aircraft: what the motor and the coolant store over a phase is the heat
    the motor lost minus the heat the air took up. *)
Theorem C65_all_electric M m X dt V : (0 < m)%nat -> is_inverse (2 * m) simpson_a X ->
  V "duration" 0%nat = INR (2 * m) * dt -> V "ac|propulsion|motor|rating" 0%nat <> 0 -> V "coolant_mass" 0%nat <> 0 ->
  let tri := method_tri Simpson (2 * m + 1) X in
  hx_positive (2 * m + 1) (fun x => V (hx_in_system "hx." "motorheatsink.T_out" x)) -> V "hx.cp_hot" 0%nat = 3801 ->
  solution (AllElectricIncompressible M (2 * m + 1) tri) V ->
  V "ac|propulsion|motor|rating" 0%nat / 5000 * 921 * (V "motorheatsink.T_final" 0%nat - V "motorheatsink.T_initial" 0%nat) +
  V "coolant_mass" 0%nat * 3801 * (V "reservoir.T_final" 0%nat - V "reservoir.T_initial" 0%nat) =
  simpson_sum m dt (fun i => 3/100 * (V "throttle" i * V "ac|propulsion|motor|rating" 0%nat) -
    V "duct.mdot" i * V "hx.cp_cold" 0%nat * (V "hx.T_out_cold" i - V "fltcond|T" i)).
Proof.
  intros Hm HX Hd Hr Hc tri Hp Hcp S. set (G := AllElectricIncompressible M (2 * m + 1) tri) in *.
  pose proof (C63_all_electric M (2 * m + 1) tri V) as F. specialize (fun i => F i (or_intror S)).
  destruct (F 0%nat ltac:(lia)) as (_&_&_&_&MW&_). unfold machine_weight in MW.
  assert (HW : V "motor1.component_weight" 0%nat <> 0) by (rewrite MW; intro Z; apply Hr; lra).
  assert (Hmd : forall i, (i < 2 * m + 1)%nat -> 0 < V "mdot_coolant" i) by (intros i Hi; exact (proj2 Hp "mdot_hot" i ltac:(cbn; tauto) Hi)).
  pose proof (heatsink_in G V m X dt "motorheatsink" _ _ Hm HX S ltac:(nth_sub 5%nat) Hd HW (fun i Hi => Rgt_not_eq _ _ (Hmd i Hi))) as A.
  pose proof (tank_in G V m X dt "reservoir" _ _ Hm HX S ltac:(nth_sub 8%nat) Hd Hc) as B.
  change (V "motor1.component_weight" 0%nat * 921 * (V "motorheatsink.T_final" 0%nat - V "motorheatsink.T_initial" 0%nat) =
    simpson_sum m dt (fun i => V "motor1.heat_out" i - V "mdot_coolant" i * 3801 * (V "motorheatsink.T_out" i - V "reservoir.T_out" i))) in A.
  change (V "coolant_mass" 0%nat * (V "reservoir.T_final" 0%nat - V "reservoir.T_initial" 0%nat) =
    simpson_sum m dt (fun i => V "mdot_coolant" i * (V "hx.T_out_hot" i - V "reservoir.T_out" i))) in B.
  rewrite MW in A. rewrite A.
  replace (V "coolant_mass" 0%nat * 3801 * (V "reservoir.T_final" 0%nat - V "reservoir.T_initial" 0%nat)) with
    (3801 * (V "coolant_mass" 0%nat * (V "reservoir.T_final" 0%nat - V "reservoir.T_initial" 0%nat))) by ring.
  rewrite B, simpson_mult, simpson_plus. apply simpson_ext. intros i Hi.
  destruct (F i Hi) as (_&MH&_). rewrite MH.
  destruct (hx_in G V (2 * m + 1) "hx" _ _ (hx_in_system "hx." "motorheatsink.T_out") i S ltac:(nth_sub 7%nat) Hi eq_refl eq_refl Hp) as [Q1 [Q2 _]].
  change (V "mdot_coolant" i * V "hx.cp_hot" 0%nat * (V "motorheatsink.T_out" i - V "hx.T_out_hot" i) = V "hx.heat_transfer" i) in Q1.
  change (V "duct.mdot" i * V "hx.cp_cold" 0%nat * (V "hx.T_out_cold" i - V "fltcond|T" i) = V "hx.heat_transfer" i) in Q2.
  rewrite Q2, <- Q1, Hcp. ring.
Qed.
Print Assumptions C65_all_electric.

(** The same with a compressible duct; the air is heated between stations 2 and 3. *)
Definition duct_in_system (x : string) : string :=
  if String.eqb x "mdot_hot" then "mdot_coolant"
  else if String.eqb x "rho_hot" then "rho_coolant"
  else if String.eqb x "T_in_hot" then "motorheatsink.T_out"
  else if String.eqb x "p_inf" then "fltcond|p" else if String.eqb x "T_inf" then "fltcond|T" else if String.eqb x "Utrue" then "fltcond|Utrue"
  else String.append "duct." x.
Theorem C65_all_electric_compressible M m X dt V : (0 < m)%nat -> is_inverse (2 * m) simpson_a X ->
  V "duration" 0%nat = INR (2 * m) * dt -> V "ac|propulsion|motor|rating" 0%nat <> 0 -> V "coolant_mass" 0%nat <> 0 ->
  let tri := method_tri Simpson (2 * m + 1) X in
  hx_positive (2 * m + 1) (fun x => V (duct_in_system (hx_in_duct x))) -> V "duct.hx.cp_hot" 0%nat = 3801 -> 0 < V "duct.cp" 0%nat ->
  solution (AllElectricCompressible M (2 * m + 1) tri) V ->
  V "ac|propulsion|motor|rating" 0%nat / 5000 * 921 * (V "motorheatsink.T_final" 0%nat - V "motorheatsink.T_initial" 0%nat) +
  V "coolant_mass" 0%nat * 3801 * (V "reservoir.T_final" 0%nat - V "reservoir.T_initial" 0%nat) =
  simpson_sum m dt (fun i => 3/100 * (V "throttle" i * V "ac|propulsion|motor|rating" 0%nat) -
    V "duct.mdot" i * V "duct.cp" 0%nat * (V "duct.sta3.Tt_out" i - V "duct.sta2.Tt_out" i)).
Proof.
  intros Hm HX Hd Hr Hc tri Hp Hcp Hca S. set (G := AllElectricCompressible M (2 * m + 1) tri) in *.
  pose proof (C63_all_electric M (2 * m + 1) tri V) as F. specialize (fun i => F i (or_introl S)).
  destruct (F 0%nat ltac:(lia)) as (_&_&_&_&MW&_). unfold machine_weight in MW.
  assert (HW : V "motor1.component_weight" 0%nat <> 0) by (rewrite MW; intro Z; apply Hr; lra).
  assert (Hmd : forall i, (i < 2 * m + 1)%nat -> 0 < V "mdot_coolant" i) by (intros i Hi; exact (proj2 Hp "mdot_hot" i ltac:(cbn; tauto) Hi)).
  pose proof (heatsink_in G V m X dt "motorheatsink" _ _ Hm HX S ltac:(nth_sub 5%nat) Hd HW (fun i Hi => Rgt_not_eq _ _ (Hmd i Hi))) as A.
  pose proof (tank_in G V m X dt "reservoir" _ _ Hm HX S ltac:(nth_sub 7%nat) Hd Hc) as B.
  change (V "motor1.component_weight" 0%nat * 921 * (V "motorheatsink.T_final" 0%nat - V "motorheatsink.T_initial" 0%nat) =
    simpson_sum m dt (fun i => V "motor1.heat_out" i - V "mdot_coolant" i * 3801 * (V "motorheatsink.T_out" i - V "reservoir.T_out" i))) in A.
  change (V "coolant_mass" 0%nat * (V "reservoir.T_final" 0%nat - V "reservoir.T_initial" 0%nat) =
    simpson_sum m dt (fun i => V "mdot_coolant" i * (V "duct.T_out_hot" i - V "reservoir.T_out" i))) in B.
  rewrite MW in A. rewrite A.
  replace (V "coolant_mass" 0%nat * 3801 * (V "reservoir.T_final" 0%nat - V "reservoir.T_initial" 0%nat)) with
    (3801 * (V "coolant_mass" 0%nat * (V "reservoir.T_final" 0%nat - V "reservoir.T_initial" 0%nat))) by ring.
  rewrite B, simpson_mult, simpson_plus. apply simpson_ext. intros i Hi.
  destruct (F i Hi) as (_&MH&_). rewrite MH.
  destruct (sol_nested G V "duct" _ _ _ _ _ S ltac:(nth_sub 6%nat)) as [W [SW [HI HO]]].
  assert (R : forall x j, In x (free_ins (ImplicitCompressibleDuct (2 * m + 1) (98/100))) \/ In x (group_outs (ImplicitCompressibleDuct (2 * m + 1) (98/100))) ->
    W x j = V (duct_in_system x) j).
  { intros x j [Hx|Hx].
    - rewrite (HI x j Hx). f_equal.
      assert (K : forallb (fun x => String.eqb (source G (gname "duct" [As "p_inf" "fltcond|p"; As "T_inf" "fltcond|T"; As "Utrue" "fltcond|Utrue"] x)) (duct_in_system x))
        (free_ins (ImplicitCompressibleDuct (2 * m + 1) (98/100))) = true) by reflexivity.
      rewrite forallb_forall in K. specialize (K x Hx). now apply String.eqb_eq in K.
    - rewrite (HO x j Hx). f_equal.
      assert (K : forallb (fun x => String.eqb (gname "duct" [] x) (duct_in_system x)) (group_outs (ImplicitCompressibleDuct (2 * m + 1) (98/100))) = true) by reflexivity.
      rewrite forallb_forall in K. specialize (K x Hx). now apply String.eqb_eq in K. }
  assert (RP : forall x, In x hx_scalars \/ In x hx_flows -> forall j, W (hx_in_duct x) j = V (duct_in_system (hx_in_duct x)) j).
  { intros x Hx j. apply R.
    assert (K : forallb (fun x => mem (hx_in_duct x) (free_ins (ImplicitCompressibleDuct (2 * m + 1) (98/100))) || mem (hx_in_duct x) (group_outs (ImplicitCompressibleDuct (2 * m + 1) (98/100))))
      (hx_scalars ++ hx_flows) = true) by reflexivity.
    rewrite forallb_forall in K. specialize (K x ltac:(apply in_or_app; exact Hx)). apply orb_prop in K. rewrite !mem_In in K. exact K. }
  assert (PW : hx_positive (2 * m + 1) (fun x => W (hx_in_duct x))).
  { destruct Hp as [P1 P2]. split; [intros x Hx|intros x j Hx Hj]; rewrite RP by auto; auto. }
  assert (C0 : 0 < W "cp" 0%nat) by (rewrite R by (right; inl); exact Hca).
  destruct (C59_cooling (2 * m + 1) (98/100) W i SW Hi C0 PW) as [Q _].
  rewrite (R "cp" 0%nat ltac:(right; inl)), (R "mdot" i ltac:(right; inl)), (R "sta3.Tt_out" i ltac:(right; inl)), (R "sta2.Tt_out" i ltac:(right; inl)),
    (R "mdot_hot" i ltac:(left; inl)), (R "hx.cp_hot" 0%nat ltac:(left; inl)), (R "T_in_hot" i ltac:(left; inl)), (R "T_out_hot" i ltac:(right; inl)) in Q.
  change (V "duct.cp" 0%nat * V "duct.mdot" i * (V "duct.sta3.Tt_out" i - V "duct.sta2.Tt_out" i) =
    V "mdot_coolant" i * V "duct.hx.cp_hot" 0%nat * (V "motorheatsink.T_out" i - V "duct.T_out_hot" i)) in Q.
  rewrite Hcp in Q. rewrite (Rmult_comm (V "duct.mdot" i)), Q. ring.
Qed.
Print Assumptions C65_all_electric_compressible.

(** Twin hybrid with a passive loop: battery, motors and coolant store the heat lost by
    the battery and both motors minus the heat the air took up. *)
Theorem C65_twin_thermal M m X dt V : (0 < m)%nat -> is_inverse (2 * m) simpson_a X ->
  V "duration" 0%nat = INR (2 * m) * dt -> V "ac|propulsion|motor|rating" 0%nat <> 0 -> V "ac|weights|W_battery" 0%nat <> 0 ->
  V "ac|propulsion|thermal|hx|coolant_mass" 0%nat <> 0 ->
  let tri := method_tri Simpson (2 * m + 1) X in
  hx_positive (2 * m + 1) (fun x => V (hx_in_system "" "motorheatsink.T_out" x)) -> V "hx.cp_hot" 0%nat = 3801 ->
  solution (TwinSeriesHybridElectricThermalPropulsionSystem M (2 * m + 1) tri) V ->
  V "ac|weights|W_battery" 0%nat * 921 * (V "batteryheatsink.T_final" 0%nat - V "batteryheatsink.T_initial" 0%nat) +
  2 * (V "ac|propulsion|motor|rating" 0%nat / 5000) * 921 * (V "motorheatsink.T_final" 0%nat - V "motorheatsink.T_initial" 0%nat) +
  V "ac|propulsion|thermal|hx|coolant_mass" 0%nat * 3801 * (V "reservoir.T_final" 0%nat - V "reservoir.T_initial" 0%nat) =
  simpson_sum m dt (fun i => 3/100 * (V "battery_load" i + V "motors_elec_load" i) -
    V "duct.mdot" i * V "hx.cp_cold" 0%nat * (V "hx.T_out_cold" i - V "fltcond|T" i)).
Proof.
  intros Hm HX Hd Hr Hb Hc tri Hp Hcp S. set (G := TwinSeriesHybridElectricThermalPropulsionSystem M (2 * m + 1) tri) in *.
  pose proof (C63_twin_hybrid_weights M (2 * m + 1) tri V (or_intror (or_introl S))) as [MW _ _ _]. unfold machine_weight in MW.
  assert (HW : V "motors_weight" 0%nat <> 0) by (rewrite MW; intro Z; apply Hr; lra).
  assert (Hmd : forall i, (i < 2 * m + 1)%nat -> 0 < V "mdot_coolant" i) by (intros i Hi; exact (proj2 Hp "mdot_hot" i ltac:(cbn; tauto) Hi)).
  pose proof (thermal_dvs M _ tri V S _ _ ltac:(nth_sub 4%nat) 0%nat) as BW. 
  pose proof (relabel_eq G V _ _ S ltac:(nth_sub 0%nat) eq_refl "ac|propulsion|thermal|hx|coolant_mass" "coolant_mass" ltac:(nth_sub 6%nat) 0%nat) as CM.
  assert (HB : V "batt_weight" 0%nat <> 0) by (rewrite BW; exact Hb). assert (HC : V "coolant_mass" 0%nat <> 0) by (rewrite CM; exact Hc).
  pose proof (heatsink_in G V m X dt "batteryheatsink" _ _ Hm HX S ltac:(nth_sub 15%nat) Hd HB (fun i Hi => Rgt_not_eq _ _ (Hmd i Hi))) as A0.
  pose proof (heatsink_in G V m X dt "motorheatsink" _ _ Hm HX S ltac:(nth_sub 16%nat) Hd HW (fun i Hi => Rgt_not_eq _ _ (Hmd i Hi))) as A.
  pose proof (tank_in G V m X dt "reservoir" _ _ Hm HX S ltac:(nth_sub 19%nat) Hd HC) as B.
  change (V "batt_weight" 0%nat * 921 * (V "batteryheatsink.T_final" 0%nat - V "batteryheatsink.T_initial" 0%nat) =
    simpson_sum m dt (fun i => V "batt1.heat_out" i - V "mdot_coolant" i * 3801 * (V "batteryheatsink.T_out" i - V "reservoir.T_out" i))) in A0.
  change (V "motors_weight" 0%nat * 921 * (V "motorheatsink.T_final" 0%nat - V "motorheatsink.T_initial" 0%nat) =
    simpson_sum m dt (fun i => V "motors_heat" i - V "mdot_coolant" i * 3801 * (V "motorheatsink.T_out" i - V "batteryheatsink.T_out" i))) in A.
  change (V "coolant_mass" 0%nat * (V "reservoir.T_final" 0%nat - V "reservoir.T_initial" 0%nat) =
    simpson_sum m dt (fun i => V "mdot_coolant" i * (V "hx.T_out_hot" i - V "reservoir.T_out" i))) in B.
  rewrite MW in A. rewrite BW in A0. rewrite CM in B. rewrite A, A0.
  replace (V "ac|propulsion|thermal|hx|coolant_mass" 0%nat * 3801 * (V "reservoir.T_final" 0%nat - V "reservoir.T_initial" 0%nat)) with
    (3801 * (V "ac|propulsion|thermal|hx|coolant_mass" 0%nat * (V "reservoir.T_final" 0%nat - V "reservoir.T_initial" 0%nat))) by ring.
  rewrite B, simpson_mult, !simpson_plus. apply simpson_ext. intros i Hi.
  destruct (hybrid_core M _ tri G "motors_elec_load" V S (thermal_subs M _ tri) eq_refl eq_refl (thermal_dvs M _ tri V S) i Hi) as (L1&L2&H1&H2&_&_&_&_&_&BH&_).
  pose proof (sol_adders G V "adder" _ _ _ _ i S ltac:(nth_sub 2%nat) ltac:(nth_sub 2%nat) Hi) as AH. rewrite add2 in AH by exact Hi. injection AH as AH.
  change (V "motor1.heat_out" i + V "motor2.heat_out" i = V "motors_heat" i) in AH.
  pose proof (sol_adders G V "add_power" _ _ _ _ i S ltac:(nth_sub 1%nat) ltac:(nth_sub 0%nat) Hi) as AL. rewrite add2 in AL by exact Hi. injection AL as AL.
  change (V "motor1.elec_load" i + V "motor2.elec_load" i = V "motors_elec_load" i) in AL.
  destruct (hx_in G V (2 * m + 1) "hx" _ _ (hx_in_system "" "motorheatsink.T_out") i S ltac:(nth_sub 18%nat) Hi eq_refl eq_refl Hp) as [Q1 [Q2 _]].
  change (V "mdot_coolant" i * V "hx.cp_hot" 0%nat * (V "motorheatsink.T_out" i - V "hx.T_out_hot" i) = V "hx.heat_transfer" i) in Q1.
  change (V "duct.mdot" i * V "hx.cp_cold" 0%nat * (V "hx.T_out_cold" i - V "fltcond|T" i) = V "hx.heat_transfer" i) in Q2.
  rewrite Q2, <- Q1, Hcp, <- AH, <- AL, H1, H2, BH. ring.
Qed.
Print Assumptions C65_twin_thermal.

(** Twin hybrid with a refrigerator between a cold and a hot loop: battery and motors
    store what they and the refrigerator's shaft put in minus what the air took up. *)
Theorem C65_twin_refrigerated M m X dt V : (0 < m)%nat -> is_inverse (2 * m) simpson_a X ->
  V "duration" 0%nat = INR (2 * m) * dt -> V "ac|propulsion|motor|rating" 0%nat <> 0 -> V "ac|weights|W_battery" 0%nat <> 0 ->
  let tri := method_tri Simpson (2 * m + 1) X in
  hx_positive (2 * m + 1) (fun x => V (hx_in_system "" "refrig.T_out_hot" x)) -> V "hx.cp_hot" 0%nat = 3801 ->
  solution (TwinSeriesHybridElectricThermalPropulsionRefrigerated M (2 * m + 1) tri) V ->
  V "ac|weights|W_battery" 0%nat * 921 * (V "batteryheatsink.T_final" 0%nat - V "batteryheatsink.T_initial" 0%nat) +
  2 * (V "ac|propulsion|motor|rating" 0%nat / 5000) * 921 * (V "motorheatsink.T_final" 0%nat - V "motorheatsink.T_initial" 0%nat) =
  simpson_sum m dt (fun i => 3/100 * (V "battery_load" i + (V "total_elec_load" i - V "refrig.elec_load" i)) + 95/100 * V "refrig.elec_load" i -
    V "duct.mdot" i * V "hx.cp_cold" 0%nat * (V "hx.T_out_cold" i - V "fltcond|T" i)).
Proof.
  intros Hm HX Hd Hr Hb tri Hp Hcp S. set (G := TwinSeriesHybridElectricThermalPropulsionRefrigerated M (2 * m + 1) tri) in *.
  pose proof (C63_twin_hybrid_weights M (2 * m + 1) tri V (or_intror (or_intror S))) as [MW _ _ _]. unfold machine_weight in MW.
  assert (HW : V "motors_weight" 0%nat <> 0) by (rewrite MW; intro Z; apply Hr; lra).
  assert (Hmd : forall i, (i < 2 * m + 1)%nat -> 0 < V "mdot_coolant" i) by (intros i Hi; exact (proj2 Hp "mdot_hot" i ltac:(cbn; tauto) Hi)).
  pose proof (refrigerated_dvs M _ tri V S _ _ ltac:(nth_sub 4%nat) 0%nat) as BW.
  assert (HB : V "batt_weight" 0%nat <> 0) by (rewrite BW; exact Hb).
  pose proof (heatsink_in G V m X dt "batteryheatsink" _ _ Hm HX S ltac:(nth_sub 16%nat) Hd HB (fun i Hi => Rgt_not_eq _ _ (Hmd i Hi))) as A0.
  pose proof (heatsink_in G V m X dt "motorheatsink" _ _ Hm HX S ltac:(nth_sub 17%nat) Hd HW (fun i Hi => Rgt_not_eq _ _ (Hmd i Hi))) as A.
  change (V "batt_weight" 0%nat * 921 * (V "batteryheatsink.T_final" 0%nat - V "batteryheatsink.T_initial" 0%nat) =
    simpson_sum m dt (fun i => V "batt1.heat_out" i - V "mdot_coolant" i * 3801 * (V "batteryheatsink.T_out" i - V "refrig.T_out_cold" i))) in A0.
  change (V "motors_weight" 0%nat * 921 * (V "motorheatsink.T_final" 0%nat - V "motorheatsink.T_initial" 0%nat) =
    simpson_sum m dt (fun i => V "motors_heat" i - V "mdot_coolant" i * 3801 * (V "motorheatsink.T_out" i - V "batteryheatsink.T_out" i))) in A.
  rewrite MW in A. rewrite BW in A0. rewrite A, A0.
  rewrite !simpson_plus. apply simpson_ext. intros i Hi.
  destruct (hybrid_core M _ tri G "total_elec_load" V S (refrigerated_subs M _ tri) eq_refl eq_refl (refrigerated_dvs M _ tri V S) i Hi) as (L1&L2&H1&H2&_&_&_&_&_&BH&_).
  pose proof (sol_adders G V "adder" _ _ _ _ i S ltac:(nth_sub 2%nat) ltac:(nth_sub 2%nat) Hi) as AH. rewrite add2 in AH by exact Hi. injection AH as AH.
  change (V "motor1.heat_out" i + V "motor2.heat_out" i = V "motors_heat" i) in AH.
  pose proof (sol_adders G V "add_power" _ _ _ _ i S ltac:(nth_sub 1%nat) ltac:(nth_sub 0%nat) Hi) as AL. rewrite add3 in AL by exact Hi. injection AL as AL.
  change (V "motor1.elec_load" i + V "motor2.elec_load" i + V "refrig.elec_load" i = V "total_elec_load" i) in AL.
  destruct (hx_in G V (2 * m + 1) "hx" _ _ (hx_in_system "" "refrig.T_out_hot") i S ltac:(nth_sub 19%nat) Hi eq_refl eq_refl Hp) as [Q1 [Q2 _]].
  change (V "mdot_coolant" i * V "hx.cp_hot" 0%nat * (V "refrig.T_out_hot" i - V "hx.T_out_hot" i) = V "hx.heat_transfer" i) in Q1.
  change (V "duct.mdot" i * V "hx.cp_cold" 0%nat * (V "hx.T_out_cold" i - V "fltcond|T" i) = V "hx.heat_transfer" i) in Q2.
  destruct (sol_nested G V "refrig" _ _ _ _ _ S ltac:(nth_sub 15%nat)) as [W [SW [HI HO]]].
  assert (NC : c_coolant <> 0) by (unfold c_coolant; lra).
  assert (NM : W "mdot_coolant" i <> 0). { rewrite (HI "mdot_coolant" i ltac:(inl)). apply Rgt_not_eq. exact (Hmd i Hi). }
  destruct (C49_first_law (2 * m + 1) false c_coolant W i Hi NC NM SW) as [E _].
  rewrite (HI "mdot_coolant" i ltac:(inl)), (HI "T_in_hot" i ltac:(inl)), (HI "T_in_cold" i ltac:(inl)), (HO "T_out_hot" i ltac:(inl)), (HO "T_out_cold" i ltac:(inl)),
    (HO "elec_load" i ltac:(inl)) in E.
  change (V "mdot_coolant" i * 3801 * (V "refrig.T_out_hot" i + V "refrig.T_out_cold" i - (V "hx.T_out_hot" i + V "motorheatsink.T_out" i)) = 95/100 * V "refrig.elec_load" i) in E.
  rewrite Q2, <- Q1, Hcp, <- AH, <- AL, H1, H2, BH, <- E. ring.
Qed.
Print Assumptions C65_twin_refrigerated.
