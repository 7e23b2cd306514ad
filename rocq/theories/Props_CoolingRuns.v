(** C65 on converged states: the all-electric aircraft with a liquid cooled motor has a
    steady state for every coolant temperature above the outside air's, so the
    hypotheses of the energy accounts are met by running systems. *)
From Coq Require Import Reals List Bool PeanoNat String Lia Lra.
From Coquelicot Require Import Coquelicot.
From Verif Require Import Base Py RSum Spec_Integrals Spec_HX Spec_Ducts Spec_Systems Model_Algebra Model_Integrals Model_Atmos Model_Propulsion Model_Net Model_Thermal
  Model_HX Model_Ducts Model_HeatPipe Model_Systems Proofs_Net Proofs_Cs Proofs_Integrals Proofs_Thermal Proofs_HX Proofs_Ducts Proofs_Systems Proofs_Exec
  Props_Integrals Props_Thermal Props_HX Props_Ducts Props_Systems Props_SystemRuns Props_Cooling.
Import ListNotations.
Open Scope R_scope.
Open Scope string_scope.
Open Scope list_scope.

(** ** Steady parts of a loop *)
Lemma integ_steady nn tri d q r i : (forall j, (j < nn)%nat -> r j = 0) -> (i < nn)%nat -> integ_q nn tri (TDuration d) false q r i = q.
Proof.
  intros H Hi. unfold integ_q, start_value. destruct (Nat.eqb nn 1); [reflexivity|]. unfold multistep, mvec. rewrite Nat.mul_1_r.
  rewrite rsum_zero; [ring|]. intros j Hj. rewrite H by exact Hj. ring.
Qed.
Lemma heatsink_steady nn tri name pin pout (I O : env) : (0 < nn)%nat ->
  (forall i, (i < nn)%nat -> I "mdot_coolant" i <> 0 /\ I "q_in" i = O "hex.q" i /\
     (1 - exp (- (plate_UA default_k default_Nu (I "channel_width" 0%nat) (I "channel_height" 0%nat) (I "channel_length" 0%nat) (I "n_parallel" 0%nat) /
        (I "mdot_coolant" i * 3801)))) * (I "mdot_coolant" i * 3801) * (I "T_initial" 0%nat - I "T_in" i) = O "hex.q" i /\
     O "base.dTdt" i = 0 /\ O "T" i = I "T_initial" 0%nat /\ O "T_out" i = I "T_in" i + O "hex.q" i / I "mdot_coolant" i / 3801) ->
  O "T_final" 0%nat = I "T_initial" 0%nat ->
  gs_rel (subgroup name (LiquidCooledComp nn tri false c_object c_coolant) pin pout) I O.
Proof.
  intros Hn H HF. set (g := LiquidCooledComp nn tri false c_object c_coolant). set (W := fun x i => if mem x (group_outs g) then O x i else I x i).
  exists W. split; [|split].
  - intros s Hs. unfold g, LiquidCooledComp in Hs. cbn [g_subs app In] in Hs. destruct Hs as [<-|[<-|[<-|[]]]].
    + intros o k f i A Hi. apply assoc_In in A. unfold ThermalComponentWithMass in A. cbn [pc_outs In] in A. each_in A.
      destruct (H i Hi) as (_&E&_&Z&_). change (O "base.dTdt" i = (I "q_in" i - O "hex.q" i) / I "mass" 0%nat / c_object). rewrite Z, E. unfold Rdiv. ring.
    + split.
      * intros i Hi. destruct (H i Hi) as (_&_&_&_&E&_).
        change (O "T" i = integ_q nn tri (TDuration (I "duration" 0%nat)) false (I "T_initial" 0%nat) (fun j => O "base.dTdt" j) i).
        rewrite E. symmetry. apply integ_steady; [|exact Hi]. intros j Hj. now destruct (H j Hj) as (_&_&_&Z&_).
      * change (O "T_final" 0%nat = integ_q_final nn tri (TDuration (I "duration" 0%nat)) false (I "T_initial" 0%nat) (fun j => O "base.dTdt" j)).
        rewrite HF. symmetry. apply integ_steady; [|lia]. intros j Hj. now destruct (H j Hj) as (_&_&_&Z&_).
    + intros o k f i A Hi. apply assoc_In in A. unfold ColdPlate in A. cbn [pc_outs In] in A.
      assert (Hi' : (i < nn)%nat) by (destruct A as [A|[A|[]]]; injection A as <- <- <-; exact Hi).
      destruct (H i Hi') as (Hm&_&Hq&_&ET&EO).
      each_in A.
      * change (O "hex.q" i = (1 - exp (- (plate_UA default_k default_Nu (I "channel_width" 0%nat) (I "channel_height" 0%nat) (I "channel_length" 0%nat) (I "n_parallel" 0%nat) /
          (I "mdot_coolant" i * 3801)))) * (I "mdot_coolant" i * 3801) * (O "T" i - I "T_in" i)). rewrite ET. now symmetry.
      * change (O "T_out" i = I "T_in" i + (1 - exp (- (plate_UA default_k default_Nu (I "channel_width" 0%nat) (I "channel_height" 0%nat) (I "channel_length" 0%nat) (I "n_parallel" 0%nat) /
          (I "mdot_coolant" i * 3801)))) * (I "mdot_coolant" i * 3801) * (O "T" i - I "T_in" i) / I "mdot_coolant" i / 3801). rewrite ET, Hq. exact EO.
  - intros x i Hx. unfold W. assert (D : disjoint (free_ins g) (group_outs g) = true) by reflexivity. pose proof (disjoint_spec _ _ _ D Hx) as N.
    destruct (mem x (group_outs g)) eqn:E; [|reflexivity]. apply mem_In in E. contradiction.
  - intros o i Ho. unfold W. apply mem_In in Ho. now rewrite Ho.
Qed.
Lemma tank_steady nn tri name pin pout (I O : env) : (0 < nn)%nat ->
  (forall i, (i < nn)%nat -> I "T_in" i = I "T_initial" 0%nat /\ O "rate.dTdt" i = 0 /\ O "T_out" i = I "T_initial" 0%nat) ->
  O "T_final" 0%nat = I "T_initial" 0%nat -> gs_rel (subgroup name (CoolantReservoir nn tri) pin pout) I O.
Proof.
  intros Hn H HF. set (g := CoolantReservoir nn tri). set (W := fun x i => if mem x (group_outs g) then O x i else I x i).
  exists W. split; [|split].
  - intros s Hs. unfold g, CoolantReservoir in Hs. cbn [g_subs app In] in Hs. destruct Hs as [<-|[<-|[]]].
    + intros o k f i A Hi. apply assoc_In in A. unfold CoolantReservoirRate in A. cbn [pc_outs In] in A. each_in A.
      destruct (H i Hi) as (E1&E2&E3). change (O "rate.dTdt" i = I "mdot_coolant" i / I "mass" 0%nat * (I "T_in" i - O "T_out" i)). rewrite E1, E2, E3. ring.
    + split.
      * intros i Hi. destruct (H i Hi) as (_&_&E).
        change (O "T_out" i = integ_q nn tri (TDuration (I "duration" 0%nat)) false (I "T_initial" 0%nat) (fun j => O "rate.dTdt" j) i).
        rewrite E. symmetry. apply integ_steady; [|exact Hi]. intros j Hj. now destruct (H j Hj) as (_&Z&_).
      * change (O "T_final" 0%nat = integ_q_final nn tri (TDuration (I "duration" 0%nat)) false (I "T_initial" 0%nat) (fun j => O "rate.dTdt" j)).
        rewrite HF. symmetry. apply integ_steady; [|lia]. intros j Hj. now destruct (H j Hj) as (_&Z&_).
  - intros x i Hx. unfold W. assert (D : disjoint (free_ins g) (group_outs g) = true) by reflexivity. pose proof (disjoint_spec _ _ _ D Hx) as N.
    destruct (mem x (group_outs g)) eqn:E; [|reflexivity]. apply mem_In in E. contradiction.
  - intros o i Ho. unfold W. apply mem_In in Ho. now rewrite Ho.
Qed.

(** A heat exchanger analysed at one point, the same at every point. *)
Lemma hx_steady nn H : solution (HXGroup 1) H -> hx_positive 1 H -> solution (HXGroup nn) (fun x _ => H x 0%nat).
Proof.
  intros S [P1 P2]. apply checked_of_plain.
  2:{ split; [exact P1|]. intros x i Hx _. apply P2; [exact Hx|lia]. }
  apply plain_of_checked in S. intros s Hs.
  assert (K : forall name C, In (comp 1 name C [P "*"] [P "*"]) (g_subs (HXPlain 1)) ->
    gs_rel (comp nn name C [P "*"] [P "*"]) (reads (HXPlain nn) (comp nn name C [P "*"] [P "*"]) (fun x _ => H x 0%nat)) (writes (comp nn name C [P "*"] [P "*"]) (fun x _ => H x 0%nat))).
  { intros name C HI o k f i A Hi. pose proof (star_rel_env (HXPlain 1) H (comp 1 name C [P "*"] [P "*"]) eq_refl eq_refl eq_refl S HI o k f 0%nat A) as R.
    assert (L : (0 < size 1 k)%nat) by (destruct k; cbn; lia). specialize (R L). 
    rewrite star_writes by reflexivity. rewrite R.
    unfold vcompute, nval. rewrite A.
    assert (Q : node C H 0%nat = node C (reads (HXPlain nn) (comp nn name C [P "*"] [P "*"]) (fun x _ => H x 0%nat)) i).
    { apply FunctionalExtensionality.functional_extensionality. intro x. unfold node. rewrite star_reads by reflexivity. destruct (assoc x (pc_ins C)) as [[]|]; reflexivity. }
    now rewrite Q. }
  cbn [HXPlain g_subs In] in Hs.
  repeat match type of Hs with _ = _ \/ _ => destruct Hs as [<-|Hs] end; try contradiction.
  { pose proof (S _ (or_introl eq_refl)) as R. intros a b Hab j. exact (R a b Hab 0%nat). }
  all: apply K; cbn [HXPlain g_subs In]; tauto.
Qed.

(** ** C65: the all-electric aircraft runs steadily *)
(** For any air flow through the duct, any coolant flow, any heat exchanger and any
    coolant temperature at its entry above that of the outside air there are a throttle,
    a nozzle area and an airspeed with which all temperatures stay where they are: the
    motor is hotter than the coolant leaving it, the coolant comes back between the
    outside air and that, and the motor is running. *)
Definition steady_inputs : list string :=
  ["duct.mdot"; "mdot_coolant"; "rho_coolant"; "coolant_mass"; "channel_width"; "channel_height"; "channel_length"; "n_parallel"; "fltcond|rho"; "fltcond|T";
   "motorheatsink.T_out"; "duration"; "ac|propulsion|motor|rating"; "ac|weights|W_battery"; "ac|propulsion|propeller|diameter";
   "hx.ac|propulsion|thermal|hx|n_wide_cold"; "hx.ac|propulsion|thermal|hx|n_long_cold"; "hx.ac|propulsion|thermal|hx|n_tall";
   "hx.channel_width_hot"; "hx.channel_height_hot"; "hx.fin_length_hot"; "hx.channel_width_cold"; "hx.channel_height_cold"; "hx.fin_length_cold";
   "hx.fin_thickness"; "hx.plate_thickness"; "hx.case_thickness"; "hx.material_rho"; "hx.material_k";
   "hx.mu_cold"; "hx.mu_hot"; "hx.k_cold"; "hx.k_hot"; "hx.cp_cold"; "hx.cp_hot"].
Definition steady_base (H V0 : env) (thr U area drag Ts Tr Q : R) : env := fun x i =>
  if String.eqb x "throttle" then thr
  else if String.eqb x "fltcond|Utrue" then U
  else if String.eqb x "area_nozzle" then area
  else if String.eqb x "duct.drag" then drag
  else if mem x ["motorheatsink.T"; "motorheatsink.T_initial"; "motorheatsink.T_final"] then Ts
  else if mem x ["motorheatsink.base.dTdt"; "reservoir.rate.dTdt"] then 0
  else if String.eqb x "motorheatsink.hex.q" then Q
  else if mem x ["reservoir.T_out"; "reservoir.T_initial"; "reservoir.T_final"] then Tr
  else if String.prefix "hx." x then H (String.substring 3 (String.length x) x) 0%nat
  else V0 x 0%nat.
Theorem C65_all_electric_steady M nn tri V0 : (0 < nn)%nat ->
  hx_positive 1 (fun x _ => V0 (hx_in_system "hx." "motorheatsink.T_out" x) 0%nat) -> V0 "hx.cp_hot" 0%nat = 3801 ->
  V0 "fltcond|T" 0%nat < V0 "motorheatsink.T_out" 0%nat -> 0 < V0 "ac|propulsion|motor|rating" 0%nat ->
  (forall x, In x ["channel_width"; "channel_height"; "channel_length"; "n_parallel"] -> 0 < V0 x 0%nat) ->
  exists V, solution (AllElectricIncompressible M nn tri) V /\
    (forall x i, In x steady_inputs -> V x i = V0 x 0%nat) /\
    forall i, (i < nn)%nat -> 0 < V "throttle" i /\ 0 < V "area_nozzle" i /\ 0 < V "fltcond|Utrue" i /\
      V "fltcond|T" i < V "reservoir.T_out" i < V "motorheatsink.T_out" i /\ V "motorheatsink.T_out" i < V "motorheatsink.T" i /\
      V "motorheatsink.T" i = V "motorheatsink.T_initial" 0%nat /\ V "reservoir.T_out" i = V "reservoir.T_initial" 0%nat.
Proof.
  intros Hn HP Hcp HT Hr Hch. set (G := AllElectricIncompressible M nn tri).
  destruct (C51_solvable 1 _ HP) as [_ [H [SH [PH EH]]]].
  destruct (C51_heat_balance 1 H 0%nat SH PH ltac:(lia)) as [_ [_ [_ HB]]]. cbv zeta in HB.
  destruct (C51_second_law 1 H 0%nat SH PH ltac:(lia)) as [_ [Bh [_ _]]].
  assert (E1 : H "T_in_hot" 0%nat = V0 "motorheatsink.T_out" 0%nat) by (apply (EH "T_in_hot" 0%nat); inl).
  assert (E2 : H "T_in_cold" 0%nat = V0 "fltcond|T" 0%nat) by (apply (EH "T_in_cold" 0%nat); inl).
  assert (E3 : H "mdot_hot" 0%nat = V0 "mdot_coolant" 0%nat) by (apply (EH "mdot_hot" 0%nat); inl).
  assert (E4 : H "cp_hot" 0%nat = 3801) by (rewrite (EH "cp_hot" 0%nat) by inl; exact Hcp).
  assert (P1 : 0 < V0 "mdot_coolant" 0%nat) by (rewrite <- E3; apply (proj2 PH); [inl|lia]).
  assert (P2 : 0 < V0 "duct.mdot" 0%nat) by (exact (proj2 HP "mdot_cold" 0%nat ltac:(inl) ltac:(lia))).
  assert (P3 : 0 < V0 "fltcond|rho" 0%nat) by (exact (proj2 HP "rho_cold" 0%nat ltac:(inl) ltac:(lia))).
  destruct Bh as [Bh _]. rewrite E1, E2 in Bh. specialize (Bh HT). rewrite E1, E3, E4 in HB.
  set (Tc := V0 "fltcond|T" 0%nat) in *. set (Th := V0 "motorheatsink.T_out" 0%nat) in *. set (md := V0 "mdot_coolant" 0%nat) in *. set (Tr := H "T_out_hot" 0%nat) in *.
  set (ma := V0 "duct.mdot" 0%nat) in *. set (rho := V0 "fltcond|rho" 0%nat) in *. set (r := V0 "ac|propulsion|motor|rating" 0%nat) in *.
  set (Q := md * 3801 * (Th - Tr)). set (dp := H "delta_p_cold" 0%nat). set (U := sqrt (2 * Rabs dp / rho + 1)).
  set (UA := plate_UA default_k default_Nu (V0 "channel_width" 0%nat) (V0 "channel_height" 0%nat) (V0 "channel_length" 0%nat) (V0 "n_parallel" 0%nat)).
  set (eff := 1 - exp (- (UA / (md * 3801)))). set (Ts := Tr + (Th - Tr) / eff). set (thr := Q / (3/100 * r)).
  set (int := duct_interior (15/100) rho U dp). set (area := ma / sqrt int). set (drag := ma * (U - 98/100 * ma / area / rho)).
  assert (PQ : 0 < Q) by (unfold Q; apply Rmult_lt_0_compat; lra).
  assert (PU : 0 < U). { unfold U. apply sqrt_lt_R0. pose proof (Rabs_pos dp). assert (0 <= 2 * Rabs dp / rho) by (apply Rmult_le_pos; [lra|]; left; now apply Rinv_0_lt_compat). lra. }
  assert (PI : 0 < int).
  { unfold int, duct_interior. apply Rdiv_lt_0_compat; [|lra]. unfold U. rewrite pow2_sqrt.
    2:{ pose proof (Rabs_pos dp). assert (0 <= 2 * Rabs dp / rho) by (apply Rmult_le_pos; [lra|]; left; now apply Rinv_0_lt_compat). lra. }
    replace (rho ^ 2 * (2 * Rabs dp / rho + 1) + 2 * rho * dp) with (2 * rho * (Rabs dp + dp) + rho ^ 2) by (field; lra).
    pose proof (Rle_abs (- dp)). rewrite Rabs_Ropp in *. assert (0 < rho ^ 2) by (apply pow_lt; lra). nra. }
  assert (PS : 0 < sqrt int) by now apply sqrt_lt_R0.
  assert (PA : 0 < area) by (unfold area; now apply Rdiv_lt_0_compat).
  assert (PUA : 0 < UA).
  { unfold UA, plate_UA, default_Nu, default_k. pose proof (Hch "channel_width" ltac:(inl)). pose proof (Hch "channel_height" ltac:(inl)).
    pose proof (Hch "channel_length" ltac:(inl)). pose proof (Hch "n_parallel" ltac:(inl)).
    repeat first [lra | apply Rdiv_lt_0_compat | apply Rmult_lt_0_compat | apply Rplus_lt_0_compat]. }
  assert (PE : 0 < eff < 1).
  { unfold eff. assert (0 < UA / (md * 3801)) by (apply Rdiv_lt_0_compat; lra). pose proof (exp_pos (- (UA / (md * 3801)))).
    assert (exp (- (UA / (md * 3801))) < 1) by (rewrite <- exp_0; apply exp_increasing; lra). lra. }
  assert (PT : Th < Ts).
  { unfold Ts. assert ((Th - Tr) * eff < Th - Tr) by nra. assert (Th - Tr < (Th - Tr) / eff); [|lra].
    apply (Rmult_lt_reg_r eff); [lra|]. unfold Rdiv. rewrite Rmult_assoc, Rinv_l by lra. lra. }
  set (B := steady_base H V0 thr U area drag Ts Tr Q).
  set (G' := {| g_subs := electric_subs M nn tri; g_conns := g_conns G |}).
  destruct (exec G' (electric_subs M nn tri) B) as [V [S HV]]; [unfold electric_subs; all_run|reflexivity|intros s K; exact K|].
  assert (F : forall x i, mem x (flat_map out_names (electric_subs M nn tri)) = false -> V x i = B x i).
  { intros x i A. apply HV. intro K. apply mem_In in K. congruence. }
  exists V. split; [|split].
  - intros s Hs. unfold G, AllElectricIncompressible in Hs. cbn [g_subs] in Hs. apply in_app_or in Hs.
    destruct Hs as [Hs|Hs]; [exact (S s Hs)|]. cbn [In] in Hs. destruct Hs as [<-|[<-|[<-|[<-|[<-|[]]]]]].
    + exact Logic.I.
    + apply heatsink_steady; [exact Hn| |].
      * intros i Hi. change (V "mdot_coolant" i <> 0 /\ V "motor1.heat_out" i = V "motorheatsink.hex.q" i /\
          (1 - exp (- (plate_UA default_k default_Nu (V "channel_width" 0%nat) (V "channel_height" 0%nat) (V "channel_length" 0%nat) (V "n_parallel" 0%nat) /
          (V "mdot_coolant" i * 3801)))) * (V "mdot_coolant" i * 3801) * (V "motorheatsink.T_initial" 0%nat - V "reservoir.T_out" i) = V "motorheatsink.hex.q" i /\
          V "motorheatsink.base.dTdt" i = 0 /\ V "motorheatsink.T" i = V "motorheatsink.T_initial" 0%nat /\
          V "motorheatsink.T_out" i = V "reservoir.T_out" i + V "motorheatsink.hex.q" i / V "mdot_coolant" i / 3801).
        pose proof (sol_comp G' V _ _ _ _ _ "heat_out" _ _ i S ltac:(nth_sub 1%nat) eq_refl Hi) as L.
        change (V "motor1.heat_out" i = V "throttle" i * V "motor1_rating" 0%nat * (1 - 97/100)) in L.
        pose proof (relabel_eq G' V _ _ S ltac:(nth_sub 0%nat) eq_refl _ _ ltac:(nth_sub 0%nat) 0%nat) as D.
        change (V "motor1_rating" 0%nat = V "ac|propulsion|motor|rating" 0%nat) in D.
        rewrite L, D. rewrite !F by reflexivity.
        change (md <> 0 /\ thr * r * (1 - 97/100) = Q /\ eff * (md * 3801) * (Ts - Tr) = Q /\ 0 = 0 /\ Ts = Ts /\ Th = Tr + Q / md / 3801).
        repeat split; try lra.
        -- unfold thr. field. lra.
        -- unfold Ts, Q. field. lra.
        -- unfold Q. field. lra.
      * change (V "motorheatsink.T_final" 0%nat = V "motorheatsink.T_initial" 0%nat). now rewrite !F by reflexivity.
    + intros o k f i A Hi. apply assoc_In in A. unfold ExplicitIncompressibleDuct in A. cbn [pc_outs In] in A.
      assert (M0 : unspurious (area * sqrt (unspurious int)) = ma).
      { unfold unspurious at 2. destruct Rlt_dec; [lra|]. replace (area * sqrt int) with ma by (unfold area; field; lra). unfold unspurious. destruct Rlt_dec; lra. }
      each_in A.
      * change (V "duct.mdot" i = unspurious (V "area_nozzle" i * sqrt (unspurious (duct_interior (15/100) (V "fltcond|rho" i) (V "fltcond|Utrue" i) (V "hx.delta_p_cold" i))))).
        rewrite !F by reflexivity. symmetry. exact M0.
      * change (V "duct.drag" i = unspurious (V "area_nozzle" i * sqrt (unspurious (duct_interior (15/100) (V "fltcond|rho" i) (V "fltcond|Utrue" i) (V "hx.delta_p_cold" i)))) *
          (V "fltcond|Utrue" i - 98/100 * unspurious (V "area_nozzle" i * sqrt (unspurious (duct_interior (15/100) (V "fltcond|rho" i) (V "fltcond|Utrue" i) (V "hx.delta_p_cold" i)))) /
          V "area_nozzle" i / V "fltcond|rho" i)).
        rewrite !F by reflexivity.
        change (drag = unspurious (area * sqrt (unspurious int)) * (U - 98/100 * unspurious (area * sqrt (unspurious int)) / area / rho)).
        rewrite M0. reflexivity.
    + exists (fun x _ => H x 0%nat). split; [now apply hx_steady|]. split.
      * intros x i Hx. cbn in Hx.
        assert (K : forall y, reads G (subgroup "hx" (HXGroup nn) [As "T_in_cold" "fltcond|T"; As "rho_cold" "fltcond|rho"] []) V y i = V (source G (gname "hx" [As "T_in_cold" "fltcond|T"; As "rho_cold" "fltcond|rho"] y)) i) by reflexivity.
        repeat (destruct Hx as [<-|Hx]; [match goal with |- H ?y 0%nat = _ => let z := eval vm_compute in (hx_in_system "hx." "motorheatsink.T_out" y) in
          change (H y 0%nat = V z i); rewrite F by reflexivity; first [reflexivity | rewrite (EH y 0%nat) by inl; reflexivity] end|]). destruct Hx.
      * intros o i Ho. cbn in Ho.
        repeat (destruct Ho as [<-|Ho]; [match goal with |- H ?y 0%nat = _ => let z := eval vm_compute in (String.append "hx." y) in
          change (H y 0%nat = V z i); rewrite F by reflexivity; reflexivity end|]). destruct Ho.
    + apply tank_steady; [exact Hn| |].
      * intros i Hi. change (V "hx.T_out_hot" i = V "reservoir.T_initial" 0%nat /\ V "reservoir.rate.dTdt" i = 0 /\ V "reservoir.T_out" i = V "reservoir.T_initial" 0%nat).
        rewrite !F by reflexivity. repeat split; reflexivity.
      * change (V "reservoir.T_final" 0%nat = V "reservoir.T_initial" 0%nat). now rewrite !F by reflexivity.
  - intros x i Hx. unfold steady_inputs in Hx. cbn [In] in Hx.
    repeat (destruct Hx as [<-|Hx]; [rewrite F by reflexivity; first [reflexivity |
      match goal with |- _ = V0 ?z 0%nat => let y := eval vm_compute in (String.substring 3 (String.length z) z) in change (H y 0%nat = V0 z 0%nat); rewrite (EH y 0%nat) by inl; reflexivity end]|]). destruct Hx.
  - intros i Hi. rewrite !F by reflexivity.
    change (0 < thr /\ 0 < area /\ 0 < U /\ Tc < Tr < Th /\ Th < Ts /\ Ts = Ts /\ Tr = Tr).
    assert (0 < thr) by (unfold thr; apply Rdiv_lt_0_compat; lra). repeat split; lra.
Qed.
Print Assumptions C65_all_electric_steady.

(** ** C65: the twin hybrid with a passive coolant loop runs steadily *)
Definition twin_inputs : list string :=
  ["duct.mdot"; "mdot_coolant"; "rho_coolant"; "fltcond|rho"; "fltcond|T"; "motorheatsink.T_out"; "duration"; "propulsor_active"; "hybrid_split.power_split_fraction";
   "ac|propulsion|motor|rating"; "ac|propulsion|engine|rating"; "ac|propulsion|generator|rating"; "ac|weights|W_battery"; "ac|propulsion|propeller|diameter";
   "ac|propulsion|battery|specific_energy"; "ac|propulsion|thermal|hx|coolant_mass"; "ac|propulsion|thermal|hx|channel_width"; "ac|propulsion|thermal|hx|channel_height";
   "ac|propulsion|thermal|hx|channel_length"; "ac|propulsion|thermal|hx|n_parallel";
   "ac|propulsion|thermal|hx|n_wide_cold"; "ac|propulsion|thermal|hx|n_long_cold"; "ac|propulsion|thermal|hx|n_tall";
   "hx.channel_width_hot"; "hx.channel_height_hot"; "hx.fin_length_hot"; "hx.channel_width_cold"; "hx.channel_height_cold"; "hx.fin_length_cold";
   "hx.fin_thickness"; "hx.plate_thickness"; "hx.case_thickness"; "hx.material_rho"; "hx.material_k";
   "hx.mu_cold"; "hx.mu_hot"; "hx.k_cold"; "hx.k_hot"; "hx.cp_cold"; "hx.cp_hot"].
Definition twin_base (H V0 : env) (thr eth U area drag Tb Tm Ts Tr Qb Qm : R) : env := fun x i =>
  if String.eqb x "throttle" then thr
  else if String.eqb x "eng_throttle_set.eng_throttle" then eth
  else if String.eqb x "fltcond|Utrue" then U
  else if String.eqb x "ac|propulsion|thermal|duct|area_nozzle" then area
  else if String.eqb x "duct.drag" then drag
  else if String.eqb x "ac|propulsion|thermal|hx|mdot_coolant" then V0 "mdot_coolant" 0%nat
  else if mem x ["batteryheatsink.T"; "batteryheatsink.T_initial"; "batteryheatsink.T_final"] then Tb
  else if mem x ["motorheatsink.T"; "motorheatsink.T_initial"; "motorheatsink.T_final"] then Ts
  else if mem x ["motorheatsink.base.dTdt"; "batteryheatsink.base.dTdt"; "reservoir.rate.dTdt"] then 0
  else if String.eqb x "batteryheatsink.hex.q" then Qb
  else if String.eqb x "batteryheatsink.T_out" then Tm
  else if String.eqb x "motorheatsink.hex.q" then Qm
  else if mem x ["reservoir.T_out"; "reservoir.T_initial"; "reservoir.T_final"] then Tr
  else if String.prefix "hx." x then H (String.substring 3 (String.length x) x) 0%nat
  else V0 x 0%nat.
Theorem C65_twin_thermal_steady M nn tri V0 : (0 < nn)%nat ->
  hx_positive 1 (fun x _ => V0 (hx_in_system "" "motorheatsink.T_out" x) 0%nat) -> V0 "hx.cp_hot" 0%nat = 3801 ->
  V0 "fltcond|T" 0%nat < V0 "motorheatsink.T_out" 0%nat -> 0 < V0 "ac|propulsion|motor|rating" 0%nat -> 0 < V0 "ac|propulsion|engine|rating" 0%nat ->
  0 <= V0 "propulsor_active" 0%nat -> 0 < V0 "hybrid_split.power_split_fraction" 0%nat <= 1 ->
  (forall x, In x ["channel_width"; "channel_height"; "channel_length"; "n_parallel"] -> 0 < V0 (String.append "ac|propulsion|thermal|hx|" x) 0%nat) ->
  exists V, solution (TwinSeriesHybridElectricThermalPropulsionSystem M nn tri) V /\
    (forall x i, In x twin_inputs -> V x i = V0 x 0%nat) /\
    forall i, (i < nn)%nat -> 0 < V "throttle" i /\ 0 < V "ac|propulsion|thermal|duct|area_nozzle" i /\ 0 < V "fltcond|Utrue" i /\
      V "fltcond|T" i < V "reservoir.T_out" i < V "batteryheatsink.T_out" i /\ V "batteryheatsink.T_out" i < V "motorheatsink.T_out" i /\
      V "batteryheatsink.T_out" i < V "batteryheatsink.T" i /\ V "motorheatsink.T_out" i < V "motorheatsink.T" i /\
      V "batteryheatsink.T" i = V "batteryheatsink.T_initial" 0%nat /\
      V "motorheatsink.T" i = V "motorheatsink.T_initial" 0%nat /\ V "reservoir.T_out" i = V "reservoir.T_initial" 0%nat.
Proof.
  intros Hn HP Hcp HT Hr Her Ha Hs Hch. set (G := TwinSeriesHybridElectricThermalPropulsionSystem M nn tri).
  destruct (C51_solvable 1 _ HP) as [_ [H [SH [PH EH]]]].
  destruct (C51_heat_balance 1 H 0%nat SH PH ltac:(lia)) as [_ [_ [_ HB]]]. cbv zeta in HB.
  destruct (C51_second_law 1 H 0%nat SH PH ltac:(lia)) as [_ [Bh [_ _]]].
  assert (E1 : H "T_in_hot" 0%nat = V0 "motorheatsink.T_out" 0%nat) by (apply (EH "T_in_hot" 0%nat); inl).
  assert (E2 : H "T_in_cold" 0%nat = V0 "fltcond|T" 0%nat) by (apply (EH "T_in_cold" 0%nat); inl).
  assert (E3 : H "mdot_hot" 0%nat = V0 "mdot_coolant" 0%nat) by (apply (EH "mdot_hot" 0%nat); inl).
  assert (E4 : H "cp_hot" 0%nat = 3801) by (rewrite (EH "cp_hot" 0%nat) by inl; exact Hcp).
  assert (P1 : 0 < V0 "mdot_coolant" 0%nat) by (rewrite <- E3; apply (proj2 PH); [inl|lia]).
  assert (P2 : 0 < V0 "duct.mdot" 0%nat) by (exact (proj2 HP "mdot_cold" 0%nat ltac:(inl) ltac:(lia))).
  assert (P3 : 0 < V0 "fltcond|rho" 0%nat) by (exact (proj2 HP "rho_cold" 0%nat ltac:(inl) ltac:(lia))).
  destruct Bh as [Bh _]. rewrite E1, E2 in Bh. specialize (Bh HT). rewrite E1, E3, E4 in HB.
  set (Tc := V0 "fltcond|T" 0%nat) in *. set (Th := V0 "motorheatsink.T_out" 0%nat) in *. set (md := V0 "mdot_coolant" 0%nat) in *. set (Tr := H "T_out_hot" 0%nat) in *.
  set (ma := V0 "duct.mdot" 0%nat) in *. set (rho := V0 "fltcond|rho" 0%nat) in *. set (r := V0 "ac|propulsion|motor|rating" 0%nat) in *.
  set (er := V0 "ac|propulsion|engine|rating" 0%nat) in *. set (act := V0 "propulsor_active" 0%nat) in *. set (sp := V0 "hybrid_split.power_split_fraction" 0%nat) in *.
  set (L := md * 3801 * (Th - Tr) / (3/100 * (1 + sp))). set (Qb := 3/100 * (sp * L)). set (Qm := 3/100 * L). set (Tm := Tr + Qb / (md * 3801)).
  set (dp := H "delta_p_cold" 0%nat). set (U := sqrt (2 * Rabs dp / rho + 1)).
  set (UA := plate_UA default_k default_Nu (V0 "ac|propulsion|thermal|hx|channel_width" 0%nat) (V0 "ac|propulsion|thermal|hx|channel_height" 0%nat)
    (V0 "ac|propulsion|thermal|hx|channel_length" 0%nat) (V0 "ac|propulsion|thermal|hx|n_parallel" 0%nat)).
  set (eff := 1 - exp (- (UA / (md * 3801)))). set (Ts := Tm + (Th - Tm) / eff). set (Tb := Tr + (Tm - Tr) / eff).
  set (thr := L / ((1 + act) * r)). set (eth := (1 - sp) * L / (97/100 * er)).
  set (int := duct_interior (15/100) rho U dp). set (area := ma / sqrt int). set (drag := ma * (U - 98/100 * ma / area / rho)).
  assert (PL : 0 < L) by (unfold L; apply Rdiv_lt_0_compat; [apply Rmult_lt_0_compat|]; lra).
  assert (PT : Tr < Tm < Th).
  { assert (D : Tm - Tr = (Th - Tr) * (sp / (1 + sp))) by (unfold Tm, Qb, L; field; lra).
    assert (0 < sp / (1 + sp)) by (apply Rdiv_lt_0_compat; lra).
    assert (sp / (1 + sp) < 1). { apply (Rmult_lt_reg_r (1 + sp)); [lra|]. unfold Rdiv. rewrite Rmult_assoc, Rinv_l by lra. lra. }
    nra. }
  assert (PU : 0 < U). { unfold U. apply sqrt_lt_R0. pose proof (Rabs_pos dp). assert (0 <= 2 * Rabs dp / rho) by (apply Rmult_le_pos; [lra|]; left; now apply Rinv_0_lt_compat). lra. }
  assert (PI : 0 < int).
  { unfold int, duct_interior. apply Rdiv_lt_0_compat; [|lra]. unfold U. rewrite pow2_sqrt.
    2:{ pose proof (Rabs_pos dp). assert (0 <= 2 * Rabs dp / rho) by (apply Rmult_le_pos; [lra|]; left; now apply Rinv_0_lt_compat). lra. }
    replace (rho ^ 2 * (2 * Rabs dp / rho + 1) + 2 * rho * dp) with (2 * rho * (Rabs dp + dp) + rho ^ 2) by (field; lra).
    pose proof (Rle_abs (- dp)). rewrite Rabs_Ropp in *. assert (0 < rho ^ 2) by (apply pow_lt; lra). nra. }
  assert (PS : 0 < sqrt int) by now apply sqrt_lt_R0.
  assert (PA : 0 < area) by (unfold area; now apply Rdiv_lt_0_compat).
  assert (PUA : 0 < UA).
  { unfold UA, plate_UA, default_Nu, default_k. pose proof (Hch "channel_width" ltac:(inl)). pose proof (Hch "channel_height" ltac:(inl)).
    pose proof (Hch "channel_length" ltac:(inl)). pose proof (Hch "n_parallel" ltac:(inl)). cbn [String.append] in *.
    repeat first [lra | apply Rdiv_lt_0_compat | apply Rmult_lt_0_compat | apply Rplus_lt_0_compat]. }
  assert (PE : 0 < eff < 1).
  { unfold eff. assert (0 < UA / (md * 3801)) by (apply Rdiv_lt_0_compat; lra). pose proof (exp_pos (- (UA / (md * 3801)))).
    assert (exp (- (UA / (md * 3801))) < 1) by (rewrite <- exp_0; apply exp_increasing; lra). lra. }
  assert (GE : forall d, 0 < d -> d < d / eff).
  { intros d Hd. apply (Rmult_lt_reg_r eff); [lra|]. unfold Rdiv. rewrite Rmult_assoc, Rinv_l by lra. nra. }
  assert (PT1 : Th < Ts) by (unfold Ts; pose proof (GE (Th - Tm) ltac:(lra)); lra).
  assert (PT2 : Tm < Tb) by (unfold Tb; pose proof (GE (Tm - Tr) ltac:(lra)); lra).
  set (B := twin_base H V0 thr eth U area drag Tb Tm Ts Tr Qb Qm).
  set (bal := balance2 nn "eng_throttle_set" "eng_throttle" "gen_power_available" "gen_power_required" [] []).
  set (order := match g_subs G with
    | [dv; pw; wt; m1; p1; fm; m2; p2; sp; en; ge; ba; _; re; _; _; _; _; _; _] => [dv; m1; p1; fm; m2; p2; pw; wt; sp; en; ge; ba; re] | l => l end).
  set (G' := {| g_subs := order; g_conns := g_conns G |}).
  destruct (exec G' order B) as [V [S HV]];
    [unfold order, G, TwinSeriesHybridElectricThermalPropulsionSystem; cbn [g_subs hybrid_subs app]; unfold heat_adder; all_run|reflexivity|intros s K; exact K|].
  assert (F : forall x i, mem x (flat_map out_names order) = false -> V x i = B x i).
  { intros x i A. apply HV. intro K. apply mem_In in K. congruence. }
  assert (DV : forall a b i, In (a, b) (hybrid_dvs ++ coolant_dvs ++ [("ac|propulsion|battery|specific_energy", "specific_energy")]) -> V b i = V (source G' a) i).
  { intros a b i Hab. pose proof (relabel_eq G' V _ _ S ltac:(nth_sub 0%nat) eq_refl _ _ Hab i) as D. rewrite D. f_equal.
    unfold hybrid_dvs, coolant_dvs in Hab. cbn [app In] in Hab. repeat (destruct Hab as [E|Hab]; [injection E as <- <-; reflexivity|]). destruct Hab. }
  assert (Dmd : forall i, V "mdot_coolant" i = md) by (intro i; rewrite (DV _ "mdot_coolant" i ltac:(nth_sub 5%nat)); change (V "ac|propulsion|thermal|hx|mdot_coolant" i = md); now rewrite F by reflexivity).
  assert (Dr : forall i, V "motor_rating" i = r) by (intro i; rewrite (DV _ "motor_rating" i ltac:(nth_sub 2%nat)); change (V "ac|propulsion|motor|rating" i = r); now rewrite F by reflexivity).
  assert (De : forall i, V "eng_rating" i = er) by (intro i; rewrite (DV _ "eng_rating" i ltac:(nth_sub 0%nat)); change (V "ac|propulsion|engine|rating" i = er); now rewrite F by reflexivity).
  assert (DUA : plate_UA default_k default_Nu (V "channel_width" 0%nat) (V "channel_height" 0%nat) (V "channel_length" 0%nat) (V "n_parallel" 0%nat) = UA).
  { rewrite (DV _ "channel_width" 0%nat ltac:(nth_sub 7%nat)), (DV _ "channel_height" 0%nat ltac:(nth_sub 8%nat)), (DV _ "channel_length" 0%nat ltac:(nth_sub 9%nat)), (DV _ "n_parallel" 0%nat ltac:(nth_sub 10%nat)).
    change (plate_UA default_k default_Nu (V "ac|propulsion|thermal|hx|channel_width" 0%nat) (V "ac|propulsion|thermal|hx|channel_height" 0%nat)
      (V "ac|propulsion|thermal|hx|channel_length" 0%nat) (V "ac|propulsion|thermal|hx|n_parallel" 0%nat) = UA). now rewrite !F by reflexivity. }
  assert (LOADS : forall i, (i < nn)%nat -> V "motors_elec_load" i = L /\ V "motors_heat" i = Qm /\ V "batt1.heat_out" i = Qb /\ V "gen1.elec_power_out" i = V "hybrid_split.power_out_B" i).
  { intros i Hi.
    pose proof (sol_comp G' V _ _ _ _ _ "elec_load" _ _ i S ltac:(nth_sub 1%nat) eq_refl Hi) as L1. pose proof (sol_comp G' V _ _ _ _ _ "heat_out" _ _ i S ltac:(nth_sub 1%nat) eq_refl Hi) as H1.
    pose proof (sol_rel G' V _ S ltac:(nth_sub 3%nat) i Hi) as A. rewrite active_value in A by exact Hi. injection A as A.
    pose proof (sol_comp G' V _ _ _ _ _ "elec_load" _ _ i S ltac:(nth_sub 4%nat) eq_refl Hi) as L2. pose proof (sol_comp G' V _ _ _ _ _ "heat_out" _ _ i S ltac:(nth_sub 4%nat) eq_refl Hi) as H2.
    pose proof (sol_adders G' V "add_power" _ _ _ _ i S ltac:(nth_sub 6%nat) ltac:(nth_sub 0%nat) Hi) as LL. rewrite add2 in LL by exact Hi. injection LL as LL.
    pose proof (sol_adders G' V "adder" _ _ _ _ i S ltac:(nth_sub 7%nat) ltac:(nth_sub 2%nat) Hi) as HH. rewrite add2 in HH by exact Hi. injection HH as HH.
    pose proof (sol_comp G' V _ _ _ _ _ "power_out_A" _ _ i S ltac:(nth_sub 8%nat) eq_refl Hi) as SA.
    pose proof (sol_comp G' V _ _ _ _ _ "power_out_B" _ _ i S ltac:(nth_sub 8%nat) eq_refl Hi) as SB.
    pose proof (sol_comp G' V _ _ _ _ _ "shaft_power_out" _ _ i S ltac:(nth_sub 9%nat) eq_refl Hi) as EP.
    pose proof (sol_comp G' V _ _ _ _ _ "elec_power_out" _ _ i S ltac:(nth_sub 10%nat) eq_refl Hi) as GP.
    destruct (battery_in G' V nn tri _ "batt1" _ _ S ltac:(nth_sub 11%nat)) as [BB _]. destruct (BB i Hi) as [BH _]. clear BB.
    change (V "motor1.elec_load" i = V "throttle" i * V "motor_rating" 0%nat) in L1. change (V "motor1.heat_out" i = V "throttle" i * V "motor_rating" 0%nat * (1 - 97/100)) in H1.
    change (V "motor2.elec_load" i = V "failedmotor.motor2throttle" i * V "motor_rating" 0%nat) in L2. change (V "motor2.heat_out" i = V "failedmotor.motor2throttle" i * V "motor_rating" 0%nat * (1 - 97/100)) in H2.
    change (V "throttle" i * V "propulsor_active" i = V "failedmotor.motor2throttle" i) in A.
    change (V "motor1.elec_load" i + V "motor2.elec_load" i = V "motors_elec_load" i) in LL. change (V "motor1.heat_out" i + V "motor2.heat_out" i = V "motors_heat" i) in HH.
    change (V "hybrid_split.power_out_A" i = V "motors_elec_load" i * V "hybrid_split.power_split_fraction" i * 1) in SA.
    change (V "hybrid_split.power_out_B" i = V "motors_elec_load" i * (1 - V "hybrid_split.power_split_fraction" i) * 1) in SB.
    change (V "eng1.shaft_power_out" i = V "eng_throttle_set.eng_throttle" i * V "eng_rating" 0%nat) in EP.
    change (V "gen1.elec_power_out" i = V "eng1.shaft_power_out" i * (97/100)) in GP.
    change (V "batt1.heat_out" i = V "hybrid_split.power_out_A" i * (1 - 97/100)) in BH.
    assert (f1 : V "throttle" i = thr) by now rewrite F by reflexivity. assert (f2 : V "propulsor_active" i = act) by now rewrite F by reflexivity.
    assert (f3 : V "hybrid_split.power_split_fraction" i = sp) by now rewrite F by reflexivity. assert (f4 : V "eng_throttle_set.eng_throttle" i = eth) by now rewrite F by reflexivity.
    rewrite Dr, f1 in L1, H1. rewrite <- A, Dr, f1, f2 in L2, H2. rewrite De, f4 in EP.
    assert (ML : V "motors_elec_load" i = L) by (rewrite <- LL, L1, L2; unfold thr; field; lra).
    rewrite ML, f3 in SA, SB. rewrite SA in BH. split; [exact ML|]. split; [|split].
    - rewrite <- HH, H1, H2. unfold Qm, thr. field. lra.
    - rewrite BH. unfold Qb. field.
    - rewrite GP, EP, SB. unfold eth. field. lra. }
  assert (K : forall s, In s (g_subs G) -> In s order \/ s = bal \/ In s (skipn 14 (g_subs G))).
  { intros s Hs'. unfold order, G, TwinSeriesHybridElectricThermalPropulsionSystem in *. cbn [g_subs hybrid_subs app In skipn] in *.
    repeat (destruct Hs' as [<-|Hs']; [first [right; left; reflexivity|tauto]|]). destruct Hs'. }
  exists V. split; [|split].
  - intros s Hs'. apply K in Hs'. clear K. destruct Hs' as [Hs'|[->|Hs']]; [exact (S s Hs')| |].
    { intros i Hi. change (V "gen1.elec_power_out" i = V "hybrid_split.power_out_B" i). now destruct (LOADS i Hi) as (_&_&_&E). }
    unfold G, TwinSeriesHybridElectricThermalPropulsionSystem in Hs'. cbn [g_subs hybrid_subs app skipn In] in Hs'.
    destruct Hs' as [<-|[<-|[<-|[<-|[<-|[<-|[]]]]]]].
    + exact Logic.I.
    + apply heatsink_steady; [exact Hn| |].
      * intros i Hi. change (V "mdot_coolant" i <> 0 /\ V "batt1.heat_out" i = V "batteryheatsink.hex.q" i /\
          (1 - exp (- (plate_UA default_k default_Nu (V "channel_width" 0%nat) (V "channel_height" 0%nat) (V "channel_length" 0%nat) (V "n_parallel" 0%nat) /
          (V "mdot_coolant" i * 3801)))) * (V "mdot_coolant" i * 3801) * (V "batteryheatsink.T_initial" 0%nat - V "reservoir.T_out" i) = V "batteryheatsink.hex.q" i /\
          V "batteryheatsink.base.dTdt" i = 0 /\ V "batteryheatsink.T" i = V "batteryheatsink.T_initial" 0%nat /\
          V "batteryheatsink.T_out" i = V "reservoir.T_out" i + V "batteryheatsink.hex.q" i / V "mdot_coolant" i / 3801).
        destruct (LOADS i Hi) as (_&_&E&_). rewrite E, DUA, !Dmd. rewrite !F by reflexivity.
        change (md <> 0 /\ Qb = Qb /\ eff * (md * 3801) * (Tb - Tr) = Qb /\ 0 = 0 /\ Tb = Tb /\ Tm = Tr + Qb / md / 3801).
        repeat split; try lra; [unfold Tb, Tm|unfold Tm]; field; lra.
      * change (V "batteryheatsink.T_final" 0%nat = V "batteryheatsink.T_initial" 0%nat). now rewrite !F by reflexivity.
    + apply heatsink_steady; [exact Hn| |].
      * intros i Hi. change (V "mdot_coolant" i <> 0 /\ V "motors_heat" i = V "motorheatsink.hex.q" i /\
          (1 - exp (- (plate_UA default_k default_Nu (V "channel_width" 0%nat) (V "channel_height" 0%nat) (V "channel_length" 0%nat) (V "n_parallel" 0%nat) /
          (V "mdot_coolant" i * 3801)))) * (V "mdot_coolant" i * 3801) * (V "motorheatsink.T_initial" 0%nat - V "batteryheatsink.T_out" i) = V "motorheatsink.hex.q" i /\
          V "motorheatsink.base.dTdt" i = 0 /\ V "motorheatsink.T" i = V "motorheatsink.T_initial" 0%nat /\
          V "motorheatsink.T_out" i = V "batteryheatsink.T_out" i + V "motorheatsink.hex.q" i / V "mdot_coolant" i / 3801).
        destruct (LOADS i Hi) as (_&E&_&_). rewrite E, DUA, !Dmd. rewrite !F by reflexivity.
        change (md <> 0 /\ Qm = Qm /\ eff * (md * 3801) * (Ts - Tm) = Qm /\ 0 = 0 /\ Ts = Ts /\ Th = Tm + Qm / md / 3801).
        assert (QM : Qm = md * 3801 * (Th - Tm)) by (unfold Qm, Tm, Qb, L; field; lra).
        rewrite QM. repeat split; try lra; [unfold Ts|]; field; lra.
      * change (V "motorheatsink.T_final" 0%nat = V "motorheatsink.T_initial" 0%nat). now rewrite !F by reflexivity.
    + intros o k f i A Hi. apply assoc_In in A. unfold ExplicitIncompressibleDuct in A. cbn [pc_outs In] in A.
      assert (M0 : unspurious (area * sqrt (unspurious int)) = ma).
      { unfold unspurious at 2. destruct Rlt_dec; [lra|]. replace (area * sqrt int) with ma by (unfold area; field; lra). unfold unspurious. destruct Rlt_dec; lra. }
      each_in A.
      * change (V "duct.mdot" i = unspurious (V "ac|propulsion|thermal|duct|area_nozzle" i * sqrt (unspurious (duct_interior (15/100) (V "fltcond|rho" i) (V "fltcond|Utrue" i) (V "hx.delta_p_cold" i))))).
        rewrite !F by reflexivity. symmetry. exact M0.
      * change (V "duct.drag" i = unspurious (V "ac|propulsion|thermal|duct|area_nozzle" i * sqrt (unspurious (duct_interior (15/100) (V "fltcond|rho" i) (V "fltcond|Utrue" i) (V "hx.delta_p_cold" i)))) *
          (V "fltcond|Utrue" i - 98/100 * unspurious (V "ac|propulsion|thermal|duct|area_nozzle" i * sqrt (unspurious (duct_interior (15/100) (V "fltcond|rho" i) (V "fltcond|Utrue" i) (V "hx.delta_p_cold" i)))) /
          V "ac|propulsion|thermal|duct|area_nozzle" i / V "fltcond|rho" i)).
        rewrite !F by reflexivity.
        change (drag = unspurious (area * sqrt (unspurious int)) * (U - 98/100 * unspurious (area * sqrt (unspurious int)) / area / rho)).
        rewrite M0. reflexivity.
    + exists (fun x _ => H x 0%nat). split; [now apply hx_steady|]. split.
      * intros x i Hx. cbn in Hx.
        repeat (destruct Hx as [<-|Hx]; [match goal with |- H ?y 0%nat = _ => let z := eval vm_compute in (hx_in_system "" "motorheatsink.T_out" y) in
          change (H y 0%nat = V z i); first [rewrite Dmd|rewrite F by reflexivity]; first [reflexivity | rewrite (EH y 0%nat) by inl; reflexivity] end|]). destruct Hx.
      * intros o i Ho. cbn in Ho.
        repeat (destruct Ho as [<-|Ho]; [match goal with |- H ?y 0%nat = _ => let z := eval vm_compute in (String.append "hx." y) in
          change (H y 0%nat = V z i); rewrite F by reflexivity; reflexivity end|]). destruct Ho.
    + apply tank_steady; [exact Hn| |].
      * intros i Hi. change (V "hx.T_out_hot" i = V "reservoir.T_initial" 0%nat /\ V "reservoir.rate.dTdt" i = 0 /\ V "reservoir.T_out" i = V "reservoir.T_initial" 0%nat).
        rewrite !F by reflexivity. repeat split; reflexivity.
      * change (V "reservoir.T_final" 0%nat = V "reservoir.T_initial" 0%nat). now rewrite !F by reflexivity.
  - intros x i Hx. unfold twin_inputs in Hx. cbn [In] in Hx.
    repeat (destruct Hx as [<-|Hx]; [first [apply Dmd | rewrite F by reflexivity; first [reflexivity |
      match goal with |- _ = V0 ?z 0%nat => let y := eval vm_compute in (String.substring 3 (String.length z) z) in change (H y 0%nat = V0 z 0%nat); rewrite (EH y 0%nat) by inl; reflexivity end]]|]). destruct Hx.
  - intros i Hi. rewrite !F by reflexivity.
    change (0 < thr /\ 0 < area /\ 0 < U /\ Tc < Tr < Tm /\ Tm < Th /\ Tm < Tb /\ Th < Ts /\ Tb = Tb /\ Ts = Ts /\ Tr = Tr).
    assert (0 < thr) by (unfold thr; apply Rdiv_lt_0_compat; [lra|apply Rmult_lt_0_compat; lra]). repeat split; lra.
Qed.
Print Assumptions C65_twin_thermal_steady.
