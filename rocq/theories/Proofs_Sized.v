(** The sizing analysis of the airliner: what each of its parts computes from the sized aircraft, and that it sets up. *)
From Coq Require Import Reals List Bool PeanoNat String Lia Lra.
From Verif Require Import Base Py RSum Model_Algebra Proofs_Algebra Model_Vectors Proofs_Vectors Model_Integrals Spec_Integrals Model_Atmos Proofs_Atmos Model_Aero Model_Mission Spec_Mission
  Proofs_Profiles Props_Targets Model_Net Proofs_Net Model_Thermal Model_HX Model_Ducts Proofs_Ducts Model_HeatPipe Model_Systems Proofs_Systems Model_Weights Spec_Weights Props_Weights Model_Propulsion
  Model_Flight Spec_Flight Proofs_Flight Proofs_Trip Props_Trip Model_Drag Spec_Drag Proofs_Drag Model_Fleet Spec_Fleet Proofs_Fleet Proofs_FleetBody Proofs_FleetSetup Props_Fleet
  Model_Sizing Spec_Airliner Proofs_Airliner.
Import ListNotations.
Open Scope R_scope.
Open Scope string_scope.
Open Scope list_scope.

(** ** The analysis *)
Lemma lever_value E : add_compute lever_arm E 0 = Ok (E "fuselage_length" 0%nat / 2).
Proof. unfold add_compute, lever_arm, add_resolve. cbn. f_equal. unfold bidx. cbn. field. Qed.
Lemma landing_value E : add_compute landing_weight E 0 = Ok (8/10 * E "ac|weights|MTOW" 0%nat).
Proof. unfold add_compute, landing_weight, add_resolve. cbn. f_equal. unfold bidx. cbn. field. Qed.
Lemma takeoff_value E : add_compute takeoff_weight E 0 = Ok (E "OEW" 0%nat + E "W_payload" 0%nat + E "W_fuel" 0%nat).
Proof. unfold add_compute, takeoff_weight, add_resolve. cbn. f_equal. unfold bidx. cbn. field. Qed.

Section Sized.
Context (G : group) (V : env).
Let H := SizingMissionAnalysis G.
Hypothesis SOL : solution H V.
Lemma sized_arms : V "tail_lever_arm_estimate.c4_to_wing_c4" 0%nat = V "ac|geom|fuselage|length" 0%nat / 2.
Proof.
  pose proof (sol_rel _ V (adder 1 "tail_lever_arm_estimate" lever_arm [As "fuselage_length" "ac|geom|fuselage|length"] []) SOL ltac:(insub) 0%nat Nat.lt_0_1) as E.
  rewrite lever_value in E. injection E as E. symmetry. exact E.
Qed.
Lemma sized_MLW : V "ac|weights|MLW" 0%nat = 8/10 * V "ac|weights|MTOW" 0%nat.
Proof.
  pose proof (sol_rel _ V (adder 1 "MLW_calc" landing_weight [P "ac|weights|MTOW"] [P "ac|weights|MLW"]) SOL ltac:(insub) 0%nat Nat.lt_0_1) as E.
  rewrite landing_value in E. injection E as E. symmetry. exact E.
Qed.
Lemma sized_MTOW : V "ac|weights|MTOW" 0%nat = V "ac|weights|OEW" 0%nat + V "ac|weights|W_payload" 0%nat + V "mission.loiter.fuel_burn_integ.fuel_burn_final" 0%nat.
Proof.
  pose proof (sol_rel _ V (adder 1 "MTOW_calc" takeoff_weight [As "OEW" "ac|weights|OEW"; As "W_payload" "ac|weights|W_payload"] [As "MTOW" "ac|weights|MTOW"]) SOL ltac:(insub) 0%nat Nat.lt_0_1) as E.
  rewrite takeoff_value in E. injection E as E. symmetry. exact E.
Qed.
Lemma sized_chord : 0 < V "ac|geom|wing|S_ref" 0%nat -> 0 < V "ac|geom|wing|AR" 0%nat -> 0 < V "ac|geom|wing|taper" 0%nat ->
  V "ac|geom|wing|MAC" 0%nat = mean_chord (V "ac|geom|wing|S_ref" 0%nat) (V "ac|geom|wing|AR" 0%nat) (V "ac|geom|wing|taper" 0%nat).
Proof.
  intros H1 H2 H3. pose proof (sol_comp _ V 1 "wing_MAC" WingMACTrapezoidal _ _ "MAC" _ _ 0%nat SOL ltac:(insub) eq_refl Nat.lt_0_1) as E.
  assert (0 < V "ac|geom|wing|S_ref" 0%nat / V "ac|geom|wing|AR" 0%nat) by now apply Rdiv_lt_0_compat.
  rewrite <- mac_eq by lra. exact E.
Qed.
Lemma foot_pos : 0 < foot. Proof. unfold foot. lra. Qed.
Lemma sized_hstab : 0 < V "ac|geom|wing|S_ref" 0%nat -> 0 < V "ac|geom|wing|AR" 0%nat -> 0 < V "ac|geom|wing|taper" 0%nat -> 0 < V "ac|geom|fuselage|length" 0%nat ->
  V "ac|geom|hstab|S_ref" 0%nat = hstab_size (V "ac|geom|wing|S_ref" 0%nat) (V "ac|geom|wing|AR" 0%nat) (V "ac|geom|wing|taper" 0%nat) (V "ac|geom|fuselage|length" 0%nat).
Proof.
  intros H1 H2 H3 H4. pose proof (sol_rel _ V (converted tail_units (comp 1 "hstab_area" (HStabSizing C_ht_default)
       [P "ac|geom|wing|S_ref"; P "ac|geom|wing|MAC"; P "ac|geom|hstab|c4_to_wing_c4"] [P "ac|geom|hstab|S_ref"])) SOL ltac:(insub) "ac|geom|hstab|S_ref" Sca _ 0%nat eq_refl Nat.lt_0_1) as E.
  change (V "ac|geom|hstab|S_ref" 0%nat / foot ^ 2 = 1 * (V "ac|geom|wing|MAC" 0%nat / foot) * (V "ac|geom|wing|S_ref" 0%nat / foot ^ 2) / (V "tail_lever_arm_estimate.c4_to_wing_c4" 0%nat / foot)) in E.
  rewrite sized_arms, (sized_chord H1 H2 H3) in E. pose proof foot_pos.
  replace (V "ac|geom|hstab|S_ref" 0%nat) with (V "ac|geom|hstab|S_ref" 0%nat / foot ^ 2 * foot ^ 2) by (field; lra). rewrite E. unfold hstab_size. field. split; lra.
Qed.
Lemma sized_vstab : 0 < V "ac|geom|wing|S_ref" 0%nat -> 0 < V "ac|geom|wing|AR" 0%nat -> 0 < V "ac|geom|fuselage|length" 0%nat ->
  V "ac|geom|vstab|S_ref" 0%nat = vstab_size (V "ac|geom|wing|S_ref" 0%nat) (V "ac|geom|wing|AR" 0%nat) (V "ac|geom|fuselage|length" 0%nat).
Proof.
  intros H1 H2 H3. pose proof (sol_rel _ V (converted tail_units (comp 1 "vstab_area" (VStabSizing C_vt_default)
       [P "ac|geom|wing|S_ref"; P "ac|geom|wing|AR"; P "ac|geom|vstab|c4_to_wing_c4"] [P "ac|geom|vstab|S_ref"])) SOL ltac:(insub) "ac|geom|vstab|S_ref" Sca _ 0%nat eq_refl Nat.lt_0_1) as E.
  change (V "ac|geom|vstab|S_ref" 0%nat / foot ^ 2 = 9/100 * sqrt (V "ac|geom|wing|AR" 0%nat / 1) * Rpower (V "ac|geom|wing|S_ref" 0%nat / foot ^ 2) (15/10) / (V "tail_lever_arm_estimate.c4_to_wing_c4" 0%nat / foot)) in E.
  rewrite sized_arms in E. replace (V "ac|geom|wing|AR" 0%nat / 1) with (V "ac|geom|wing|AR" 0%nat) in E by field. pose proof foot_pos as F.
  assert (P : forall s, 0 < s -> Rpower s (15/10) = s * sqrt s).
  { intros s Hs. replace (15/10) with (1 + /2) by lra. now rewrite Rpower_plus, Rpower_1, Rpower_sqrt. }
  rewrite P in E by (apply Rdiv_lt_0_compat; [assumption|apply pow_lt; lra]). rewrite sqrt_div in E by (try apply pow_lt; lra). replace (sqrt (foot ^ 2)) with foot in E by (symmetry; apply sqrt_pow2; lra).
  unfold vstab_size. rewrite sqrt_mult by lra. set (a := sqrt (V "ac|geom|wing|AR" 0%nat)) in *. set (b := sqrt (V "ac|geom|wing|S_ref" 0%nat)) in *.
  replace (V "ac|geom|vstab|S_ref" 0%nat) with (V "ac|geom|vstab|S_ref" 0%nat / foot ^ 2 * foot ^ 2) by (field; lra). rewrite E. field. split; lra.
Qed.
Lemma sized_wet : V "ac|geom|fuselage|S_wet" 0%nat = PI * V "ac|geom|fuselage|height" 0%nat * V "ac|geom|fuselage|length" 0%nat /\
  V "ac|geom|nacelle|S_wet" 0%nat = PI * V "ac|geom|nacelle|diameter" 0%nat * V "ac|geom|nacelle|length" 0%nat.
Proof.
  split.
  - exact (sol_comp _ V 1 "fuselage_wetted_area" CylinderSurfaceArea _ _ "A" _ _ 0%nat SOL ltac:(insub) eq_refl Nat.lt_0_1).
  - exact (sol_comp _ V 1 "nacelle_wetted_area" CylinderSurfaceArea _ _ "A" _ _ 0%nat SOL ltac:(insub) eq_refl Nat.lt_0_1).
Qed.
Lemma sized_lift : V "ac|aero|CLmax_cruise" 0%nat = 9/10 * V "ac|aero|airfoil_Cl_max" 0%nat * cos (V "ac|geom|wing|c4sweep" 0%nat) /\
  V "ac|aero|CLmax_TO" 0%nat = V "ac|aero|CLmax_cruise" 0%nat + flap_gain (V "ac|aero|takeoff_flap_deg" 0%nat) (V "ac|geom|wing|c4sweep" 0%nat) (V "ac|geom|wing|toverc" 0%nat)
    + slat_gain (V "ac|geom|wing|c4sweep" 0%nat).
Proof.
  split.
  - pose proof (sol_comp _ V 1 "CL_max_cruise" (CleanCLmax 1) _ _ "CL_max_clean" _ _ 0%nat SOL ltac:(insub) eq_refl Nat.lt_0_1) as E.
    change (V "ac|aero|CLmax_cruise" 0%nat = 1 * (9/10) * V "ac|aero|airfoil_Cl_max" 0%nat * cos (V "ac|geom|wing|c4sweep" 0%nat)) in E. rewrite E. ring.
  - pose proof (sol_comp _ V 1 "CL_max_takeoff" (FlapCLmax (2/10) (9/10) (1/10) (8/10) 1) _ _ "CL_max_flap" _ _ 0%nat SOL ltac:(insub) eq_refl Nat.lt_0_1) as E.
    etransitivity; [exact E|]. unfold flap_gain, slat_gain. replace (3/4) with (75/100) by lra. cbn -[cos Rpower]. unfold fl_base, fl_k2, fl_k3.
    match goal with |- ?l = ?r => change l with (1 * (V "ac|aero|CLmax_cruise" 0%nat + fl_base (V "ac|geom|wing|toverc" 0%nat) * (4 * (2/10)) * fl_k2 (V "ac|aero|takeoff_flap_deg" 0%nat) * fl_k3 (fl_k2 (V "ac|aero|takeoff_flap_deg" 0%nat)) * (9/10)
      * (1 - 8/100 * cos (V "ac|geom|wing|c4sweep" 0%nat) ^ 2) * Rpower (cos (V "ac|geom|wing|c4sweep" 0%nat)) (75/100) + 711/100 * (1/10) * (8/10) ^ 2 * cos (V "ac|geom|wing|c4sweep" 0%nat) ^ 2)) end.
    unfold fl_base, fl_k2, fl_k3. ring.
Qed.
(** The empty weight, from the inputs of the estimate. *)
Definition sized_source (x : string) : string :=
  if String.eqb x "ac|geom|hstab|c4_to_wing_c4" || String.eqb x "ac|geom|vstab|c4_to_wing_c4" then "tail_lever_arm_estimate.c4_to_wing_c4"
  else if String.eqb x "ac|weights|W_fuel_max" then "mission.loiter.fuel_burn_integ.fuel_burn_final" else x.
Lemma pound_pos : 0 < pound. Proof. unfold pound. lra. Qed.
Lemma unit_pos x : 0 < jet_units x.
Proof.
  pose proof foot_pos. pose proof pound_pos. assert (0 < inch) by (unfold inch; lra). assert (0 < lbf) by (unfold lbf; lra). assert (0 < knot) by (unfold knot; lra).
  unfold jet_units. repeat match goal with |- context [if ?b then _ else _] => destruct b end; try lra; try (apply pow_lt; lra). apply Rdiv_lt_0_compat; [lra|apply pow_lt; lra].
Qed.
Lemma sized_OEW : (forall x, In x ["ac|weights|MTOW"; "ac|propulsion|engine|rating"; "ac|geom|wing|S_ref"; "ac|geom|wing|AR"; "ac|geom|wing|taper"; "ac|geom|fuselage|length"; "ac|geom|fuselage|height"] -> 0 < V x 0%nat) ->
  V "ac|weights|OEW" 0%nat / pound = jet_empty_weight jet_defaults (fun x => sized_input V (V "mission.loiter.fuel_burn_integ.fuel_burn_final" 0%nat) x / jet_units x).
Proof.
  intro Pos. destruct (converted_in jet_units _ V "empty_weight" (JetTransportEmptyWeight jet_defaults) weight_promotes [As "OEW" "ac|weights|OEW"] SOL ltac:(insub)) as (T & ST & HI & HO).
  assert (IN : forall x, In x jet_inputs -> T x 0%nat = V (sized_source x) 0%nat / jet_units x).
  { intros x Hx. rewrite (HI x 0%nat) by now apply (proj1 (C67_inputs jet_defaults x)).
    assert (F : forallb (fun x => String.eqb (source H (gname "empty_weight" weight_promotes x)) (sized_source x)) jet_inputs = true) by (vm_compute; reflexivity).
    rewrite forallb_forall in F. specialize (F x Hx). apply String.eqb_eq in F. fold H. now rewrite F. }
  assert (EQ : forall x, In x jet_inputs -> T x 0%nat = sized_input V (V "mission.loiter.fuel_burn_integ.fuel_burn_final" 0%nat) x / jet_units x).
  { intros x Hx. rewrite (IN x Hx). f_equal. unfold sized_source, sized_input. cbv zeta.
    destruct (String.eqb_spec x "ac|geom|hstab|S_ref") as [->|N1]; [cbn [String.eqb Ascii.eqb Bool.eqb orb]; apply sized_hstab; apply Pos; cbn; tauto|].
    destruct (String.eqb_spec x "ac|geom|vstab|S_ref") as [->|N2]; [cbn [String.eqb Ascii.eqb Bool.eqb orb]; apply sized_vstab; apply Pos; cbn; tauto|].
    destruct (String.eqb x "ac|geom|hstab|c4_to_wing_c4" || String.eqb x "ac|geom|vstab|c4_to_wing_c4"); [apply sized_arms|].
    destruct (String.eqb_spec x "ac|geom|fuselage|S_wet") as [->|N3]; [apply sized_wet|].
    destruct (String.eqb_spec x "ac|weights|MLW") as [->|N4]; [apply sized_MLW|].
    destruct (String.eqb x "ac|weights|W_fuel_max"); reflexivity. }
  assert (O : T "OEW" 0%nat = V "ac|weights|OEW" 0%nat / pound) by (apply HO; apply mem_In; vm_compute; reflexivity).
  rewrite <- O, (C67_jet jet_defaults T ST).
  - set (v := fun x => sized_input V _ x / jet_units x) in *. assert (EQ' : forall x, mem x jet_inputs = true -> T x 0%nat = v x) by (intros x Hx; apply EQ, mem_In, Hx).
    clearbody v. clear - EQ'. unfold jet_empty_weight, transport_wing, transport_systems, gear_and_nacelles.
    repeat match goal with |- context [T ?x 0%nat] => rewrite (EQ' x) by reflexivity end. reflexivity.
  - cbn. lra.
  - intros x Hx. rewrite EQ by (apply mem_In; cbn [In] in Hx; repeat (destruct Hx as [<-|Hx]; [reflexivity|]); contradiction). apply Rdiv_lt_0_compat; [|apply unit_pos].
    replace (sized_input V (V "mission.loiter.fuel_burn_integ.fuel_burn_final" 0%nat) x) with (V x 0%nat) by (cbn [In] in Hx; repeat (destruct Hx as [<-|Hx]; [reflexivity|]); contradiction).
    apply Pos. cbn [In] in Hx |- *. tauto.
Qed.
End Sized.

(** What the analysis needs to find: the fuel at the end of the loiter, and all the aircraft's data for every phase. *)
Definition sizing_ok kt kp tri n A o : bool :=
  match mission (tableO A o) (tableI A o) "" (fun _ => ac_states A) o with
  | Ok cs => let G := {| g_subs := mission_subs kt kp tri n A o; g_conns := some_pairs cs |} in let H := SizingMissionAnalysis G in
      let free := free_ins G in
      quick_sets_up H && mem "loiter.fuel_burn_integ.fuel_burn_final" (group_outs G) &&
      forallb (fun c => forallb (fun x => negb (glob "ac|*" x) || (mem x free && String.eqb (source H (gname "mission" [P "ac|*"] x)) x))
        (free_ins (phase_group kt kp tri n A (fst c) (snd c)))) (profile_phases o)
  | Err _ => false
  end.
Lemma canonical_sizing kt kp tri n A o : valid_profile o -> sizing_ok kt kp tri n A (canonical o) = sizing_ok kt kp tri n A o.
Proof. intro H. destruct o as [a b c d]. unfold valid_profile in H. cbn in H. destruct a, b, c, d; try (exfalso; now apply H); reflexivity. Qed.
Lemma sizing_checked kt kp D tri n o : valid_profile o -> pf_reserve o = true -> sizing_ok kt kp tri n (SizedB738 D tri) o = true.
Proof.
  intros Hv R. rewrite <- canonical_sizing by exact Hv. pose proof (canonical_in o Hv) as C. assert (R' : pf_reserve (canonical o) = true) by exact R.
  revert C R'. generalize (canonical o). clear.
  assert (H : forallb (fun c => negb (pf_reserve c) || sizing_ok kt kp tri n (SizedB738 D tri) c) canonicals = true) by (vm_compute; reflexivity).
  intros c C R. rewrite forallb_forall in H. specialize (H c C). now rewrite R in H.
Qed.
