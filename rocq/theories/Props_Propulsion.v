(** Theorems about the propulsion components and the battery (C35 - C40). *)
From Coq Require Import Reals List Bool PeanoNat String Lra Lia.
From Verif Require Import Base Py RSum Calc Model_Algebra Spec_Algebra Proofs_Algebra Model_Atmos Model_Integrals
  Spec_Integrals Proofs_Integrals Proofs_IntegMore Props_Integrals Model_Propulsion Proofs_Propulsion.
Import ListNotations.
Open Scope R_scope.
Open Scope string_scope.

Ltac outs C := unfold vcompute, nval; cbn [assoc C pc_outs String.eqb Ascii.eqb Bool.eqb split_outs];
  unfold node; cbn [assoc C pc_ins String.eqb Ascii.eqb Bool.eqb].

(** ** C35 *)
Theorem C35_rules rule o :
  (PowerSplit rule o = Err ValueError <-> rule <> "fraction" /\ rule <> "fixed") /\
  (is_ok (PowerSplit rule o) = true <-> rule = "fraction" \/ rule = "fixed").
Proof.
  unfold PowerSplit. destruct (String.eqb_spec rule "fraction"), (String.eqb_spec rule "fixed"); simpl; intuition congruence.
Qed.
Print Assumptions C35_rules.

Theorem C35_power_is_conserved rule o C E i : PowerSplit rule o = Ok C ->
  vcompute C E "power_out_A" i + vcompute C E "power_out_B" i + vcompute C E "heat_out" i = E "power_in" i.
Proof.
  unfold PowerSplit. destruct (String.eqb rule "fraction"); [|destruct (String.eqb rule "fixed"); [|discriminate]];
  intro H; injection H as <-.
  - outs SplitFraction. ring.
  - outs SplitFixed. destruct (Rlt_dec (E "power_in" i) (E "power_split_amount" i)); ring.
Qed.
Print Assumptions C35_power_is_conserved.

(** Under the fraction rule A gets the given fraction of what is delivered. *)
Theorem C35_fraction_rule o E i :
  let A := vcompute (SplitFraction o) E "power_out_A" i in let B := vcompute (SplitFraction o) E "power_out_B" i in
  A = E "power_split_fraction" i * (A + B) /\ A + B = t_eta o * E "power_in" i.
Proof. cbv zeta. outs SplitFraction. split; ring. Qed.
Print Assumptions C35_fraction_rule.

(** Under the fixed rule A gets the amount asked for, or everything if that is not
    available; B the rest. *)
Theorem C35_fixed_rule o E i :
  vcompute (SplitFixed o) E "power_out_A" i = t_eta o * Rmin (E "power_split_amount" i) (E "power_in" i) /\
  vcompute (SplitFixed o) E "power_out_B" i = t_eta o * Rmax 0 (E "power_in" i - E "power_split_amount" i).
Proof.
  outs SplitFixed. destruct (Rlt_dec (E "power_in" i) (E "power_split_amount" i)).
  - rewrite Rmin_right, Rmax_left by lra. split; ring.
  - rewrite Rmin_left, Rmax_right by lra. split; ring.
Qed.
Print Assumptions C35_fixed_rule.

Theorem C35_partials rule o C n E : PowerSplit rule o = Ok C -> (0 < n)%nat -> E "power_rating" 0%nat <> 0 ->
  (rule = "fixed" -> forall i, (i < n)%nat -> E "power_in" i <> E "power_split_amount" i) ->
  jac_correct n C E.
Proof.
  unfold PowerSplit. destruct (String.eqb_spec rule "fraction"); [|destruct (String.eqb_spec rule "fixed"); [|discriminate]];
  intro H; injection H as <-; intros.
  - now apply fraction_jac.
  - apply fixed_jac; auto.
Qed.
Print Assumptions C35_partials.

(** At the switch there is no derivative to return. *)
Theorem C35_no_derivative_at_the_switch o E i : t_eta o <> 0 ->
  ~ ex_derive (fun t => vcompute (SplitFixed o) (updE E "power_in" i t) "power_out_A" i) (E "power_split_amount" i).
Proof.
  intro He.
  assert (F : forall t, vcompute (SplitFixed o) (updE E "power_in" i t) "power_out_A" i =
                        if Rlt_dec t (E "power_split_amount" i) then t * t_eta o else E "power_split_amount" i * t_eta o).
  { intro t. outs SplitFixed. unfold updE; simpl. rewrite Nat.eqb_refl. reflexivity. }
  apply (no_derive_kink _ _ (t_eta o) 0 1); [lra|auto| |]; intros t Ht; rewrite !F.
  - destruct (Rlt_dec t _), (Rlt_dec (E "power_split_amount" i) _); try lra.
    assert (t = E "power_split_amount" i) by lra. subst t. ring.
  - destruct (Rlt_dec t _), (Rlt_dec (E "power_split_amount" i) _); try lra.
Qed.
Print Assumptions C35_no_derivative_at_the_switch.

Definition ex_tech : tech := {| t_eta := 97/100; t_winc := 1/5000; t_wbase := 3; t_cinc := 100/745; t_cbase := 1 |}.
Definition ex_env : env := fun x i =>
  if String.eqb x "power_in" then 1000 else if String.eqb x "power_rating" then 2000
  else if String.eqb x "power_split_amount" then 600 + 500 * INR i else 1/2.
Example C35_met : PowerSplit "fixed" ex_tech = Ok (SplitFixed ex_tech) /\
  (forall i, (i < 2)%nat -> ex_env "power_in" i <> ex_env "power_split_amount" i) /\
  vcompute (SplitFixed ex_tech) ex_env "power_out_A" 0 = 582 /\ vcompute (SplitFixed ex_tech) ex_env "power_out_A" 1 = 970.
Proof.
  split; [reflexivity|]. split.
  - intros [|[|i]] Hi; unfold ex_env; simpl; try lia; lra.
  - split; outs SplitFixed; unfold ex_env, ex_tech; simpl; destruct (Rlt_dec _ _); lra.
Qed.

(** ** C36 *)
Theorem C36_motor o E i :
  let out x := vcompute (SimpleMotor o) E x i in
  out "elec_load" = E "throttle" i * E "elec_power_rating" 0%nat /\
  out "shaft_power_out" = t_eta o * out "elec_load" /\
  out "shaft_power_out" + out "heat_out" = out "elec_load" /\
  out "component_sizing_margin" * E "elec_power_rating" 0%nat = out "elec_load" /\
  out "component_weight" = t_wbase o + t_winc o * E "elec_power_rating" 0%nat /\
  out "component_cost" = t_cbase o + t_cinc o * E "elec_power_rating" 0%nat.
Proof. cbv zeta. outs SimpleMotor. repeat split; ring. Qed.
Print Assumptions C36_motor.
Theorem C36_generator o E i :
  let out x := vcompute (SimpleGenerator o) E x i in
  out "elec_power_out" = t_eta o * E "shaft_power_in" i /\
  out "elec_power_out" + out "heat_out" = E "shaft_power_in" i /\
  (E "elec_power_rating" 0%nat <> 0 -> out "component_sizing_margin" * E "elec_power_rating" 0%nat = out "elec_power_out") /\
  out "component_weight" = t_wbase o + t_winc o * E "elec_power_rating" 0%nat /\
  out "component_cost" = t_cbase o + t_cinc o * E "elec_power_rating" 0%nat.
Proof. cbv zeta. outs SimpleGenerator. repeat split; try ring. intro; field; auto. Qed.
Print Assumptions C36_generator.
Theorem C36_turboshaft psfc o E i :
  let out x := vcompute (SimpleTurboshaft psfc o) E x i in
  out "shaft_power_out" = E "throttle" i * E "shaft_power_rating" 0%nat /\
  out "fuel_flow" = psfc * out "shaft_power_out" /\
  out "component_sizing_margin" * E "shaft_power_rating" 0%nat = out "shaft_power_out" /\
  out "component_weight" = t_wbase o + t_winc o * E "shaft_power_rating" 0%nat /\
  out "component_cost" = t_cbase o + t_cinc o * E "shaft_power_rating" 0%nat.
Proof. cbv zeta. outs SimpleTurboshaft. repeat split; ring. Qed.
Print Assumptions C36_turboshaft.
Theorem C36_partials o psfc n E : (0 < n)%nat ->
  jac_correct n (SimpleMotor o) E /\ jac_correct n (SimpleTurboshaft psfc o) E /\
  (E "elec_power_rating" 0%nat <> 0 -> jac_correct n (SimpleGenerator o) E).
Proof. intro. split; [now apply motor_jac|]. split; [now apply turboshaft_jac|]. intro. now apply generator_jac. Qed.
Print Assumptions C36_partials.
Example C36_met : vcompute (SimpleMotor ex_tech) (fun x _ => if String.eqb x "throttle" then 1/2 else 1000) "shaft_power_out" 7 = 485.
Proof. outs SimpleMotor. unfold ex_tech; simpl. lra. Qed.

(** ** C37 *)
Lemma thrust_out E i j :
  vcompute ThrustCalc (updE E "J" i j) "thrust" i = prop_thrust (upd (node ThrustCalc E i) "J" j).
Proof. unfold vcompute. rewrite (node_updE_hit _ _ _ _ _ _ Vec); try reflexivity; discriminate. Qed.

(** Thrust is a continuous function of the advance ratio, also at the switches. *)
Theorem C37_thrust_continuous E i j :
  continuous (fun t => vcompute ThrustCalc (updE E "J" i t) "thrust" i) j.
Proof.
  apply continuous_ext with (fun t => prop_thrust (upd (node ThrustCalc E i) "J" t)).
  { intro t. symmetry. apply thrust_out. }
  generalize (node ThrustCalc E i); intro e. destruct jrange as [Jr J0].
  destruct (Rlt_dec j jmin) as [L|L].
  - apply (continuous_ext_loc _ (fun _ => e "ct_over_cp" * e "cp" * e "fltcond|rho" * (e "rpm" / 60) ^ 2 * e "diameter" ^ 4));
      [|apply continuous_const].
    eapply filter_imp; [|apply (near_lt_c (fun t => t) j jmin); [apply continuous_id|exact L]].
    intros t Ht. unfold prop_thrust, prop_ct, ct1. cbn [upd String.eqb Ascii.eqb Bool.eqb].
    unfold by_regime. destruct (Rle_dec t jmin); [reflexivity|lra].
  - assert (Hj : 0 < j) by lra.
    eapply continuous_ext_loc.
    { eapply filter_imp; [|apply (near_gt_c (fun t => t) j 0); [apply continuous_id|exact Hj]].
      intros t Ht. symmetry. apply thrust_blend. exact Ht. }
    cbv zeta.
    assert (Cw : continuous (fun t => Rmin (Rmax (interp1 t) 0) 1) j).
    { assert (Ci : continuous interp1 j).
      { apply cont_ex. unfold interp1, jmin, jmax. auto_derive. auto. }
      apply (continuous_ext (fun t => (((interp1 t + Rabs (interp1 t)) / 2 + 1) - Rabs ((interp1 t + Rabs (interp1 t)) / 2 - 1)) / 2)).
      - intro t. unfold Rmin, Rmax. destruct (Rle_dec (interp1 t) 0).
        + rewrite (Rabs_left1 (interp1 t)) by lra. rewrite Rabs_left by lra. destruct (Rle_dec 0 1); lra.
        + rewrite (Rabs_right (interp1 t)) by lra. destruct (Rle_dec (interp1 t) 1).
          * rewrite Rabs_left1 by lra. lra.
          * rewrite Rabs_right by lra. lra.
      - assert (Cb : continuous (fun t => (interp1 t + Rabs (interp1 t)) / 2) j).
        { apply (continuous_mult (fun t => interp1 t + Rabs (interp1 t)) (fun _ => / 2)); [|apply continuous_const].
          apply (continuous_plus interp1 (fun t => Rabs (interp1 t))); auto.
          apply (continuous_comp interp1 Rabs); auto. apply continuous_Rabs. }
        apply (continuous_mult _ (fun _ => / 2)); [|apply continuous_const].
        apply (continuous_minus (fun t => (interp1 t + Rabs (interp1 t)) / 2 + 1)).
        + apply (continuous_plus (fun t => (interp1 t + Rabs (interp1 t)) / 2)); auto. apply continuous_const.
        + apply (continuous_comp (fun t => (interp1 t + Rabs (interp1 t)) / 2 - 1) Rabs).
          * apply (continuous_minus (fun t => (interp1 t + Rabs (interp1 t)) / 2)); auto. apply continuous_const.
          * apply continuous_Rabs. }
    assert (C2 : continuous (fun t => e "cp" * e "eta_prop" / t) j).
    { apply cont_ex. auto_derive. lra. }
    set (S := e "ct_over_cp" * e "cp"). set (K := e "cp" * e "eta_prop") in *.
    repeat (apply cont_mult; [|apply cont_const]).
    apply cont_plus; apply cont_mult; auto using cont_const.
    apply cont_minus; auto using cont_const.
Qed.
Print Assumptions C37_thrust_continuous.

(** What the group computes: [n] is revolutions per second, [J] the advance
    ratio U/(n D); below J = 0.1 the thrust is the static one, above J = 0.2 the
    thrust times the airspeed is the propeller efficiency times the shaft power,
    and in between it is the linear blend in J of the two coefficients. *)
Theorem C37_thrust_of_the_group eta_map static_map E i :
  let out x := run_propeller eta_map static_map E x i in
  let P := E "shaft_power_in" i in let rho := E "fltcond|rho" i in let D := E "diameter" 0%nat in
  let n := E "rpm" i / 60 in let U := E "fltcond|Utrue" i in
  n <> 0 -> D <> 0 -> rho <> 0 ->
  out "J" * (n * D) = U /\ out "cp" * (rho * n ^ 3 * D ^ 5) = P /\
  out "eta_prop" = eta_map (out "cp") (out "J") /\ out "ct_over_cp" = static_map (out "cp") /\
  let ct_static := out "ct_over_cp" * out "cp" in let ct_dynamic := out "cp" * out "eta_prop" / out "J" in
  out "thrust" = (if Rle_dec (out "J") (1/10) then ct_static
                  else if Rge_dec (out "J") (2/10) then ct_dynamic
                  else ct_static + (out "J" - 1/10) / (1/10) * (ct_dynamic - ct_static)) * rho * n ^ 2 * D ^ 4 /\
  (2/10 <= out "J" -> out "thrust" * U = out "eta_prop" * P).
Proof.
  intros out P rho D n U Hn HD Hrho.
  assert (Hr : E "rpm" i <> 0) by (intro Z; apply Hn; unfold n; rewrite Z; lra).
  assert (EJ : out "J" = 60 * U / E "rpm" i / D) by reflexivity.
  assert (Ec : out "cp" = P / rho / n ^ 3 / D ^ 5) by reflexivity.
  assert (Ee : out "eta_prop" = eta_map (out "cp") (out "J")) by reflexivity.
  assert (Es : out "ct_over_cp" = static_map (out "cp")) by reflexivity.
  assert (Et : out "thrust" = by_regime (out "J") (out "ct_over_cp" * out "cp")
     (interp1 (out "J") * (out "ct_over_cp" * out "cp") + interp2 (out "J") * (out "cp" * out "eta_prop" / out "J"))
     (out "cp" * out "eta_prop" / out "J") * rho * n ^ 2 * D ^ 4) by reflexivity.
  generalize dependent (out "thrust"). generalize dependent (out "ct_over_cp"). generalize dependent (out "eta_prop").
  intros eta Ee ct Es T Et.
  assert (EJ' : out "J" * (n * D) = U) by (rewrite EJ; unfold n; field; auto).
  assert (Ec' : out "cp" * (rho * n ^ 3 * D ^ 5) = P) by (rewrite Ec; field; auto).
  clearbody out. split; [exact EJ'|]. split; [exact Ec'|]. split; [exact Ee|]. split; [exact Es|]. split.
  - rewrite Et. unfold by_regime. change jmin with (1/10). change jmax with (2/10).
    destruct (Rle_dec (out "J") (1/10)); [reflexivity|]. destruct (Rge_dec (out "J") (2/10)); [reflexivity|].
    f_equal. f_equal. f_equal. unfold interp1, interp2, jmin, jmax. field. lra.
  - intro Hj. rewrite Et. unfold by_regime. change jmin with (1/10). change jmax with (2/10).
    destruct (Rle_dec (out "J") (1/10)); [lra|]. destruct (Rge_dec (out "J") (2/10)); [|lra].
    rewrite <- EJ', <- Ec'. field. lra.
Qed.
Print Assumptions C37_thrust_of_the_group.

Theorem C37_thrust_partials n E : (0 < n)%nat -> E "diameter" 0%nat <> 0 ->
  (forall i, (i < n)%nat -> E "J" i <> 1/10 /\ E "J" i <> 2/10 /\ E "fltcond|rho" i <> 0 /\ E "rpm" i <> 0 /\
     E "ct_over_cp" i <> 0 /\ E "eta_prop" i <> 0) ->
  jac_correct n ThrustCalc E.
Proof. exact (thrust_jac n E). Qed.
Print Assumptions C37_thrust_partials.

(** Away from zero airspeed the coefficient partials are exact. *)
Theorem C37_coefficient_partials_partial n E : (0 < n)%nat -> E "diameter" 0%nat <> 0 ->
  (forall i, (i < n)%nat -> E "rpm" i <> 0 /\ E "fltcond|rho" i <> 0 /\ E "fltcond|Utrue" i <> 0) ->
  jac_correct n PropCoefficients E.
Proof. exact (coefficients_jac n E). Qed.
Print Assumptions C37_coefficient_partials_partial.

(** At zero airspeed dJ/dU is computed as J/U = 0/0 (NaN in numpy) although J has
    a derivative there, and a nonzero one; the partial as modelled (0/0 = 0) is
    wrong for every propeller. *)
Theorem C37_zero_airspeed_refuted E i : E "diameter" 0%nat <> 0 -> E "rpm" i <> 0 -> E "fltcond|Utrue" i = 0 ->
  (exists d, d <> 0 /\ is_derive (fun t => vcompute PropCoefficients (updE E "fltcond|Utrue" i t) "J" i) 0 d) /\
  vjac PropCoefficients E "J" i "fltcond|Utrue" i = vcompute PropCoefficients E "J" i / E "fltcond|Utrue" i /\
  vcompute PropCoefficients E "J" i = 0 /\ ~ jac_correct (S i) PropCoefficients E.
Proof.
  intros Hd Hr HU.
  assert (D : is_derive (fun t => vcompute PropCoefficients (updE E "fltcond|Utrue" i t) "J" i) 0 (60 / E "rpm" i / E "diameter" 0%nat)).
  { apply is_derive_ext with (fun t => 60 * t / E "rpm" i / E "diameter" 0%nat).
    - intro t. unfold vcompute, nval. simpl. unfold prop_J, node, updE. simpl. rewrite Nat.eqb_refl. reflexivity.
    - auto_derive; auto. field; auto. }
  assert (J0 : vcompute PropCoefficients E "J" i = 0).
  { unfold vcompute, nval. simpl. unfold prop_J, node. simpl. rewrite HU. unfold Rdiv. ring. }
  assert (V : vjac PropCoefficients E "J" i "fltcond|Utrue" i = vcompute PropCoefficients E "J" i / E "fltcond|Utrue" i).
  { unfold vjac. simpl. rewrite Nat.eqb_refl. reflexivity. }
  assert (N : 60 / E "rpm" i / E "diameter" 0%nat <> 0).
  { unfold Rdiv. repeat apply Rmult_integral_contrapositive_currified; try apply Rinv_neq_0_compat; auto; lra. }
  split; [eexists; split; [exact N|exact D]|]. split; [exact V|]. split; [exact J0|].
  intro H. specialize (H "J" Vec prop_J "fltcond|Utrue" Vec i i eq_refl eq_refl (Nat.lt_succ_diag_r i) (Nat.lt_succ_diag_r i)).
  rewrite HU in H. pose proof (is_derive_unique _ _ _ H) as U1. rewrite (is_derive_unique _ _ _ D) in U1.
  apply N. rewrite U1, V, J0. unfold Rdiv. ring.
Qed.
Print Assumptions C37_zero_airspeed_refuted.

(** Likewise, at a point of the map with zero efficiency, the partial with respect
    to the efficiency is thrust/eta = 0/0 although the thrust depends on it. *)
Theorem C37_zero_efficiency_refuted E i : 2/10 <= E "J" i -> E "eta_prop" i = 0 ->
  E "cp" i * E "fltcond|rho" i * E "rpm" i * E "diameter" 0%nat <> 0 ->
  vjac ThrustCalc E "thrust" i "eta_prop" i = 0 / 0 /\ ~ jac_correct (S i) ThrustCalc E.
Proof.
  intros Hj He Hnz. destruct jrange as [Jr J0].
  assert (Hj' : jmax <= E "J" i) by exact Hj.
  assert (T : forall t, vcompute ThrustCalc (updE E "eta_prop" i t) "thrust" i =
     E "cp" i * t / E "J" i * E "fltcond|rho" i * (E "rpm" i / 60) ^ 2 * E "diameter" 0%nat ^ 4).
  { intro t. unfold vcompute, nval. simpl. unfold prop_thrust, prop_ct, ct1, ct2, node, updE. simpl. rewrite Nat.eqb_refl.
    unfold by_regime. destruct (Rle_dec (E "J" i) jmin); [lra|]. destruct (Rge_dec (E "J" i) jmax); [reflexivity|lra]. }
  assert (V : vjac ThrustCalc E "thrust" i "eta_prop" i = 0 / 0).
  { unfold vjac. simpl. rewrite Nat.eqb_refl. unfold njac. simpl. rewrite thrust_same.
    unfold prop_thrust, prop_ct, ct1, ct2, node. simpl. rewrite He.
    unfold by_regime. destruct (Rle_dec (E "J" i) jmin); [lra|]. destruct (Rge_dec (E "J" i) jmax); [|lra].
    f_equal. unfold Rdiv. ring. }
  split; [exact V|]. intro H.
  specialize (H "thrust" Vec prop_thrust "eta_prop" Vec i i eq_refl eq_refl (Nat.lt_succ_diag_r i) (Nat.lt_succ_diag_r i)).
  rewrite He in H.
  assert (D : is_derive (fun t => vcompute ThrustCalc (updE E "eta_prop" i t) "thrust" i) 0
      (E "cp" i / E "J" i * E "fltcond|rho" i * (E "rpm" i / 60) ^ 2 * E "diameter" 0%nat ^ 4)).
  { eapply is_derive_ext; [intro t; symmetry; apply T|]. auto_derive; auto. field. lra. }
  pose proof (is_derive_unique _ _ _ H) as U1. rewrite (is_derive_unique _ _ _ D) in U1. rewrite V in U1.
  assert (Hk : forall a b, a * b <> 0 -> a <> 0 /\ b <> 0) by (intros a b Hab; split; intro Z; apply Hab; rewrite Z; ring).
  apply Hk in Hnz. destruct Hnz as [Hnz Hd]. apply Hk in Hnz. destruct Hnz as [Hnz Hr]. apply Hk in Hnz. destruct Hnz as [Hc Hrho].
  assert (N : E "cp" i / E "J" i * E "fltcond|rho" i * (E "rpm" i / 60) ^ 2 * E "diameter" 0%nat ^ 4 <> 0).
  { unfold Rdiv. repeat apply Rmult_integral_contrapositive_currified; auto; try apply Rinv_neq_0_compat; try apply pow_nonzero; auto; try lra.
    all: try (apply Rmult_integral_contrapositive_currified; auto; lra). }
  apply N. rewrite U1. unfold Rdiv. ring.
Qed.
Print Assumptions C37_zero_efficiency_refuted.

Lemma Rpower_less_1 x y : 0 < x -> Rpower x (y - 1) = Rpower x y * / x.
Proof.
  intro H. replace (y - 1) with (y + - (1)) by ring. rewrite Rpower_plus, Rpower_Ropp, Rpower_1; auto.
Qed.
Lemma weight_jac n E nb : (0 < n)%nat -> 0 < E "diameter" 0%nat -> 0 < E "power_rating" 0%nat ->
  jac_correct n (WeightCalc nb) E.
Proof.
  intros Hn Hd Hp. apply jac_correct_lift; auto. intros i Hi.
  change (E "diameter" 0%nat) with (node (WeightCalc nb) E i "diameter") in *.
  change (E "power_rating" 0%nat) with (node (WeightCalc nb) E i "power_rating") in *.
  generalize dependent (node (WeightCalc nb) E i); intros e Hd Hp.
  split_jac WeightCalc;
    assert (Hk : 0 < Rpower nb (1/2)) by apply exp_pos; generalize dependent (Rpower nb (1/2)); intros k Hk;
    (rewrite Rpower_less_1; [|repeat apply Rmult_lt_0_compat; auto]);
    assert (0 < e "diameter" * e "power_rating" * k) by (repeat apply Rmult_lt_0_compat; auto);
    unfold Rpower; (auto_derive; [lra|]); field; repeat split; lra.
Qed.
(** Propeller weight: partials, and the law it encodes. *)
Theorem C37_weight n E nb : (0 < n)%nat -> 0 < nb -> 0 < E "diameter" 0%nat -> 0 < E "power_rating" 0%nat ->
  jac_correct n (WeightCalc nb) E /\
  vcompute (WeightCalc nb) E "component_weight" 0 =
    108/1000 * Rpower (E "diameter" 0%nat * E "power_rating" 0%nat * sqrt nb) (782/1000).
Proof.
  intros Hn Hb Hd Hp. split; [now apply weight_jac|].
  outs WeightCalc. replace (Rpower nb (1/2)) with (sqrt nb); [reflexivity|].
  rewrite <- (Rpower_sqrt nb Hb). f_equal. lra.
Qed.
Print Assumptions C37_weight.

Example C37_met : exists E : env, E "diameter" 0%nat <> 0 /\ (forall i, (i < 3)%nat -> E "J" i <> 1/10 /\ E "J" i <> 2/10 /\ E "fltcond|rho" i <> 0 /\ E "rpm" i <> 0 /\
     E "ct_over_cp" i <> 0 /\ E "eta_prop" i <> 0) /\ E "J" 0%nat < 1/10 /\ 1/10 < E "J" 1%nat < 2/10 /\ 2/10 < E "J" 2%nat.
Proof.
  exists (fun x i => if String.eqb x "J" then match i with 0%nat => 1/20 | 1%nat => 3/20 | _ => 1 end else 1).
  split; [simpl; lra|]. split; [|simpl; lra]. intros [|[|[|i]]] Hi; simpl; try lia; lra.
Qed.

(** ** C38 *)
(** Four blades are accepted and other numbers rejected; three blades, for which
    maps are chosen, are rejected too. *)
Theorem C38_blade_counts_partial : propeller_setup 4 = Ok HighPower /\
  forall n, n <> 3%nat -> n <> 4%nat -> propeller_setup n = Err NotImplementedError.
Proof.
  split; [reflexivity|]. intros n H3 H4. unfold propeller_setup. now rewrite (proj2 (Nat.eqb_neq n 4) H4).
Qed.
Print Assumptions C38_blade_counts_partial.
Theorem C38_three_blades_refuted : propeller_setup 3 = Err NotImplementedError.
Proof. reflexivity. Qed.
Print Assumptions C38_three_blades_refuted.

(** ** C39 *)
Lemma in_list3 (nn : nat) : (0 < nn)%nat -> sizes_wf (VList [nn; 1; 1]%nat) 3.
Proof.
  intro H. unfold sizes_wf. split; [discriminate|]. split; [reflexivity|]. intros k Hk.
  assert (M : list_max [nn; 1%nat; 1%nat] = nn) by (simpl; lia). rewrite M.
  simpl in Hk. destruct Hk as [<-|[<-|[<-|[]]]]; auto.
Qed.
Lemma turbofan_values eng hy nn dt df rating i : (0 < nn)%nat -> (i < nn)%nat ->
  turbofan_thrust eng nn dt df rating i = Ok (dt i * rating / orig_rating eng) /\
  turbofan_fuel eng hy nn dt df rating i = Ok (lhv_scale hy * df i * rating / orig_rating eng).
Proof.
  intros Hn Hi.
  assert (W1 : mul_wf (scale_thrust nn)) by (split; [apply in_list3; auto|split; reflexivity]).
  assert (W2 : mul_wf (scale_fuel nn hy)) by (split; [apply in_list3; auto|split; reflexivity]).
  assert (Rw : row_of nn i = i). { unfold row_of. destruct (Nat.eqb_spec nn 1); lia. }
  pose proof (mul_value _ (scale_inputs eng dt df rating) i 0 W1 ltac:(simpl; lia)) as V1.
  pose proof (mul_value _ (scale_inputs eng dt df rating) i 0 W2 ltac:(simpl; lia)) as V2.
  change (ms_len (scale_thrust nn)) with 1%nat in V1. change (ms_len (scale_fuel nn hy)) with 1%nat in V2.
  replace (i * 1 + 0)%nat with i in V1, V2 by lia.
  unfold turbofan_thrust, turbofan_fuel. rewrite V1, V2.
  split; f_equal; cbn [ms_sf ms_ins ms_vec ms_len scale_thrust scale_fuel List.length rprod nth in_size divided ms_div]; unfold entry; cbv zeta; rewrite Rw;
  unfold row_of; simpl Nat.eqb; cbv iota; cbn [Nat.mul Nat.add]; rewrite ?Nat.mul_1_r, ?Nat.add_0_r; unfold scale_inputs; simpl;
  unfold Rdiv; ring.
Qed.

(** Thrust is proportional to the rating, and equals the deck's at the deck's
    own rating; the fuel flow scales with it, so thrust-specific fuel flow does
    not depend on the rating. *)
Theorem C39_scaling eng hy nn dt df i : (0 < nn)%nat -> (i < nn)%nat ->
  exists T F : R -> R, (forall r, turbofan_thrust eng nn dt df r i = Ok (T r) /\ turbofan_fuel eng hy nn dt df r i = Ok (F r)) /\
    (forall a r, T (a * r) = a * T r /\ F (a * r) = a * F r) /\
    (let deck_rating := match eng with N3 => 28620 | CFM56 => 27300 end in
     T deck_rating = dt i /\ F deck_rating = (if hy then 43 / 120 else 1) * df i) /\
    (forall r r', F r * T r' = F r' * T r).
Proof.
  intros Hn Hi.
  exists (fun r => dt i * r / orig_rating eng), (fun r => lhv_scale hy * df i * r / orig_rating eng).
  assert (H0 : orig_rating eng <> 0) by (destruct eng; simpl; lra).
  split; [intro r; apply turbofan_values; auto|]. split; [intros; split; unfold Rdiv; ring|].
  split; [|intros; unfold Rdiv; ring]. split; [destruct eng; unfold orig_rating; field|].
  destruct eng, hy; unfold orig_rating, lhv_scale; field.
Qed.
Print Assumptions C39_scaling.
(** Burning hydrogen delivers the same thrust and the same energy flow: 43 MJ/kg
    of kerosene against 120 MJ/kg of hydrogen. *)
Theorem C39_hydrogen eng nn dt df r i : (0 < nn)%nat -> (i < nn)%nat ->
  exists fk fh, turbofan_fuel eng false nn dt df r i = Ok fk /\ turbofan_fuel eng true nn dt df r i = Ok fh /\
    120 * fh = 43 * fk.
Proof.
  intros Hn Hi. exists (lhv_scale false * df i * r / orig_rating eng), (lhv_scale true * df i * r / orig_rating eng).
  split; [apply turbofan_values; auto|]. split; [apply turbofan_values; auto|].
  assert (H0 : orig_rating eng <> 0) by (destruct eng; simpl; lra). unfold lhv_scale. field. auto.
Qed.
Print Assumptions C39_hydrogen.
Example C39_met : turbofan_thrust CFM56 3 (fun i => 1000 + INR i) (fun _ => 2) 13650 1 = Ok (1001 / 2).
Proof. rewrite (proj1 (turbofan_values CFM56 false 3 _ _ _ 1 ltac:(lia) ltac:(lia))). f_equal. simpl. lra. Qed.

(** ** C40 *)
Theorem C40_battery eta p_b ci cb E i :
  let out x := vcompute (SimpleBattery eta p_b ci cb) E x i in let W := E "battery_weight" 0%nat in
  out "max_energy" = E "specific_energy" 0%nat * W /\ out "heat_out" = (1 - eta) * E "elec_load" i /\
  (p_b <> 0 -> W <> 0 -> out "component_sizing_margin" * (p_b * W) = E "elec_load" i) /\
  out "component_cost" = cb + ci * W.
Proof. cbv zeta. outs SimpleBattery. repeat split; try ring. intros; field; auto. Qed.
Print Assumptions C40_battery.
Theorem C40_partials n eta p_b ci cb E : (0 < n)%nat -> p_b <> 0 -> E "battery_weight" 0%nat <> 0 ->
  jac_correct n (SimpleBattery eta p_b ci cb) E.
Proof. exact (battery_jac n eta p_b ci cb E). Qed.
Print Assumptions C40_partials.

Lemma soc_rate nn eta p_b ci cb E i : (0 < nn)%nat -> (i < nn)%nat ->
  let E1 := run_comp (SimpleBattery eta p_b ci cb) E in
  let E2 := put E1 "max_energy" (fun j => Wh_to_kJ * E1 "max_energy" j) in
  mul_compute (soc_divider nn) E2 i = Ok (- (E "elec_load" i / (Wh_to_kJ * (E "battery_weight" 0%nat * E "specific_energy" 0%nat)))).
Proof.
  intros Hn Hi E1 E2.
  assert (W : mul_wf (soc_divider nn)).
  { split; [|split; reflexivity]. unfold sizes_wf. simpl. split; [discriminate|]. split; [reflexivity|].
    intros k Hk. assert (M : Nat.max nn 1 = nn) by lia. replace (Nat.max nn (Nat.max 1 0)) with nn by (simpl; lia).
    destruct Hk as [<-|[<-|[]]]; auto. }
  assert (Rw : row_of nn i = i). { unfold row_of. destruct (Nat.eqb_spec nn 1); lia. }
  pose proof (mul_value _ E2 i 0 W ltac:(simpl; lia)) as V1.
  change (ms_len (soc_divider nn)) with 1%nat in V1. replace (i * 1 + 0)%nat with i in V1 by lia.
  rewrite V1. f_equal.
  cbn [ms_sf ms_ins ms_vec ms_len soc_divider List.length rprod nth in_size divided ms_div]. unfold entry. cbv zeta.
  rewrite Rw. unfold row_of. simpl Nat.eqb. cbv iota. cbn [Nat.mul Nat.add]. rewrite Nat.mul_1_r, Nat.add_0_r.
  change (E2 "elec_load" i) with (E "elec_load" i).
  change (E2 "max_energy" 0%nat) with (Wh_to_kJ * (E "battery_weight" 0%nat * E "specific_energy" 0%nat)).
  unfold Rdiv. ring.
Qed.

(** For a load that is a polynomial of degree two in time (so the quadrature is
    exact) the charge falls by the energy drawn over the battery's energy (in
    joules: 3600 J per W*h). *)
Theorem C40_state_of_charge nn X eta p_b ci cb dt soc0 E c0 c1 c2 :
  method_size Simpson nn -> is_inverse (nn - 1) simpson_a X ->
  E "battery_weight" 0%nat <> 0 -> E "specific_energy" 0%nat <> 0 ->
  (forall i, (i < nn)%nat -> E "elec_load" i = poly3 c0 c1 c2 0 (INR i * dt)) ->
  forall i, (i < nn)%nat ->
    soc nn (method_tri Simpson nn X) eta p_b ci cb (INR (nn - 1) * dt) soc0 E i =
    Ok (soc0 - RInt (poly3 c0 c1 c2 0) 0 (INR i * dt) / (3600 * E "specific_energy" 0%nat * E "battery_weight" 0%nat)).
Proof.
  intros MS HX HW HS Hload i Hi. assert (H3 : (3 <= nn)%nat) by apply MS. unfold soc.
  rewrite (soc_rate nn eta p_b ci cb E 0) by lia. cbn [res_bind]. f_equal.
  rewrite (proj1 (C03_time_modes_interchangeable nn _ dt 0 false soc0 _ i ltac:(lia))).
  set (k := - / (3600 * E "specific_energy" 0%nat * E "battery_weight" 0%nat)).
  assert (Ec : forall j, (j < nn)%nat -> (fun j => W_per_kJ_to_per_s *
     match mul_compute (soc_divider nn) (put (run_comp (SimpleBattery eta p_b ci cb) E) "max_energy"
        (fun j => Wh_to_kJ * run_comp (SimpleBattery eta p_b ci cb) E "max_energy" j)) j with Ok r => r | Err _ => 0 end) j =
     poly3 (k * c0) (k * c1) (k * c2) 0 (0 + INR j * dt)).
  { intros j Hj. cbv beta. rewrite (soc_rate nn eta p_b ci cb E j) by lia.
    rewrite (Hload j Hj), Rplus_0_l. unfold poly3, k, W_per_kJ_to_per_s, Wh_to_kJ. field. auto. }
  rewrite (C01_simpson_quadratic_exact nn X (k * c0) (k * c1) (k * c2) 0 dt false soc0 _ MS HX Ec i Hi).
  rewrite Rplus_0_l.
  replace (RInt (poly3 (k * c0) (k * c1) (k * c2) 0) 0 (INR i * dt)) with (k * RInt (poly3 c0 c1 c2 0) 0 (INR i * dt)).
  - unfold k. set (I := RInt _ _ _). cbv iota. unfold Rdiv. ring.
  - rewrite <- (RInt_scal (V := R_CompleteNormedModule)).
    + apply RInt_ext. intros x _. unfold poly3, scal; simpl; unfold mult; simpl. ring.
    + apply (ex_RInt_continuous (V := R_CompleteNormedModule)). intros z _. apply cont_ex. unfold poly3. auto_derive. auto.
Qed.
Print Assumptions C40_state_of_charge.

(** For every load history the charge at the end of the phase has fallen by the
    composite Simpson sum of the load over the battery's energy. *)
Theorem C40_final_charge m X eta p_b ci cb dt soc0 E :
  (0 < m)%nat -> is_inverse (2 * m) simpson_a X -> E "battery_weight" 0%nat <> 0 -> E "specific_energy" 0%nat <> 0 ->
  let P := E "elec_load" in
  soc (2 * m + 1) (method_tri Simpson (2 * m + 1) X) eta p_b ci cb (INR (2 * m) * dt) soc0 E (2 * m) =
  Ok (soc0 - dt / 3 * rsum m (fun k => P (2 * k)%nat + 4 * P (2 * k + 1)%nat + P (2 * k + 2)%nat)
             / (3600 * E "specific_energy" 0%nat * E "battery_weight" 0%nat)).
Proof.
  intros Hm HX HW HS P. unfold soc.
  rewrite (soc_rate (2 * m + 1) eta p_b ci cb E 0) by lia. cbn [res_bind]. f_equal.
  pose proof (C03_time_modes_interchangeable (2 * m + 1) (method_tri Simpson (2 * m + 1) X) dt 0 false soc0
    (fun j => W_per_kJ_to_per_s *
     match mul_compute (soc_divider (2 * m + 1)) (put (run_comp (SimpleBattery eta p_b ci cb) E) "max_energy"
        (fun j => Wh_to_kJ * run_comp (SimpleBattery eta p_b ci cb) E "max_energy" j)) j with Ok r => r | Err _ => 0 end)
    (2 * m) ltac:(lia)) as [T _].
  replace (2 * m + 1 - 1)%nat with (2 * m)%nat in T by lia. rewrite T.
  pose proof (C01_simpson_final_is_composite_rule m X dt false soc0
    (fun j => W_per_kJ_to_per_s *
     match mul_compute (soc_divider (2 * m + 1)) (put (run_comp (SimpleBattery eta p_b ci cb) E) "max_energy"
        (fun j => Wh_to_kJ * run_comp (SimpleBattery eta p_b ci cb) E "max_energy" j)) j with Ok r => r | Err _ => 0 end)
    Hm HX) as F.
  unfold integ_q_final in F. replace (2 * m + 1 - 1)%nat with (2 * m)%nat in F by lia. rewrite F. clear F T.
  rewrite (rsum_ext m _ (fun k => - / (3600 * E "specific_energy" 0%nat * E "battery_weight" 0%nat) *
     (P (2 * k)%nat + 4 * P (2 * k + 1)%nat + P (2 * k + 2)%nat))).
  - rewrite rsum_scal. unfold Rdiv. ring.
  - intros k Hk. rewrite (soc_rate (2 * m + 1) eta p_b ci cb E (2 * k)), (soc_rate (2 * m + 1) eta p_b ci cb E (2 * k + 1)),
      (soc_rate (2 * m + 1) eta p_b ci cb E (2 * k + 2)) by lia.
    unfold P, W_per_kJ_to_per_s, Wh_to_kJ. field. auto.
Qed.
Print Assumptions C40_final_charge.
Example C40_met : exists X E, method_size Simpson 3 /\ is_inverse (3 - 1) simpson_a X /\ E "battery_weight" 0%nat <> 0 /\
  E "specific_energy" 0%nat <> 0 /\ (forall i, (i < 3)%nat -> E "elec_load" i = poly3 3600 100 0 0 (INR i * 60)).
Proof.
  destruct (C01_simpson_matrix_invertible 3) as [X HX]. exists X.
  exists (fun x i => if String.eqb x "elec_load" then 3600 + 100 * (INR i * 60) else 300).
  split; [split; [reflexivity|lia]|]. split; [exact HX|]. simpl. split; [lra|]. split; [lra|].
  intros i _. unfold poly3. ring.
Qed.
