(** Lemmas for the thermal components. *)
From Coq Require Import Reals List Bool PeanoNat String Lra Lia.
From Verif Require Import Base Py RSum Calc Model_Integrals Spec_Integrals Proofs_Integrals Proofs_IntegMore Props_Integrals
  Model_Vectors Model_Net Proofs_Net Model_Thermal Proofs_Phases Proofs_Tank.
Import ListNotations.
Open Scope R_scope.
Open Scope string_scope.

Ltac to_node := intros; apply jac_correct_lift; [assumption|]; let i := fresh "i" in let Hi := fresh "Hi" in
  intros i Hi;
  repeat match goal with H : forall j, (j < ?n)%nat -> _ |- _ => specialize (H i Hi) end.

Lemma pht_jac n E c : (0 < n)%nat -> c <> 0 -> (forall i, (i < n)%nat -> E "mdot_coolant" i <> 0) ->
  jac_correct n (PerfectHeatTransferComp c) E.
Proof.
  to_node.
  change (E "mdot_coolant" i) with (node (PerfectHeatTransferComp c) E i "mdot_coolant") in *.
  generalize dependent (node (PerfectHeatTransferComp c) E i). intros e He.
  split_jac PerfectHeatTransferComp; auto_derive; auto; field; auto.
Qed.

Lemma mass_jac n E c : (0 < n)%nat -> c <> 0 -> E "mass" 0%nat <> 0 ->
  jac_correct n (ThermalComponentWithMass c) E.
Proof.
  to_node.
  change (E "mass" 0%nat) with (node (ThermalComponentWithMass c) E i "mass") in *.
  generalize dependent (node (ThermalComponentWithMass c) E i). intros e He.
  split_jac ThermalComponentWithMass; auto_derive; auto; field; auto.
Qed.

Lemma massless_jac n E : (0 < n)%nat -> jac_correct n massless_residual E.
Proof.
  to_node. generalize dependent (node massless_residual E i). intros e.
  split_jac massless_residual; auto_derive; auto; ring.
Qed.

Lemma reservoir_jac n E : (0 < n)%nat -> E "mass" 0%nat <> 0 -> jac_correct n CoolantReservoirRate E.
Proof.
  to_node.
  change (E "mass" 0%nat) with (node CoolantReservoirRate E i "mass") in *.
  generalize dependent (node CoolantReservoirRate E i). intros e He.
  split_jac CoolantReservoirRate; auto_derive; auto; field; auto.
Qed.

Lemma motor_jac n E c cm k : (0 < n)%nat -> c <> 0 -> cm <> 0 -> E "motor_weight" 0%nat <> 0 ->
  (forall i, (i < n)%nat -> E "mdot_coolant" i <> 0) -> jac_correct n (MotorCoolingJacket c cm k) E.
Proof.
  to_node.
  change (E "mdot_coolant" i) with (node (MotorCoolingJacket c cm k) E i "mdot_coolant") in *.
  change (E "motor_weight" 0%nat) with (node (MotorCoolingJacket c cm k) E i "motor_weight") in *.
  generalize dependent (node (MotorCoolingJacket c cm k) E i). intros e Hw Hm.
  split_jac MotorCoolingJacket; (auto_derive; [auto|]); unfold Rdiv; try ring; field; auto.
Qed.

Lemma split_flow_jac n E : (0 < n)%nat -> jac_correct n FlowSplit E.
Proof.
  to_node. generalize dependent (node FlowSplit E i). intros e.
  split_jac FlowSplit; auto_derive; auto; ring.
Qed.

Lemma combine_jac n E : (0 < n)%nat -> (forall i, (i < n)%nat -> E "mdot_in_A" i + E "mdot_in_B" i <> 0) ->
  jac_correct n FlowCombine E.
Proof.
  to_node.
  change (E "mdot_in_A" i) with (node FlowCombine E i "mdot_in_A") in *.
  change (E "mdot_in_B" i) with (node FlowCombine E i "mdot_in_B") in *.
  generalize dependent (node FlowCombine E i). intros e He.
  split_jac FlowCombine; auto_derive; auto; field; auto.
Qed.

Lemma selector_jac n E : (0 < n)%nat -> jac_correct n LinearSelector E.
Proof.
  to_node. generalize dependent (node LinearSelector E i). intros e.
  split_jac LinearSelector; auto_derive; auto; field.
Qed.

Lemma heat_pump_jac n E : (0 < n)%nat -> jac_correct n COPHeatPump E.
Proof.
  to_node. generalize dependent (node COPHeatPump E i). intros e.
  split_jac COPHeatPump; auto_derive; auto; ring.
Qed.

Lemma hp_weight_jac n E : (0 < n)%nat -> E "specific_power" 0%nat <> 0 -> jac_correct n HeatPumpWeight E.
Proof.
  to_node.
  change (E "specific_power" 0%nat) with (node HeatPumpWeight E i "specific_power") in *.
  generalize dependent (node HeatPumpWeight E i). intros e He.
  split_jac HeatPumpWeight; auto_derive; auto; field; auto.
Qed.

Lemma pump_jac n E eta b k : (0 < n)%nat -> eta <> 0 -> E "power_rating" 0%nat <> 0 ->
  (forall i, (i < n)%nat -> E "rho_coolant" i <> 0) -> jac_correct n (SimplePump eta b k) E.
Proof.
  to_node.
  change (E "power_rating" 0%nat) with (node (SimplePump eta b k) E i "power_rating") in *.
  change (E "rho_coolant" i) with (node (SimplePump eta b k) E i "rho_coolant") in *.
  generalize dependent (node (SimplePump eta b k) E i). intros e Hp Hr.
  split_jac SimplePump; auto_derive; auto; field; auto.
Qed.

Lemma cs_ok (f : nenv -> R) x e : ex_derive (fun t => f (upd e x t)) (e x) ->
  is_derive (fun t => f (upd e x t)) (e x) (cs f x e).
Proof. intro H. exact (Derive_correct _ _ H). Qed.

Lemma cs_jac n ins outs E : (0 < n)%nat ->
  (forall i o k f, (i < n)%nat -> assoc o outs = Some (k, f) -> forall x kx, assoc x ins = Some kx ->
     let e := node {| pc_ins := ins; pc_outs := outs; pc_J := cs_partials ins outs |} E i in
     ex_derive (fun t => f (upd e x t)) (e x)) ->
  jac_correct n {| pc_ins := ins; pc_outs := outs; pc_J := cs_partials ins outs |} E.
Proof.
  intros Hn H o ko f x kx r c Ho Hx Hr Hc. set (C := {| pc_ins := _ |}) in *.
  assert (Hrn : (r < n)%nat) by (destruct ko; simpl in Hr; lia).
  specialize (H r o ko f Hrn Ho x kx Hx). cbv zeta in H. fold C in H.
  assert (J : assoc2 o x (pc_J C) = Some (cs f x)).
  { cbn [C pc_J pc_ins pc_outs] in Ho, Hx |- *. clear - Ho Hx.
    unfold cs_partials.
    assert (A : forall l l2 A' (g : A'), assoc2 o x (map (fun x0 : string * kind => (o, fst x0, cs f (fst x0))) l ++ l2) =
       match assoc x l with Some _ => Some (cs f x) | None => assoc2 o x l2 end).
    { intros l l2 _ _. induction l as [|[y b] l IH]; [reflexivity|]. cbn [map app assoc2 assoc fst].
      rewrite String.eqb_refl. destruct (String.eqb_spec x y) as [->|]; [reflexivity|]. exact IH. }
    assert (B : forall o' f' l l2, String.eqb o o' = false ->
       assoc2 o x (map (fun x0 : string * kind => (o', fst x0, cs f' (fst x0))) l ++ l2) = assoc2 o x l2).
    { intros o' f' l l2 Hne. induction l as [|[y b] l IH]; [reflexivity|]. cbn [map app assoc2 fst]. rewrite Hne. exact IH. }
    induction outs as [|[o' [k' f']] outs' IH]; [discriminate|].
    cbn [flat_map fst snd assoc] in Ho |- *. destruct (String.eqb_spec o o') as [<-|Hne].
    - inversion Ho; subst. rewrite (A ins _ unit tt), Hx. reflexivity.
    - rewrite B; [auto|]. now apply String.eqb_neq. }
  assert (D : is_derive (fun t => f (upd (node C E r) x t)) (node C E r x) (njac C o x (node C E r))).
  { unfold njac. rewrite J. apply cs_ok. exact H. }
  unfold vcompute, vjac, nval. rewrite Hx, Ho.
  destruct kx.
  - destruct (Nat.eqb_spec r c) as [<-|Hne].
    + rewrite (node_at _ _ _ _ r Hx) in D. eapply is_derive_ext; [|exact D].
      intro t. cbv beta. rewrite (node_updE_hit C E x r t r Vec Hx); [reflexivity|reflexivity|discriminate].
    + eapply is_derive_ext; [|apply (is_derive_const (f (node C E r)))].
      intro t. now rewrite node_updE_miss.
  - assert (c = 0%nat) by (simpl in Hc; lia). subst c.
    rewrite (node_at _ _ _ _ r Hx) in D. eapply is_derive_ext; [|exact D].
    intro t. cbv beta. rewrite (node_updE_hit C E x 0 t r Sca Hx); [reflexivity|discriminate|reflexivity].
Qed.

Ltac each_in H := repeat (destruct H as [H|H]; [inversion H; subst; clear H|]); try contradiction.

Lemma plate_jac n E k Nu c : (0 < n)%nat -> c <> 0 ->
  0 < E "channel_width" 0%nat -> 0 < E "channel_height" 0%nat ->
  (forall i, (i < n)%nat -> E "mdot_coolant" i <> 0) -> jac_correct n (ColdPlate k Nu c) E.
Proof.
  intros Hn Hc Hw Hh Hm. apply cs_jac; [assumption|]. intros i o ko f Hi Ho x kx Hx. cbv zeta.
  set (ins := [("T_in", Vec); _; _; _; _; _; _]) in *.
  set (C := {| pc_ins := ins |}). specialize (Hm i Hi).
  change (E "channel_width" 0%nat) with (node C E i "channel_width") in *.
  change (E "channel_height" 0%nat) with (node C E i "channel_height") in *.
  change (E "mdot_coolant" i) with (node C E i "mdot_coolant") in *.
  clearbody C. unfold ins in Hx. clear ins.
  generalize dependent (node C E i). intros e Hw Hh Hm.
  assert (e "channel_width" * e "channel_height" <> 0) by nra.
  assert (2 * e "channel_width" * e "channel_height" <> 0) by nra.
  assert (e "channel_width" + e "channel_height" <> 0) by nra.
  assert (e "mdot_coolant" * c <> 0) by (apply Rmult_integral_contrapositive; auto).
  apply assoc_In in Ho. apply assoc_In in Hx. cbn [In] in Ho, Hx.
  assert (H4 : 2 * e "channel_width" * e "channel_height" * / (e "channel_width" + e "channel_height") <> 0).
  { apply Rmult_integral_contrapositive; split; auto. now apply Rinv_neq_0_compat. }
  each_in Ho; each_in Hx; unfold upd, plate_UA; cbn [String.eqb Ascii.eqb Bool.eqb]; auto_derive; repeat split; auto.
Qed.

Lemma expm_lt_1 x : 0 < x -> exp (- x) < 1.
Proof. intro H. rewrite <- exp_0. apply exp_increasing. lra. Qed.
Lemma one_minus_exp_pos x : 0 < x -> 0 < 1 - exp (- x).
Proof. intro H. pose proof (expm_lt_1 x H). lra. Qed.
Lemma one_minus_exp_lt1 x : 1 - exp (- x) < 1.
Proof. pose proof (exp_pos (- x)). lra. Qed.

(** The cell options are physical. *)
Definition cell_pos (o : cell_opts) : Prop :=
  0 < cpf o /\ 0 < fk o /\ 0 < nus o /\ 0 < krc o /\ 0 < Dc o /\ 0 < Hc o /\ 0 < mc o /\ 0 < cpc o /\ 0 < wfrac o.

Lemma n_cells_pos o W : cell_pos o -> 0 < W -> 0 < n_cells o W.
Proof. intros P H. destruct P as (?&?&?&?&?&?&?&?&?). unfold n_cells, Rdiv. apply Rmult_lt_0_compat; [nra|]. now apply Rinv_0_lt_compat. Qed.
Lemma k_cyl_pos o : cell_pos o -> 0 < k_cyl o.
Proof. intros P. destruct P as (?&?&?&?&?&?&?&?&?). unfold k_cyl. pose proof PI_RGT_0. assert (0 < PI * Hc o) by (apply Rmult_lt_0_compat; auto). assert (0 < PI * Hc o * krc o) by (apply Rmult_lt_0_compat; auto). lra. Qed.
Lemma div_pos a b : 0 < a -> 0 < b -> 0 < a / b.
Proof. intros. unfold Rdiv. apply Rmult_lt_0_compat; auto. now apply Rinv_0_lt_compat. Qed.
Lemma k_cell_pos o W n t m : cell_pos o -> 0 < W -> 0 < n -> 0 < t -> 0 < m -> 0 < k_cell o W n t m.
Proof.
  intros P HW Hn Ht Hm. pose proof (n_cells_pos o W P HW) as HN. destruct P as (?&?&?&?&?&?&?&?&?).
  unfold k_cell. set (b := m / _). assert (Hb : 0 < b) by (unfold b; apply div_pos; auto; apply div_pos; [now apply div_pos|lra]).
  clearbody b. set (NTU := _ / b / cpf o).
  assert (HN2 : 0 < NTU).
  { unfold NTU. apply div_pos; auto. apply div_pos; auto. apply Rmult_lt_0_compat.
    - apply div_pos; auto. apply div_pos; [nra|lra].
    - assert (0 < n * Dc o) by nra. assert (0 < Hc o * (n * Dc o)) by nra. lra. }
  pose proof (one_minus_exp_pos NTU HN2). apply div_pos; auto. apply div_pos; [|lra]. repeat apply Rmult_lt_0_compat; auto.
Qed.

Lemma bandolier_jac n E o : (0 < n)%nat -> cell_pos o ->
  0 < E "battery_weight" 0%nat -> 0 < E "n_cpb" 0%nat -> 0 < E "t_channel" 0%nat ->
  (forall i, (i < n)%nat -> 0 < E "mdot_coolant" i) -> jac_correct n (Bandolier o) E.
Proof.
  intros Hn P HW Hc Ht Hm. apply cs_jac; [assumption|]. intros i o' ko f Hi Ho x kx Hx. cbv zeta.
  set (ins := [("q_in", Vec); _; _; _; _; _; _]) in *.
  set (C := {| pc_ins := ins |}). specialize (Hm i Hi).
  change (E "battery_weight" 0%nat) with (node C E i "battery_weight") in *.
  change (E "n_cpb" 0%nat) with (node C E i "n_cpb") in *.
  change (E "t_channel" 0%nat) with (node C E i "t_channel") in *.
  change (E "mdot_coolant" i) with (node C E i "mdot_coolant") in *.
  clearbody C. unfold ins in Hx. clear ins.
  generalize dependent (node C E i). intros e HW Hc Ht Hm.
  pose proof (n_cells_pos o _ P HW) as HN. pose proof (k_cyl_pos o P) as HK.
  pose proof (k_cell_pos o _ _ _ _ P HW Hc Ht Hm) as HKc.
  destruct P as (P1&P2&P3&P4&P5&P6&P7&P8&P9).
  apply assoc_In in Ho. apply assoc_In in Hx. cbn [In] in Ho, Hx.
  Local Ltac nz := match goal with |- _ <> 0 => idtac end.
  assert (A : forall x', x' = "q_in" \/ x' = "T_in" \/ x' = "T_battery" \/ x' = "mdot_coolant" \/ x' = "battery_weight" \/ x' = "n_cpb" \/ x' = "t_channel" ->
     ex_derive (fun t => k_cell o (upd e x' t "battery_weight") (upd e x' t "n_cpb") (upd e x' t "t_channel") (upd e x' t "mdot_coolant")) (e x')).
  { intros x' Hx'. unfold k_cell, n_cells in *.
    assert (N1 : e "battery_weight" * wfrac o * / mc o * / e "n_cpb" * / 2 <> 0).
    { apply Rgt_not_eq. repeat apply Rmult_lt_0_compat; try apply Rinv_0_lt_compat; auto; lra. }
    assert (N2 : e "mdot_coolant" * / (e "battery_weight" * wfrac o * / mc o * / e "n_cpb" * / 2) <> 0).
    { apply Rmult_integral_contrapositive; split; [lra|]. now apply Rinv_neq_0_compat. }
    repeat destruct Hx' as [->|Hx']; try subst x'; unfold upd; cbn [String.eqb Ascii.eqb Bool.eqb]; auto_derive; repeat split; auto; lra. }
  assert (Hd : forall x', (x' = "q_in" \/ x' = "T_in" \/ x' = "T_battery" \/ x' = "mdot_coolant" \/ x' = "battery_weight" \/ x' = "n_cpb" \/ x' = "t_channel") ->
     ex_derive (fun t => n_cells o (upd e x' t "battery_weight")) (e x') /\
     ex_derive (fun t => upd e x' t "T_in") (e x') /\ ex_derive (fun t => upd e x' t "T_battery") (e x') /\
     ex_derive (fun t => upd e x' t "q_in") (e x') /\ ex_derive (fun t => upd e x' t "mdot_coolant") (e x')).
  { intros x' Hx'. unfold n_cells. repeat destruct Hx' as [->|Hx']; try subst x'; unfold upd; cbn [String.eqb Ascii.eqb Bool.eqb];
      repeat split; auto_derive; auto; lra. }
  assert (Hin : x = "q_in" \/ x = "T_in" \/ x = "T_battery" \/ x = "mdot_coolant" \/ x = "battery_weight" \/ x = "n_cpb" \/ x = "t_channel").
  { repeat (destruct Hx as [Hx|Hx]; [inversion Hx; subst; tauto|]). contradiction. }
  specialize (A x Hin). specialize (Hd x Hin). destruct Hd as (D1&D2&D3&D4&D5). clear Hx.
  assert (V : forall y, upd e x (e x) y = e y).
  { intro y. unfold upd. destruct (String.eqb_spec x y); congruence. }
  (* surface temperature *)
  assert (KN : k_cyl o + k_cell o (e "battery_weight") (e "n_cpb") (e "t_channel") (e "mdot_coolant") <> 0) by lra.
  set (K := fun t => k_cell o (upd e x t "battery_weight") (upd e x t "n_cpb") (upd e x t "t_channel") (upd e x t "mdot_coolant")) in *.
  set (N := fun t => n_cells o (upd e x t "battery_weight")) in *.
  set (Ti := fun t => upd e x t "T_in") in *. set (T := fun t => upd e x t "T_battery") in *.
  set (q := fun t => upd e x t "q_in") in *. set (m := fun t => upd e x t "mdot_coolant") in *.
  assert (K0 : K (e x) = k_cell o (e "battery_weight") (e "n_cpb") (e "t_channel") (e "mdot_coolant")) by (unfold K; now rewrite !V).
  assert (N0 : N (e x) = n_cells o (e "battery_weight")) by (unfold N; now rewrite !V).
  assert (m0 : m (e x) = e "mdot_coolant") by (unfold m; now rewrite !V).
  rewrite <- K0 in KN. rewrite <- N0 in HN. rewrite <- m0 in Hm.
  assert (DTs : ex_derive (fun t => (k_cyl o * T t + K t * Ti t) / (k_cyl o + K t)) (e x)).
  { apply (ex_derive_div (fun t => k_cyl o * T t + K t * Ti t) (fun t => k_cyl o + K t)); [| |exact KN].
    - apply (ex_derive_plus (fun t => k_cyl o * T t) (fun t => K t * Ti t)).
      + apply (ex_derive_scal T (k_cyl o)). exact D3.
      + apply (ex_derive_mult K Ti); auto.
    - apply (ex_derive_plus (fun _ => k_cyl o) K); auto. apply ex_derive_const. }
  set (Ts := fun t => (k_cyl o * T t + K t * Ti t) / (k_cyl o + K t)) in *.
  assert (Dc1 : ex_derive (fun t => (Ts t - Ti t) * K t) (e x)).
  { apply (ex_derive_mult (fun t => Ts t - Ti t) K); auto. apply (ex_derive_minus Ts Ti); auto. }
  assert (Dq : ex_derive (fun t => (Ts t - Ti t) * K t * N t) (e x)).
  { apply (ex_derive_mult (fun t => (Ts t - Ti t) * K t) N); auto. }
  each_in Ho.
  - apply (ex_derive_ext (fun t => (q t / N t - (Ts t - Ti t) * K t) * (/ mc o * / cpc o))).
    + intro t. match goal with |- ?a = ?b => change (@eq R a b) end. unfold q, N, Ts, Ti, T, K, Rdiv. ring.
    + apply (ex_derive_mult (fun t => q t / N t - (Ts t - Ti t) * K t) (fun _ => / mc o * / cpc o)); [|apply ex_derive_const].
      apply (ex_derive_minus (fun t => q t / N t) (fun t => (Ts t - Ti t) * K t)); auto.
      apply (ex_derive_div q N); auto. lra.
  - exact DTs.
  - apply (ex_derive_plus (fun t => T t - Ts t) T); auto. apply (ex_derive_minus T Ts); auto.
  - exact Dq.
  - apply (ex_derive_plus Ti (fun t => (Ts t - Ti t) * K t * N t / m t / cpf o)); auto.
    apply (ex_derive_ext (fun t => ((Ts t - Ti t) * K t * N t / m t) * / cpf o)); [reflexivity|].
    apply (ex_derive_mult (fun t => (Ts t - Ti t) * K t * N t / m t) (fun _ => / cpf o)); [|apply ex_derive_const].
    apply (ex_derive_div (fun t => (Ts t - Ti t) * K t * N t) m); auto. lra.
Qed.

(** ** COP *)
Lemma tanh_alt x : tanh x = 1 - 2 / (exp (2 * x) + 1).
Proof.
  unfold tanh, sinh, cosh. pose proof (exp_pos x). pose proof (exp_pos (- x)).
  replace (2 * x) with (x + x) by ring. rewrite exp_plus, exp_Ropp. field. split; nra.
Qed.
Lemma tanh_lt1 x : tanh x < 1.
Proof. rewrite tanh_alt. pose proof (exp_pos (2 * x)). assert (0 < 2 / (exp (2 * x) + 1)) by (apply div_pos; lra). lra. Qed.
Lemma tanh_gtm1 x : -1 < tanh x.
Proof.
  rewrite tanh_alt. pose proof (exp_pos (2 * x)).
  assert (2 / (exp (2 * x) + 1) < 2). { apply (Rmult_lt_reg_r (exp (2 * x) + 1)); [lra|]. unfold Rdiv. rewrite Rmult_assoc, Rinv_l; lra. }
  lra.
Qed.
Lemma tanh_pos x : 0 < x -> 0 < tanh x.
Proof.
  intro H. unfold tanh, sinh, cosh. pose proof (exp_pos x). pose proof (exp_pos (- x)).
  assert (exp (- x) < exp x) by (apply exp_increasing; lra). apply div_pos; apply div_pos; lra.
Qed.
Lemma tanh_opp x : tanh (- x) = - tanh x.
Proof. unfold tanh, sinh, cosh. rewrite Ropp_involutive. pose proof (exp_pos x). pose proof (exp_pos (- x)). field. lra. Qed.
Lemma tanh_div_pos x : x <> 0 -> 0 < tanh x / x.
Proof.
  intro H. destruct (Rlt_dec 0 x) as [Hx|Hx].
  - apply div_pos; auto. now apply tanh_pos.
  - replace (tanh x / x) with (tanh (- x) / (- x)) by (rewrite tanh_opp; field; auto).
    apply div_pos; [apply tanh_pos|]; lra.
Qed.

Lemma soft10_between a : Rmin a 10 <= soft10 a <= Rmax a 10.
Proof.
  unfold soft10. set (u := exp (- (15/10) * a)). set (v := exp (- (15/10) * 10)).
  assert (0 < u) by apply exp_pos. assert (0 < v) by apply exp_pos. clearbody u v.
  assert (S : (a * u + 10 * v) / (u + v) * (u + v) = a * u + 10 * v) by (field; lra).
  set (s := _ / _) in *. clearbody s.
  unfold Rmin, Rmax. destruct (Rle_dec a 10); split; nra.
Qed.

(** The smoothing exceeds the smaller of its arguments by at most 1/3. *)
Lemma soft10_excess a : soft10 a <= Rmin a 10 + 1/3.
Proof.
  assert (E : forall y, y * exp (- (15/10) * y) <= 1/3).
  { intro y. set (w := 15/10 * y).
    assert (W : w <= exp (w - 1)). { pose proof (exp_ineq1_le (w - 1)). lra. }
    assert (W2 : exp (w - 1) * exp (- w) = exp (- (1))). { rewrite <- exp_plus. f_equal. lra. }
    assert (W3 : w * exp (- w) <= exp (- (1))). { rewrite <- W2. apply Rmult_le_compat_r; [left; apply exp_pos|exact W]. }
    assert (W4 : exp (- (1)) <= 1/2).
    { rewrite exp_Ropp. pose proof (exp_ineq1_le 1).
      apply (Rmult_le_reg_l (exp 1)); [apply exp_pos|]. rewrite Rinv_r; [lra|]. apply Rgt_not_eq, exp_pos. }
    replace (- (15/10) * y) with (- w) by (unfold w; ring).
    assert (15/10 * (y * exp (- w)) <= 1/2). { replace (15/10 * (y * exp (- w))) with (w * exp (- w)) by (unfold w; ring). lra. }
    lra. }
  unfold soft10. set (u := exp (- (15/10) * a)). set (v := exp (- (15/10) * 10)).
  assert (Hu : 0 < u) by apply exp_pos. assert (Hv : 0 < v) by apply exp_pos.
  assert (Q1 : v = u * exp (- (15/10) * (10 - a))). { unfold u, v. rewrite <- exp_plus. f_equal. ring. }
  assert (Q2 : u = v * exp (- (15/10) * (a - 10))). { unfold u, v. rewrite <- exp_plus. f_equal. ring. }
  pose proof (E (10 - a)) as E1. pose proof (E (a - 10)) as E2.
  set (p := exp (- (15/10) * (10 - a))) in *. set (r := exp (- (15/10) * (a - 10))) in *. clearbody u v p r.
  apply (Rmult_le_reg_r (u + v)); [lra|].
  replace ((a * u + 10 * v) / (u + v) * (u + v)) with (a * u + 10 * v) by (field; lra).
  unfold Rmin. destruct (Rle_dec a 10).
  - assert ((10 - a) * v <= 1/3 * u). { rewrite Q1. replace ((10 - a) * (u * p)) with (u * ((10 - a) * p)) by ring. nra. } nra.
  - assert ((a - 10) * u <= 1/3 * v). { rewrite Q2. replace ((a - 10) * (v * r)) with (v * ((a - 10) * r)) by ring. nra. } nra.
Qed.

Lemma cop_a_pos Tc Th eff : 0 < Tc -> 0 < eff -> Th <> Tc -> 0 < cop_a Tc Th eff.
Proof.
  intros HT He Hd. unfold cop_a. cbv zeta. set (d := Th - Tc). assert (d <> 0) by (unfold d; lra).
  replace (Tc / d * tanh d * eff) with (Tc * eff * (tanh d / d)) by (field; auto).
  pose proof (tanh_div_pos d H). pose proof (tanh_gtm1 (- (d + 3))).
  assert (0 < Tc * eff) by nra. assert (0 < Tc * eff * (tanh d / d)) by nra. lra.
Qed.

Lemma cop_bounds Tc Th eff : 0 < Tc -> 0 < eff -> Th <> Tc ->
  0 < soft10 (cop_a Tc Th eff) < 11.
Proof.
  intros HT He Hd. pose proof (cop_a_pos Tc Th eff HT He Hd) as Ha.
  pose proof (soft10_between (cop_a Tc Th eff)) as [B _]. pose proof (soft10_excess (cop_a Tc Th eff)) as X.
  set (a := cop_a Tc Th eff) in *. clearbody a. unfold Rmin in *. destruct (Rle_dec a 10); lra.
Qed.

Lemma cop_ceiling Tc Th eff : 0 < Tc -> 0 < eff -> Th <= Tc - 6 -> 98/10 < soft10 (cop_a Tc Th eff) < 104/10.
Proof.
  intros HT He HH. pose proof (soft10_between (cop_a Tc Th eff)) as [B _]. pose proof (soft10_excess (cop_a Tc Th eff)) as X.
  assert (A : 98/10 < cop_a Tc Th eff).
  { unfold cop_a. cbv zeta. set (d := Th - Tc). assert (d <= -6) by (unfold d; lra).
    replace (Tc / d * tanh d * eff) with (Tc * eff * (tanh d / d)) by (field; lra).
    pose proof (tanh_div_pos d ltac:(lra)). assert (0 < Tc * eff) by nra. assert (0 < Tc * eff * (tanh d / d)) by nra.
    assert (98/10 < (1 + tanh (- (d + 3))) / 2 * 10); [|lra].
    rewrite tanh_alt.
    assert (E3 : 64 <= exp (2 * - (d + 3))).
    { apply Rle_trans with (exp 6).
      - replace 6 with (1 + 1 + 1 + 1 + 1 + 1) by ring. rewrite !exp_plus. pose proof (exp_ineq1_le 1).
        set (z := exp 1) in *. assert (2 <= z) by lra. clearbody z.
        assert (4 <= z * z) by nra. assert (8 <= z * z * z) by nra. assert (16 <= z * z * z * z) by nra.
        assert (32 <= z * z * z * z * z) by nra. nra.
      - destruct (Rle_lt_or_eq_dec 6 (2 * - (d + 3)) ltac:(lra)) as [L|L]; [apply Rlt_le, exp_increasing, L|rewrite L; lra]. }
    set (w := exp _) in *. clearbody w.
    replace ((1 + (1 - 2 / (w + 1))) / 2 * 10) with (10 - 10 / (w + 1)) by (field; lra).
    assert (10 / (w + 1) < 2/10); [|lra].
    apply (Rmult_lt_reg_r (w + 1)); [lra|]. unfold Rdiv. rewrite Rmult_assoc, Rinv_l by lra. nra. }
  set (a := cop_a Tc Th eff) in *. clearbody a. unfold Rmin in *. destruct (Rle_dec a 10); lra.
Qed.

Lemma cop_carnot Tc Th eff : 0 < Tc -> 0 <= eff <= 1/2 -> Tc < Th <= 2 * Tc ->
  soft10 (cop_a Tc Th eff) <= Tc / (Th - Tc).
Proof.
  intros HT He [H1 H2]. set (K := Tc / (Th - Tc)).
  assert (HK : 1 <= K). { unfold K. apply (Rmult_le_reg_r (Th - Tc)); [lra|]. unfold Rdiv. rewrite Rmult_assoc, Rinv_l; lra. }
  pose proof (soft10_excess (cop_a Tc Th eff)) as X.
  assert (A : cop_a Tc Th eff <= K / 2 + 10/64).
  { unfold cop_a. cbv zeta. fold K. set (d := Th - Tc) in *. assert (Hd : 0 < d) by (unfold d; lra).
    pose proof (tanh_lt1 d). pose proof (tanh_pos d Hd).
    assert (K * tanh d * eff <= K / 2). { assert (tanh d * eff <= 1/2) by nra. nra. }
    assert ((1 + tanh (- (d + 3))) / 2 * 10 <= 10 / 64).
    { rewrite tanh_alt.
      assert (E3 : exp (2 * - (d + 3)) <= 1 / 64).
      { apply Rle_trans with (exp (- (6))).
        - apply Rlt_le, exp_increasing. lra.
        - rewrite exp_Ropp. assert (64 <= exp 6).
          { replace 6 with (1 + 1 + 1 + 1 + 1 + 1) by ring. rewrite !exp_plus. pose proof (exp_ineq1_le 1).
            set (z := exp 1) in *. assert (2 <= z) by lra. clearbody z.
            assert (4 <= z * z) by nra. assert (8 <= z * z * z) by nra. assert (16 <= z * z * z * z) by nra.
            assert (32 <= z * z * z * z * z) by nra. nra. }
          replace (1/64) with (/ 64) by lra. apply Rinv_le_contravar; lra. }
      pose proof (exp_pos (2 * - (d + 3))). set (w := exp _) in *. clearbody w.
      replace ((1 + (1 - 2 / (w + 1))) / 2 * 10) with (10 * w / (w + 1)) by (field; lra).
      apply (Rmult_le_reg_r (w + 1)); [lra|]. unfold Rdiv. rewrite Rmult_assoc, Rinv_l by lra. nra. }
    lra. }
  set (a := cop_a Tc Th eff) in *. clearbody a. unfold Rmin in X. destruct (Rle_dec a 10); lra.
Qed.

Lemma cop_jac n E : (0 < n)%nat -> (forall i, (i < n)%nat -> E "T_h" i <> E "T_c" i) -> jac_correct n COPExplicit E.
Proof.
  intros Hn Hd. apply cs_jac; [assumption|]. intros i o ko f Hi Ho x kx Hx. cbv zeta.
  set (ins := [("T_c", Vec); _; _]) in *. set (C := {| pc_ins := ins |}). specialize (Hd i Hi).
  change (E "T_h" i) with (node C E i "T_h") in *. change (E "T_c" i) with (node C E i "T_c") in *.
  clearbody C. unfold ins in Hx. clear ins. generalize dependent (node C E i). intros e He.
  apply assoc_In in Ho. apply assoc_In in Hx. cbn [In] in Ho, Hx.
  assert (S : forall a, ex_derive soft10 a).
  { intro a. unfold soft10. auto_derive. pose proof (exp_pos (- (15/10) * a)). pose proof (exp_pos (- (15/10) * 10)).
    repeat split; auto; lra. }
  assert (T : forall a, ex_derive tanh a).
  { intro a. apply (ex_derive_ext (fun x => 1 - 2 / (exp (2 * x) + 1))); [intro; symmetry; apply tanh_alt|].
    auto_derive. pose proof (exp_pos (2 * a)). repeat split; auto; lra. }
  assert (N : e "T_h" - e "T_c" <> 0) by lra.
  each_in Ho. each_in Hx; unfold upd; cbn [String.eqb Ascii.eqb Bool.eqb].
  all: apply (ex_derive_comp soft10); [apply S|]; unfold cop_a; cbv zeta.
  - auto_derive. repeat split; auto.
  - auto_derive. repeat split; auto.
  - auto_derive. auto.
Qed.

(** ** Hose *)
Lemma hose_dp_alt d L mu m rho : 0 < d -> 0 < mu -> 0 < m -> 0 < rho ->
  hose_dp d L mu m rho = 3164/10000 * Rpower (4 * m / (PI * d * mu)) (- (1) / 4) * (8 * m ^ 2 * L / (PI ^ 2 * rho * d ^ 5)).
Proof.
  intros. unfold hose_dp. pose proof PI_RGT_0.
  replace (rho * (m / rho / (PI * (d / 2) ^ 2)) * d / mu) with (4 * m / (PI * d * mu)) by (field; repeat split; lra).
  field. repeat split; lra.
Qed.

Lemma hose_jac n E sigma rh : (0 < n)%nat -> sigma <> 0 -> 0 < E "hose_diameter" 0%nat -> 0 < E "mu_coolant" 0%nat ->
  (forall i, (i < n)%nat -> 0 < E "rho_coolant" i /\ 0 < E "mdot_coolant" i) -> jac_correct n (SimpleHose sigma rh) E.
Proof.
  intros Hn Hs Hd Hmu Hv. apply jac_correct_lift; [assumption|]. intros i Hi. specialize (Hv i Hi). destruct Hv as [Hr Hm].
  change (E "hose_diameter" 0%nat) with (node (SimpleHose sigma rh) E i "hose_diameter") in *.
  change (E "mu_coolant" 0%nat) with (node (SimpleHose sigma rh) E i "mu_coolant") in *.
  change (E "rho_coolant" i) with (node (SimpleHose sigma rh) E i "rho_coolant") in *.
  change (E "mdot_coolant" i) with (node (SimpleHose sigma rh) E i "mdot_coolant") in *.
  generalize dependent (node (SimpleHose sigma rh) E i). intros e Hd Hmu Hr Hm.
  pose proof PI_RGT_0 as HPI.
  assert (X : 0 < e "hose_diameter" * / 2 * (e "hose_diameter" * / 2 * 1)) by nra.
  assert (A1 : 0 < PI * (e "hose_diameter" * / 2 * (e "hose_diameter" * / 2 * 1))) by nra.
  assert (A2 : 0 < e "mdot_coolant" * / e "rho_coolant" * / (PI * (e "hose_diameter" * / 2 * (e "hose_diameter" * / 2 * 1)))).
  { repeat apply Rmult_lt_0_compat; try apply Rinv_0_lt_compat; auto; nra. }
  assert (A3 : 0 < e "rho_coolant" * (e "mdot_coolant" * / e "rho_coolant" * / (PI * (e "hose_diameter" * / 2 * (e "hose_diameter" * / 2 * 1)))) * e "hose_diameter" * / e "mu_coolant").
  { apply Rmult_lt_0_compat; [|now apply Rinv_0_lt_compat]. apply Rmult_lt_0_compat; auto. apply Rmult_lt_0_compat; auto. }
  assert (D : forall x, In x ["hose_diameter"; "hose_length"; "mdot_coolant"; "rho_coolant"; "mu_coolant"] ->
    ex_derive (fun t => hose_dp (upd e x t "hose_diameter") (upd e x t "hose_length") (upd e x t "mu_coolant") (upd e x t "mdot_coolant") (upd e x t "rho_coolant")) (e x)).
  { intros x Hx. unfold hose_dp, Rpower. cbn [In] in Hx.
    repeat (destruct Hx as [<-|Hx]; [unfold upd; cbn [String.eqb Ascii.eqb Bool.eqb]; auto_derive; repeat split; auto; lra|]). contradiction. }
  unfold node_jac_ok, SimpleHose. cbn [pc_outs pc_ins].
  apply Forall_cons; [|apply Forall_cons; [|apply Forall_nil]].
  - repeat (apply Forall_cons; [|]); try apply Forall_nil; unfold nval, njac; cbn [assoc assoc2 pc_outs pc_J fst snd String.eqb Ascii.eqb Bool.eqb].
    + apply cs_ok. apply D. cbn. tauto.
    + apply cs_ok. apply D. cbn. tauto.
    + unfold upd; cbn [String.eqb Ascii.eqb Bool.eqb]. auto_derive; auto.
    + apply cs_ok. apply D. cbn. tauto.
    + apply cs_ok. apply D. cbn. tauto.
    + apply cs_ok. apply D. cbn. tauto.
  - repeat (apply Forall_cons; [|]); try apply Forall_nil; unfold nval, njac, upd; names; auto_derive; auto; field; auto.
Qed.

(** ** Integrators inside groups *)
Lemma integ_energy m X dt q0 rate : (0 < m)%nat -> is_inverse (2 * m) simpson_a X ->
  integ_q_final (2 * m + 1) (method_tri Simpson (2 * m + 1) X) (TDuration (INR (2 * m) * dt)) false q0 rate
  = q0 + dt / 3 * rsum m (fun k => rate (2 * k)%nat + 4 * rate (2 * k + 1)%nat + rate (2 * k + 2)%nat).
Proof.
  intros Hm HX. rewrite <- (C01_simpson_final_is_composite_rule m X dt false q0 rate Hm HX).
  unfold integ_q_final.
  pose proof (C03_time_modes_interchangeable (2 * m + 1) (method_tri Simpson (2 * m + 1) X) dt 0 false q0 rate (2 * m + 1 - 1) ltac:(lia)) as [T _].
  replace (2 * m + 1 - 1)%nat with (2 * m)%nat in * by lia. exact T.
Qed.

Lemma simpson_scale m a (f g : nat -> R) : (forall i, (i < 2 * m + 1)%nat -> f i = a * g i) ->
  rsum m (fun k => f (2 * k)%nat + 4 * f (2 * k + 1)%nat + f (2 * k + 2)%nat)
  = a * rsum m (fun k => g (2 * k)%nat + 4 * g (2 * k + 1)%nat + g (2 * k + 2)%nat).
Proof.
  intro H. rewrite <- rsum_scal. apply rsum_ext. intros k Hk. rewrite !H by lia. ring.
Qed.

(** With zero rate the state stays at its start value. *)
Lemma integ_zero n X ts q0 rate i : method_size Simpson n -> is_inverse (n - 1) simpson_a X ->
  (i < n)%nat -> (forall j, (j < n)%nat -> rate j = 0) ->
  integ_q n (method_tri Simpson n X) (TDuration (INR (n - 1) * ts)) false q0 rate i = q0.
Proof.
  intros MS HX Hi Hr. assert (3 <= n)%nat by apply MS.
  pose proof (C03_time_modes_interchangeable n (method_tri Simpson n X) ts 0 false q0 rate i ltac:(lia)) as [T _].
  rewrite T. rewrite (C01_simpson_quadratic_exact n X 0 0 0 0 ts false q0 rate MS HX); auto.
  - rewrite (RInt_ext _ (fun _ => 0)). 2:{ intros x _. change (poly3 0 0 0 0 x = 0). unfold poly3. ring. }
    rewrite RInt_const. cbv iota. match goal with |- ?a = ?b => change (q0 + (0 + INR i * ts - 0) * 0 = q0) end. ring.
  - intros j Hj. rewrite Hr by auto. unfold poly3. ring.
Qed.
