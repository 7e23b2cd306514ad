(** Theorems about the heat exchanger (C51, C52). *)
From Coq Require Import Reals List Bool PeanoNat String Lra Lia.
From Verif Require Import Base Py Calc Model_Vectors Model_Net Proofs_Net Model_Thermal Proofs_Thermal Proofs_Cs
  Model_HX Spec_HX Proofs_HXJac Proofs_HX.
Import ListNotations.
Open Scope R_scope.
Open Scope string_scope.

Ltac outs C := unfold vcompute, nval; cbn [assoc C pc_outs String.eqb Ascii.eqb Bool.eqb];
  unfold node; cbn [assoc C pc_ins String.eqb Ascii.eqb Bool.eqb].

(** ** C51 *)
(** The group can be set up, and for all positive sizes, flows and fluid properties
    (any temperatures) it has a converged state; none of the built-in checks of the
    Reynolds number and film coefficient raises then. *)
Theorem C51_solvable nn V0 : hx_positive nn V0 -> setup (HXGroup nn) = Ok (HXGroup nn) /\
  exists V, solution (HXGroup nn) V /\ hx_positive nn V /\
    (forall x i, In x (app hx_scalars (app hx_flows ["T_in_cold"; "T_in_hot"])) -> V x i = V0 x i).
Proof.
  intro Hp. split; [reflexivity|]. destruct (hx_plain_exists nn V0) as [V [S A]]. exists V.
  assert (P : hx_positive nn V).
  { destruct Hp as [P1 P2]. split.
    - intros x Hx. rewrite A by (apply in_or_app; now left). auto.
    - intros x i Hx Hi. rewrite A by (apply in_or_app; right; apply in_or_app; now left). auto. }
  split; [now apply checked_of_plain|]. split; [exact P|exact A].
Qed.
Print Assumptions C51_solvable.

(** Effectiveness is between 0 and 1; the heat exchanged is that fraction of what
    the smaller heat capacity flow could take up over the inlet temperature
    difference; what the hot stream gives up the cold stream takes up. *)
Theorem C51_heat_balance nn V i : solution (HXGroup nn) V -> hx_positive nn V -> (i < nn)%nat ->
  let C_cold := V "mdot_cold" i * V "cp_cold" 0%nat in let C_hot := V "mdot_hot" i * V "cp_hot" 0%nat in
  0 < V "effectiveness" i < 1 /\
  V "heat_transfer" i = V "effectiveness" i * Rmin C_cold C_hot * (V "T_in_hot" i - V "T_in_cold" i) /\
  C_cold * (V "T_out_cold" i - V "T_in_cold" i) = V "heat_transfer" i /\
  C_hot * (V "T_in_hot" i - V "T_out_hot" i) = V "heat_transfer" i.
Proof.
  intros S Hp Hi. apply plain_of_checked in S. pose proof (plain_facts nn V i S Hp Hi) as F. destruct Hp as [P1 P2]. cbv zeta.
  assert (Q1 : 0 < V "mdot_cold" i) by (apply P2; auto; cbn; tauto). assert (Q2 : 0 < V "mdot_hot" i) by (apply P2; auto; cbn; tauto).
  assert (Q3 : 0 < V "cp_cold" 0%nat) by (apply P1; cbn; tauto). assert (Q4 : 0 < V "cp_hot" 0%nat) by (apply P1; cbn; tauto).
  eqn S "heat" NTUEffectivenessActualHeatTransfer "heat_transfer" i Hi as B1. eqn S "ntu" NTUMethod "heat_max" i Hi as B2.
  eqn S "t_out" OutletTemperatures "T_out_cold" i Hi as B3. eqn S "t_out" OutletTemperatures "T_out_hot" i Hi as B4.
  split; [exact (F_eff _ _ _ F)|]. split; [|split; [rewrite B3|rewrite B4]; field; lra].
  rewrite B1, B2. unfold Rmin. destruct Rlt_dec, Rle_dec; try lra.
  replace (V "mdot_cold" i * V "cp_cold" 0%nat) with (V "mdot_hot" i * V "cp_hot" 0%nat) by lra. ring.
Qed.
Print Assumptions C51_heat_balance.

(** Second law: heat flows from the hotter to the colder stream and both outlets
    stay strictly between the inlets, whichever stream is the hotter one. *)
Definition between (a b x : R) : Prop := (a < b -> a < x < b) /\ (b < a -> b < x < a) /\ (a = b -> x = a).
Theorem C51_second_law nn V i : solution (HXGroup nn) V -> hx_positive nn V -> (i < nn)%nat ->
  between (V "T_in_cold" i) (V "T_in_hot" i) (V "T_out_cold" i) /\
  between (V "T_in_cold" i) (V "T_in_hot" i) (V "T_out_hot" i) /\
  (V "T_in_cold" i < V "T_in_hot" i <-> 0 < V "heat_transfer" i) /\
  (V "T_in_hot" i < V "T_in_cold" i <-> V "heat_transfer" i < 0).
Proof.
  intros S Hp Hi. destruct (C51_heat_balance nn V i S Hp Hi) as [E [H1 [H2 H3]]]. cbv zeta in *. destruct Hp as [P1 P2].
  assert (Q1 : 0 < V "mdot_cold" i) by (apply P2; auto; cbn; tauto). assert (Q2 : 0 < V "mdot_hot" i) by (apply P2; auto; cbn; tauto).
  assert (Q3 : 0 < V "cp_cold" 0%nat) by (apply P1; cbn; tauto). assert (Q4 : 0 < V "cp_hot" 0%nat) by (apply P1; cbn; tauto).
  assert (X1 : 0 < V "mdot_cold" i * V "cp_cold" 0%nat) by posi. assert (X2 : 0 < V "mdot_hot" i * V "cp_hot" 0%nat) by posi.
  set (Cc := V "mdot_cold" i * V "cp_cold" 0%nat) in *. set (Ch := V "mdot_hot" i * V "cp_hot" 0%nat) in *.
  set (q := V "heat_transfer" i) in *. set (Tc := V "T_in_cold" i) in *. set (Th := V "T_in_hot" i) in *.
  set (a := V "effectiveness" i) in *. clearbody Cc Ch q Tc Th a.
  assert (M1 := Rmin_l Cc Ch). assert (M2 := Rmin_r Cc Ch). assert (M3 : 0 < Rmin Cc Ch) by (now apply Rmin_glb_lt).
  set (m := Rmin Cc Ch) in *. clearbody m. assert (W : 0 < a * m < m) by nra. assert (W1 : a * m < Cc) by lra. assert (W2 : a * m < Ch) by lra.
  set (w := a * m) in *. clearbody w. clear M1 M2 M3 E. 
  assert (Y1 : V "T_out_cold" i - Tc = w / Cc * (Th - Tc)) by (apply (Rmult_eq_reg_l Cc); [|lra]; rewrite H2, H1; field; lra).
  assert (Y2 : Th - V "T_out_hot" i = w / Ch * (Th - Tc)) by (apply (Rmult_eq_reg_l Ch); [|lra]; rewrite H3, H1; field; lra).
  assert (Z1 : 0 < w / Cc < 1). { split; [posi; lra|]. apply (Rmult_lt_reg_r Cc); auto. unfold Rdiv. rewrite Rmult_assoc, Rinv_l by lra. lra. }
  assert (Z2 : 0 < w / Ch < 1). { split; [posi; lra|]. apply (Rmult_lt_reg_r Ch); auto. unfold Rdiv. rewrite Rmult_assoc, Rinv_l by lra. lra. }
  set (x := w / Cc) in *. set (y := w / Ch) in *. clearbody x y. unfold between. rewrite H1.
  repeat split; intros; try nra.
Qed.
Print Assumptions C51_second_law.

(** The effectiveness depends on the number of transfer units and the ratio of heat
    capacity flows: it grows with the former, falls with the latter and stays below
    the limit 1 - exp (-NTU) for a stream of unlimited capacity. *)
Theorem C51_effectiveness E i : 0 < E "NTU" i -> 0 < E "C_ratio" i ->
  let eff E := vcompute CrossFlowNTUEffectiveness E "effectiveness" i in
  0 < eff E < 1 /\ eff E < 1 - exp (- E "NTU" i) /\
  (forall t, E "NTU" i < t -> eff E < eff (updE E "NTU" i t)) /\
  (forall t, E "C_ratio" i < t -> eff (updE E "C_ratio" i t) < eff E).
Proof.
  intros HN HC. cbv zeta. outs CrossFlowNTUEffectiveness. unfold updE. cbn [String.eqb Ascii.eqb Bool.eqb]. rewrite Nat.eqb_refl.
  split; [now apply eff_bounds|]. split.
  - rewrite eff_cross_g by lra. assert (K := cross_g_lt _ _ HN HC).
    assert (exp (- E "NTU" i) < exp (- cross_g (E "NTU" i) (E "C_ratio" i))) by (apply exp_increasing; lra). lra.
  - split; intros t Ht; rewrite !eff_cross_g by lra.
    + assert (K := cross_g_N _ t _ HN Ht HC).
      assert (exp (- cross_g t (E "C_ratio" i)) < exp (- cross_g (E "NTU" i) (E "C_ratio" i))) by (apply exp_increasing; lra). lra.
    + assert (K := cross_g_C _ _ t HN HC Ht).
      assert (exp (- cross_g (E "NTU" i) (E "C_ratio" i)) < exp (- cross_g (E "NTU" i) t)) by (apply exp_increasing; lra). lra.
Qed.
Print Assumptions C51_effectiveness.

(** How the number of transfer units comes about: film coefficients from the Colburn
    factor j, h = j Re Pr^(1/3) k / dh with Pr = mu cp / k; two resistances in series,
    each 1 / (h A eta); NTU = UA / C_min and C_ratio = C_min / C_max. *)
Theorem C51_conductance nn V i : solution (HXGroup nn) V -> hx_positive nn V -> (i < nn)%nat ->
  let Pr mu cp k := V mu 0%nat * V cp 0%nat / V k 0%nat in
  let film s j Re mu cp k dh := V s i = V j i * V Re i * Rpower (Pr mu cp k) (1/3) * V k 0%nat / V dh 0%nat in
  let C_cold := V "mdot_cold" i * V "cp_cold" 0%nat in let C_hot := V "mdot_hot" i * V "cp_hot" 0%nat in
  film "h_conv_cold" "j_cold" "Re_dh_cold" "mu_cold" "cp_cold" "k_cold" "dh_cold" /\
  film "h_conv_hot" "j_hot" "Re_dh_hot" "mu_hot" "cp_hot" "k_hot" "dh_hot" /\
  V "Re_dh_cold" i = V "mdot_cold" i / V "xs_area_cold" 0%nat * V "dh_cold" 0%nat / V "mu_cold" 0%nat /\
  V "Re_dh_hot" i = V "mdot_hot" i / V "xs_area_hot" 0%nat * V "dh_hot" 0%nat / V "mu_hot" 0%nat /\
  0 < V "eta_overall_cold" i < 1 /\ 0 < V "eta_overall_hot" i < 1 /\
  / V "UA_overall" i = / (V "h_conv_cold" i * V "heat_transfer_area_cold" 0%nat * V "eta_overall_cold" i)
                     + / (V "h_conv_hot" i * V "heat_transfer_area_hot" 0%nat * V "eta_overall_hot" i) /\
  V "NTU" i = V "UA_overall" i / Rmin C_cold C_hot /\ V "C_ratio" i = Rmin C_cold C_hot / Rmax C_cold C_hot.
Proof.
  intros S Hp Hi. apply plain_of_checked in S. pose proof (plain_facts nn V i S Hp Hi) as F.
  assert (O := osf_positive nn V S Hp). destruct Hp as [P1 P2]. cbv zeta.
  assert (Q : forall x, In x hx_scalars -> 0 < V x 0%nat) by exact P1. unfold hx_scalars in Q. cbn [In] in Q. cbn [osf_outs map fst In] in O.
  assert (Q1 := Q "mu_cold" ltac:(tauto)). assert (Q2 := Q "mu_hot" ltac:(tauto)). assert (Q3 := Q "k_cold" ltac:(tauto)).
  assert (Q4 := Q "k_hot" ltac:(tauto)). assert (Q5 := Q "cp_cold" ltac:(tauto)). assert (Q6 := Q "cp_hot" ltac:(tauto)).
  assert (O1 := O "dh_cold" ltac:(tauto)). assert (O2 := O "dh_hot" ltac:(tauto)).
  assert (O3 := O "xs_area_cold" ltac:(tauto)). assert (O4 := O "xs_area_hot" ltac:(tauto)).
  assert (O11 := O "heat_transfer_area_cold" ltac:(tauto)). assert (O12 := O "heat_transfer_area_hot" ltac:(tauto)). clear O Q.
  assert (R : forall m c k, 0 < m -> 0 < c -> 0 < k -> Rpower (m * c / k) (1/3) = Rpower m (1/3) * Rpower c (1/3) / Rpower k (1/3)).
  { intros m c k Hm Hc Hk. unfold Rdiv at 1. rewrite Rpower_mult_distr by posi. rewrite <- Rpower_mult_distr by posi.
    unfold Rdiv. f_equal. unfold Rpower. rewrite ln_Rinv by auto. rewrite <- exp_Ropp. f_equal. ring. }
  eqn S "convection" ConvectiveCoefficient "h_conv_cold" i Hi as B9. eqn S "convection" ConvectiveCoefficient "h_conv_hot" i Hi as B10.
  eqn S "nusselt" NusseltFromColburnJ "Nu_dh_cold" i Hi as B7. eqn S "nusselt" NusseltFromColburnJ "Nu_dh_hot" i Hi as B8.
  eqn S "redh" HydraulicDiameterReynoldsNumber "Re_dh_cold" i Hi as B1. eqn S "redh" HydraulicDiameterReynoldsNumber "Re_dh_hot" i Hi as B2.
  eqn S "ua" (UAOverall 0 0) "UA_overall" i Hi as B13. eqn S "ntu" NTUMethod "NTU" i Hi as B14. eqn S "ntu" NTUMethod "C_ratio" i Hi as B15.
  destruct F as [F1 F2 F3 F4 F5 F6 F7 F8 F9 F10 F11 F12 F13 F14 F15 F16].
  split; [rewrite R by auto; rewrite B9, B7; unfold Rdiv; ring|].
  split; [rewrite R by auto; rewrite B10, B8; unfold Rdiv; ring|].
  split; [rewrite B1; unfold Rdiv; ring|]. split; [rewrite B2; unfold Rdiv; ring|].
  split; [exact F11|]. split; [exact F12|].
  split. { rewrite B13. unfold Rdiv. rewrite !Rmult_0_l, !Rplus_0_r, !Rmult_1_l, Rinv_inv.
    rewrite !Rinv_mult. reflexivity. }
  rewrite B14, B15. unfold Rmin, Rmax. split; destruct Rlt_dec, Rle_dec; try lra.
  - replace (V "mdot_cold" i * V "cp_cold" 0%nat) with (V "mdot_hot" i * V "cp_hot" 0%nat) by lra. reflexivity.
  - replace (V "mdot_cold" i * V "cp_cold" 0%nat) with (V "mdot_hot" i * V "cp_hot" 0%nat) by lra. reflexivity.
Qed.
Print Assumptions C51_conductance.

(** Pressure only falls: with the flow velocity v = mdot / (rho area), the change is
    - rho v^2 / 2 (K + 4 f L / dh), with K = 0.3 - 0.1 for entry and exit. *)
Theorem C51_pressure_drop nn V i : solution (HXGroup nn) V -> hx_positive nn V -> (i < nn)%nat ->
  let drop dp rho mdot area f L dh :=
    let v := V mdot i / (V rho i * V area 0%nat) in
    V dp i = - (1/2 * V rho i * v ^ 2 * (2/10 + 4 * V f i * V L 0%nat / V dh 0%nat)) /\ V dp i < 0 in
  drop "delta_p_cold" "rho_cold" "mdot_cold" "xs_area_cold" "f_cold" "length_overall" "dh_cold" /\
  drop "delta_p_hot" "rho_hot" "mdot_hot" "xs_area_hot" "f_hot" "width_overall" "dh_hot".
Proof.
  intros S Hp Hi. apply plain_of_checked in S. pose proof (plain_facts nn V i S Hp Hi) as F.
  assert (O := osf_positive nn V S Hp). destruct Hp as [P1 P2]. cbv zeta. cbn [osf_outs map fst In] in O.
  assert (O1 := O "dh_cold" ltac:(tauto)). assert (O2 := O "dh_hot" ltac:(tauto)).
  assert (O3 := O "xs_area_cold" ltac:(tauto)). assert (O4 := O "xs_area_hot" ltac:(tauto)).
  assert (O5 := O "length_overall" ltac:(tauto)). assert (O6 := O "width_overall" ltac:(tauto)). clear O.
  assert (Q1 : 0 < V "mdot_cold" i) by (apply P2; auto; cbn; tauto). assert (Q2 : 0 < V "mdot_hot" i) by (apply P2; auto; cbn; tauto).
  assert (Q3 : 0 < V "rho_cold" i) by (apply P2; auto; cbn; tauto). assert (Q4 : 0 < V "rho_hot" i) by (apply P2; auto; cbn; tauto).
  assert (F5 := F_f_c _ _ _ F). assert (F6 := F_f_h _ _ _ F).
  eqn S "delta_p" (PressureDrop (3/10) (-1/10) (3/10) (-1/10)) "delta_p_cold" i Hi as B1.
  eqn S "delta_p" (PressureDrop (3/10) (-1/10) (3/10) (-1/10)) "delta_p_hot" i Hi as B2.
  assert (G : forall dp r m A f L d, 0 < r -> 0 < m -> 0 < A -> 0 < f -> 0 < L -> 0 < d ->
     dp = 1 / 2 * (m / A) ^ 2 / r * (- (-1/10) - 3/10 - 4 * L * f / d) ->
     dp = - (1/2 * r * (m / (r * A)) ^ 2 * (2/10 + 4 * f * L / d)) /\ dp < 0).
  { intros dp r m A f L d Hr Hm HA Hf HL Hd ->.
    assert (E : 1 / 2 * (m / A) ^ 2 / r * (- (-1/10) - 3/10 - 4 * L * f / d) = - (1/2 * r * (m / (r * A)) ^ 2 * (2/10 + 4 * f * L / d))) by (field; lra).
    split; [exact E|]. rewrite E. assert (0 < 1/2 * r * (m / (r * A)) ^ 2 * (2/10 + 4 * f * L / d)) by posi. lra. }
  split; apply G; assumption.
Qed.
Print Assumptions C51_pressure_drop.

(** Size and weight: the core is a box whose volume is made up of the metal of plates
    and fins and the passages of the two fluids; the case wraps the box lengthwise. *)
Theorem C51_geometry nn V : solution (HXGroup nn) V -> hx_positive nn V ->
  let v x := V x 0%nat in
  v "frontal_area" = v "width_overall" * v "height_overall" /\
  v "xs_area_cold" = v "contraction_ratio_cold" * v "frontal_area" /\
  v "xs_area_hot" = v "contraction_ratio_hot" * (v "length_overall" * v "height_overall") /\
  0 < v "contraction_ratio_cold" < 1 /\ 0 < v "contraction_ratio_hot" < 1 /\
  v "component_weight" / v "material_rho" =
    v "length_overall" * v "width_overall" * v "height_overall"
    - v "xs_area_cold" * v "length_overall" - v "xs_area_hot" * v "width_overall"
    + v "case_thickness" * v "length_overall" * (2 * (v "height_overall" + v "width_overall")) /\
  0 < v "component_weight" /\
  v "width_overall" = v "ac|propulsion|thermal|hx|n_wide_cold" * (v "channel_width_cold" + v "fin_thickness") /\
  v "length_overall" = v "ac|propulsion|thermal|hx|n_long_cold" * v "fin_length_cold" /\
  v "height_overall" = v "ac|propulsion|thermal|hx|n_tall" *
    ((v "channel_height_cold" + v "fin_thickness") + (v "channel_height_hot" + v "fin_thickness") + 2 * v "plate_thickness").
Proof.
  intros S Hp. apply plain_of_checked in S. cbv zeta. assert (PO := osf_positive nn V S Hp).
  assert (P := osf_ins_pos nn V S Hp). destruct (plain_counts nn V S 0%nat) as [C1 [C2 C3]]. rewrite <- C1, <- C2, <- C3.
  assert (PW := PO "component_weight" ltac:(cbn; tauto)). assert (PC := PO "contraction_ratio_cold" ltac:(cbn; tauto)).
  assert (PH := PO "contraction_ratio_hot" ltac:(cbn; tauto)). clear PO.
  assert (A : forall o k f, In (o, (k, f)) osf_outs -> V o 0%nat = f (fun x => V x 0%nat)) by (intros; eapply osf_value; eassumption).
  assert (E1 := A "frontal_area" Sca _ ltac:(unfold osf_outs; cbn [In]; tauto)). assert (E2 := A "width_overall" Sca _ ltac:(unfold osf_outs; cbn [In]; tauto)).
  assert (E3 := A "height_overall" Sca _ ltac:(unfold osf_outs; cbn [In]; tauto)). assert (E4 := A "length_overall" Sca _ ltac:(unfold osf_outs; cbn [In]; tauto)).
  assert (E5 := A "xs_area_cold" Sca _ ltac:(unfold osf_outs; cbn [In]; tauto)). assert (E6 := A "xs_area_hot" Sca _ ltac:(unfold osf_outs; cbn [In]; tauto)).
  assert (E7 := A "contraction_ratio_cold" Sca _ ltac:(unfold osf_outs; cbn [In]; tauto)). assert (E8 := A "contraction_ratio_hot" Sca _ ltac:(unfold osf_outs; cbn [In]; tauto)).
  assert (E9 := A "component_weight" Sca _ ltac:(unfold osf_outs; cbn [In]; tauto)). clear A. cbv beta in *.
  cbn [osf_ins map fst In] in P.
  assert (P1 := P "channel_width_hot" ltac:(tauto)). assert (P2 := P "channel_height_hot" ltac:(tauto)).
  assert (P3 := P "fin_length_hot" ltac:(tauto)). assert (P4 := P "channel_width_cold" ltac:(tauto)).
  assert (P5 := P "channel_height_cold" ltac:(tauto)). assert (P6 := P "fin_length_cold" ltac:(tauto)).
  assert (P7 := P "fin_thickness" ltac:(tauto)). assert (P8 := P "plate_thickness" ltac:(tauto)).
  assert (P9 := P "case_thickness" ltac:(tauto)). assert (P10 := P "n_wide_cold" ltac:(tauto)).
  assert (P11 := P "n_long_cold" ltac:(tauto)). assert (P12 := P "n_tall" ltac:(tauto)). assert (P13 := P "material_rho" ltac:(tauto)). clear P.
  set (wh := V "channel_width_hot" 0%nat) in *. set (hh := V "channel_height_hot" 0%nat) in *. set (lh := V "fin_length_hot" 0%nat) in *.
  set (wc := V "channel_width_cold" 0%nat) in *. set (hc := V "channel_height_cold" 0%nat) in *. set (lc := V "fin_length_cold" 0%nat) in *.
  set (tf := V "fin_thickness" 0%nat) in *. set (tp := V "plate_thickness" 0%nat) in *. set (tc := V "case_thickness" 0%nat) in *.
  set (nw := V "n_wide_cold" 0%nat) in *. set (nl := V "n_long_cold" 0%nat) in *. set (nt := V "n_tall" 0%nat) in *. set (rho := V "material_rho" 0%nat) in *.
  clearbody wh hh lh wc hc lc tf tp tc nw nl nt rho.
  split; [rewrite E1, E2, E3; ring|]. split; [rewrite E5, E7, E1; field; repeat split; posi|].
  split; [rewrite E6, E8, E4, E3; field; repeat split; posi|].
  split; [split; [exact PC|]|split; [split; [exact PH|]|]].
  - rewrite E7. apply (Rmult_lt_reg_r ((tf + wc) * nw * ((2 * (tf + tp) + hc + hh) * nt))); [posi|].
    replace (wc * hc * nw * nt / ((tf + wc) * nw * ((2 * (tf + tp) + hc + hh) * nt)) * ((tf + wc) * nw * ((2 * (tf + tp) + hc + hh) * nt)))
      with (wc * hc * (nw * nt)) by (field; repeat split; posi).
    replace (1 * ((tf + wc) * nw * ((2 * (tf + tp) + hc + hh) * nt))) with ((tf + wc) * (2 * (tf + tp) + hc + hh) * (nw * nt)) by ring.
    apply Rmult_lt_compat_r; [posi|]. apply Rmult_gt_0_lt_compat; lra.
  - rewrite E8. apply (Rmult_lt_reg_r ((2 * (tf + tp) + hc + hh) * nt * (lc * nl))); [posi|].
    replace (wh * hh * (lc * nl / (wh + tf)) * nt / ((2 * (tf + tp) + hc + hh) * nt) / (lc * nl) * ((2 * (tf + tp) + hc + hh) * nt * (lc * nl)))
      with (wh / (wh + tf) * hh * (lc * nl * nt)) by (field; repeat split; posi).
    replace (1 * ((2 * (tf + tp) + hc + hh) * nt * (lc * nl))) with (1 * (2 * (tf + tp) + hc + hh) * (lc * nl * nt)) by ring.
    apply Rmult_lt_compat_r; [posi|]. assert (wh / (wh + tf) < 1).
    { apply (Rmult_lt_reg_r (wh + tf)); [lra|]. unfold Rdiv. rewrite Rmult_assoc, Rinv_l by lra. lra. }
    assert (0 < wh / (wh + tf)) by posi. apply Rmult_gt_0_lt_compat; lra.
  - split; [rewrite E9, E5, E6, E2, E3, E4; field; repeat split; posi|]. split; [exact PW|].
    split; [rewrite E2; ring|]. split; [rewrite E4; ring|rewrite E3; ring].
Qed.
Print Assumptions C51_geometry.

(** The three checks raise AnalysisError exactly when a cold side value is not positive. *)
Theorem C51_rejects nn E :
  (osfdata_run nn E = Err AnalysisError <-> exists i, (i < nn)%nat /\ E "Re_dh_cold" i <= 0) /\
  (fin_run nn E = Err AnalysisError <-> exists i, (i < nn)%nat /\ E "h_conv_cold" i <= 0) /\
  (convection_run nn E = Err AnalysisError <->
     exists i, (i < nn)%nat /\ E "Nu_dh_cold" i * E "k_cold" 0%nat / E "dh_cold" 0%nat <= 0).
Proof.
  assert (N : forall v, nonpos nn v = true <-> exists i, (i < nn)%nat /\ v i <= 0).
  { intro v. unfold nonpos, anyb. rewrite existsb_exists. split; intros [i [H1 H2]]; exists i.
    - apply in_seq in H1. destruct Rle_dec; [split; [lia|auto]|discriminate].
    - rewrite in_seq. destruct Rle_dec; [split; [lia|auto]|contradiction]. }
  unfold osfdata_run, fin_run, convection_run. repeat match goal with |- _ /\ _ => split end.
  - rewrite <- (N (E "Re_dh_cold")). destruct nonpos; split; congruence.
  - rewrite <- (N (E "h_conv_cold")). destruct nonpos; split; congruence.
  - rewrite <- (N (fun i => E "Nu_dh_cold" i * E "k_cold" 0%nat / E "dh_cold" 0%nat)).
    change (vcompute ConvectiveCoefficient E "h_conv_cold") with (fun i => E "Nu_dh_cold" i * E "k_cold" 0%nat / E "dh_cold" 0%nat).
    destruct nonpos; split; congruence.
Qed.
Print Assumptions C51_rejects.

(** The partials of every component of a converged exchanger are exact, provided no
    node has equal heat capacity flows (where min and max have a kink). *)
Theorem C51_partials nn V : (0 < nn)%nat -> solution (HXGroup nn) V -> hx_positive nn V ->
  jac_correct nn OffsetStripFinGeometry V /\ jac_correct nn HydraulicDiameterReynoldsNumber V /\
  jac_correct nn OffsetStripFinData V /\ jac_correct nn NusseltFromColburnJ V /\ jac_correct nn ConvectiveCoefficient V /\
  jac_correct nn FinEfficiency V /\ jac_correct nn (UAOverall 0 0) V /\ jac_correct nn CrossFlowNTUEffectiveness V /\
  jac_correct nn NTUEffectivenessActualHeatTransfer V /\ jac_correct nn OutletTemperatures V /\
  jac_correct nn (PressureDrop (3/10) (-1/10) (3/10) (-1/10)) V /\
  ((forall i, (i < nn)%nat -> V "mdot_cold" i * V "cp_cold" 0%nat <> V "mdot_hot" i * V "cp_hot" 0%nat) -> jac_correct nn NTUMethod V).
Proof.
  intros Hn S Hp. apply plain_of_checked in S. assert (O := osf_positive nn V S Hp). assert (I := osf_ins_pos nn V S Hp).
  assert (F := fun i Hi => plain_facts nn V i S Hp Hi). destruct Hp as [Q W].
  assert (Q' : forall x, In x hx_scalars -> V x 0%nat <> 0) by (intros x Hx; apply Q in Hx; lra).
  assert (O' : forall x, In x (map fst osf_outs) -> V x 0%nat <> 0) by (intros x Hx; apply O in Hx; lra).
  assert (W' : forall x i, In x hx_flows -> (i < nn)%nat -> V x i <> 0) by (intros x i Hx Hi; pose proof (W x i Hx Hi); lra).
  assert (X1 : forall i, (i < nn)%nat -> 0 < V "mdot_cold" i * V "cp_cold" 0%nat).
  { intros i Hi. apply Rmult_lt_0_compat; [apply W; cbn; tauto|apply Q; cbn; tauto]. }
  assert (X2 : forall i, (i < nn)%nat -> 0 < V "mdot_hot" i * V "cp_hot" 0%nat).
  { intros i Hi. apply Rmult_lt_0_compat; [apply W; cbn; tauto|apply Q; cbn; tauto]. }
  split; [apply osf_jac; assumption|].
  split; [apply reynolds_jac; [assumption|apply O'; cbn; tauto|apply Q'; cbn; tauto|apply O'; cbn; tauto|apply Q'; cbn; tauto]|].
  split. { apply osfdata_jac; [assumption|intros i Hi; apply (F i Hi)|intros i Hi; apply (F i Hi)|..]; apply O; cbn; tauto. }
  split; [apply nusselt_jac; [assumption|..]; apply Q; cbn; tauto|].
  split; [apply convection_jac; [assumption|..]; apply O'; cbn; tauto|].
  split. { apply fin_jac; [assumption|apply Q; cbn; tauto|apply Q; cbn; tauto|apply Q; cbn; tauto|apply Q; cbn; tauto|intros i Hi; apply (F i Hi)|intros i Hi; apply (F i Hi)]. }
  split. { apply ua_jac; [assumption|apply O; cbn; tauto|apply O; cbn; tauto|..]; intros i Hi; apply (F i Hi). }
  split. { apply cross_jac; [assumption|intros i Hi; apply (F i Hi)|intros i Hi]. pose proof (F_Cr _ _ _ (F i Hi)). lra. }
  split; [now apply heat_jac|].
  split; [apply outlet_jac; [assumption|apply Q'; cbn; tauto|apply Q'; cbn; tauto|..]; intros; apply W'; auto; cbn; tauto|].
  split; [apply drop_jac; [assumption|apply O'; cbn; tauto|apply O'; cbn; tauto|apply O'; cbn; tauto|apply O'; cbn; tauto|..]; intros; apply W'; auto; cbn; tauto|].
  intro NE. apply ntu_jac; assumption.
Qed.
Print Assumptions C51_partials.

(** A concrete exchanger with two analysis points. *)
Definition hx_example : env := fun x i =>
  if mem x ["channel_width_hot"; "channel_height_hot"; "channel_width_cold"; "channel_height_cold"] then 14/1000
  else if mem x ["fin_length_hot"; "fin_length_cold"] then 6/1000
  else if mem x ["fin_thickness"; "plate_thickness"] then 1/10000
  else if String.eqb x "T_in_cold" then 300 else if String.eqb x "T_in_hot" then 340
  else if String.eqb x "mdot_hot" then 1/10 else if String.eqb x "mdot_cold" then 3/2 + INR i
  else if mem x ["mu_cold"; "mu_hot"] then 2/100000 else 5.
Example C51_met : hx_positive 2 hx_example /\ hx_example "T_in_cold" 1%nat < hx_example "T_in_hot" 1%nat /\
  (forall i, (i < 2)%nat -> hx_example "mdot_cold" i * hx_example "cp_cold" 0%nat <> hx_example "mdot_hot" i * hx_example "cp_hot" 0%nat).
Proof.
  split; [split|split].
  - intros x Hx. unfold hx_scalars in Hx. cbn [In] in Hx. repeat (destruct Hx as [<-|Hx]; [cbn; lra|]). contradiction.
  - intros x i Hx Hi. unfold hx_flows in Hx. cbn [In] in Hx. assert (0 <= INR i) by apply pos_INR.
    repeat (destruct Hx as [<-|Hx]; [cbn; lra|]). contradiction.
  - cbn. lra.
  - intros i Hi. assert (0 <= INR i) by apply pos_INR. cbn. lra.
Qed.

(** ** C52 *)
(** Four resistances in series, each fouling factor counted once on its own side. *)
Definition ua_series (foul_cold foul_hot : R) (E : env) (i : nat) (UA : R) : Prop :=
  let An s := E (String.append "heat_transfer_area_" s) 0%nat * E (String.append "eta_overall_" s) i in
  / UA = / (E "h_conv_cold" i * An "cold") + foul_cold / An "cold" + / (E "h_conv_hot" i * An "hot") + foul_hot / An "hot".
Definition ua_inputs : list string :=
  ["h_conv_cold"; "heat_transfer_area_cold"; "eta_overall_cold"; "h_conv_hot"; "heat_transfer_area_hot"; "eta_overall_hot"].

(** What the code does instead: it counts the hot side's fouling twice and ignores
    the cold side's; so the series law holds exactly when the two fouling
    resistances happen to be equal, in particular without fouling. *)
Theorem C52_series_partial fc fh E i : E "heat_transfer_area_cold" 0%nat <> 0 -> E "eta_overall_cold" i <> 0 ->
  E "heat_transfer_area_hot" 0%nat <> 0 -> E "eta_overall_hot" i <> 0 ->
  (ua_series fc fh E i (vcompute (UAOverall fc fh) E "UA_overall" i) <->
   fc / (E "heat_transfer_area_cold" 0%nat * E "eta_overall_cold" i) = fh / (E "heat_transfer_area_hot" 0%nat * E "eta_overall_hot" i)).
Proof.
  intros H1 H2 H3 H4. unfold ua_series. outs UAOverall. cbn [String.append]. unfold Rdiv. rewrite !Rmult_1_l, Rinv_inv, !Rinv_mult.
  set (a := / E "h_conv_cold" i). set (b := / E "heat_transfer_area_cold" 0%nat). set (c := / E "eta_overall_cold" i).
  set (a' := / E "h_conv_hot" i). set (b' := / E "heat_transfer_area_hot" 0%nat). set (c' := / E "eta_overall_hot" i).
  clearbody a b c a' b' c'. split; intro H; lra.
Qed.
Print Assumptions C52_series_partial.

Theorem C52_no_fouling E i : E "heat_transfer_area_cold" 0%nat <> 0 -> E "eta_overall_cold" i <> 0 ->
  E "heat_transfer_area_hot" 0%nat <> 0 -> E "eta_overall_hot" i <> 0 ->
  ua_series 0 0 E i (vcompute (UAOverall 0 0) E "UA_overall" i).
Proof. intros. apply C52_series_partial; auto. unfold Rdiv. rewrite !Rmult_0_l. reflexivity. Qed.
Print Assumptions C52_no_fouling.

Theorem C52_cold_fouling_ignored fc fc' fh E i :
  vcompute (UAOverall fc fh) E "UA_overall" i = vcompute (UAOverall fc' fh) E "UA_overall" i.
Proof. outs UAOverall. reflexivity. Qed.
Print Assumptions C52_cold_fouling_ignored.

Theorem C52_series_refuted : exists fc fh E, 0 < fc /\ 0 < fh /\ (forall x i, In x ua_inputs -> 0 < E x i) /\
  ~ ua_series fc fh E 0%nat (vcompute (UAOverall fc fh) E "UA_overall" 0%nat).
Proof.
  exists 1, 2, (fun _ _ => 1). repeat split; try lra; [intros; lra|].
  intro H. apply C52_series_partial in H; try lra.
Qed.
Print Assumptions C52_series_refuted.

Theorem C52_partials_no_fouling n E : (0 < n)%nat -> (forall x i, In x ua_inputs -> (i < n)%nat -> 0 < E x i) -> jac_correct n (UAOverall 0 0) E.
Proof.
  intros Hn H. apply ua_jac; [assumption|apply H; [cbn; tauto|assumption]|apply H; [cbn; tauto|assumption]|..];
    intros i Hi; apply H; auto; cbn; tauto.
Qed.
Print Assumptions C52_partials_no_fouling.

(** With fouling the partials are not even those of what is computed. *)
Theorem C52_partials_refuted : exists fc fh E, 0 <= fc /\ 0 < fh /\ (forall x i, In x ua_inputs -> 0 < E x i) /\
  ~ jac_correct 1 (UAOverall fc fh) E.
Proof.
  exists 0, 1, (fun _ _ => 1). repeat split; try lra; [intros; lra|]. intro J.
  specialize (J "UA_overall" _ _ "eta_overall_hot" _ 0%nat 0%nat eq_refl eq_refl ltac:(cbn; lia) ltac:(cbn; lia)).
  assert (D : is_derive (fun t => vcompute (UAOverall 0 1) (updE (fun _ _ => 1) "eta_overall_hot" 0 t) "UA_overall" 0) 1 (3/16)).
  { outs UAOverall. unfold updE. cbn [String.eqb Ascii.eqb Bool.eqb Nat.eqb]. auto_derive; [repeat split; lra|field]. }
  assert (Q := eq_trans (eq_sym (is_derive_unique _ _ _ J)) (is_derive_unique _ _ _ D)).
  unfold vjac, njac, node in Q. cbn in Q. lra.
Qed.
Print Assumptions C52_partials_refuted.
