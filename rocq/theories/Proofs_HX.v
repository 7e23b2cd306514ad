(** Lemmas for the heat exchanger. *)
From Coq Require Import Reals List Bool PeanoNat String Lra Lia.
From Verif Require Import Base Py Calc Model_Vectors Model_Net Proofs_Net Model_Thermal Proofs_Thermal Proofs_Cs Model_HX Spec_HX Proofs_HXJac.
Import ListNotations.
Open Scope R_scope.
Open Scope string_scope.

(** ** Effectiveness *)
Lemma phi_decr x y : 0 < x -> x < y -> (1 - exp (- y)) / y < (1 - exp (- x)) / x.
Proof.
  intros Hx Hy.
  destruct (MVT_cor2 (fun t => (1 - exp (- t)) / t) (fun t => (t * exp (- t) - (1 - exp (- t))) / t ^ 2) x y Hy) as [c [E Hc]].
  - intros t Ht. apply is_derive_Reals. auto_derive; [lra|]. field. lra.
  - assert (N : c * exp (- c) - (1 - exp (- c)) < 0).
    { assert (K : 1 + c < exp c) by (apply exp_ineq1; lra). pose proof (exp_pos (- c)) as Q.
      assert (exp c * exp (- c) = 1) by (rewrite <- exp_plus, Rplus_opp_r; apply exp_0). nra. }
    assert (Z : (c * exp (- c) - (1 - exp (- c))) / c ^ 2 < 0).
    { unfold Rdiv. assert (0 < / c ^ 2) by (apply Rinv_0_lt_compat, pow_lt; lra). nra. }
    cbv beta in E. nra.
Qed.
(** the exponent: [eff = 1 - exp (- g)] *)
Definition cross_g (N C : R) : R := Rpower N (22/100) * ((1 - exp (- (C * Rpower N (78/100)))) / C).
Lemma eff_cross_g N C : C <> 0 -> eff_cross N C = 1 - exp (- cross_g N C).
Proof.
  intro H. unfold eff_cross, cross_g. do 2 f_equal. replace (- C * Rpower N (78/100)) with (- (C * Rpower N (78/100))) by ring.
  field. exact H.
Qed.
Lemma one_minus_exp_lt x : 0 < x -> 1 - exp (- x) < x.
Proof. intro H. assert (1 + - x < exp (- x)) by (apply exp_ineq1; lra). lra. Qed.
Lemma pow_split N : 0 < N -> Rpower N (22/100) * Rpower N (78/100) = N.
Proof. intro H. rewrite <- Rpower_plus. replace (22/100 + 78/100) with 1 by field. now apply Rpower_1. Qed.
Lemma cross_g_pos N C : 0 < N -> 0 < C -> 0 < cross_g N C.
Proof.
  intros HN HC. unfold cross_g. apply Rmult_lt_0_compat; [apply Rpower_pos|]. apply quot_pos; auto.
  apply one_minus_exp_pos. apply Rmult_lt_0_compat; [auto|apply Rpower_pos].
Qed.
Lemma cross_g_lt N C : 0 < N -> 0 < C -> cross_g N C < N.
Proof.
  intros HN HC. rewrite <- (pow_split N HN) at 2. unfold cross_g. apply Rmult_lt_compat_l; [apply Rpower_pos|].
  assert (P := Rpower_pos N (78/100)). assert (K := one_minus_exp_lt (C * Rpower N (78/100)) ltac:(now apply Rmult_lt_0_compat)).
  apply (Rmult_lt_reg_r C); auto. unfold Rdiv. rewrite Rmult_assoc, Rinv_l, Rmult_1_r by lra. lra.
Qed.
Lemma cross_g_N N N' C : 0 < N -> N < N' -> 0 < C -> cross_g N C < cross_g N' C.
Proof.
  intros HN H HC. unfold cross_g.
  assert (A : Rpower N (22/100) < Rpower N' (22/100)) by (apply Rlt_Rpower_l; lra).
  assert (B : Rpower N (78/100) < Rpower N' (78/100)) by (apply Rlt_Rpower_l; lra).
  assert (P := Rpower_pos N (22/100)). assert (P2 := Rpower_pos N (78/100)).
  assert (K : (1 - exp (- (C * Rpower N (78/100)))) / C < (1 - exp (- (C * Rpower N' (78/100)))) / C).
  { unfold Rdiv. apply Rmult_lt_compat_r; [now apply Rinv_0_lt_compat|].
    assert (exp (- (C * Rpower N' (78/100))) < exp (- (C * Rpower N (78/100)))) by (apply exp_increasing; nra). lra. }
  assert (Q : 0 < (1 - exp (- (C * Rpower N (78/100)))) / C).
  { apply quot_pos; auto. apply one_minus_exp_pos. now apply Rmult_lt_0_compat. }
  apply Rmult_gt_0_lt_compat; lra.
Qed.
Lemma cross_g_C N C C' : 0 < N -> 0 < C -> C < C' -> cross_g N C' < cross_g N C.
Proof.
  intros HN HC H. unfold cross_g. apply Rmult_lt_compat_l; [apply Rpower_pos|].
  assert (P := Rpower_pos N (78/100)). set (b := Rpower N (78/100)) in *.
  assert (K := phi_decr (C * b) (C' * b) ltac:(now apply Rmult_lt_0_compat) ltac:(now apply Rmult_lt_compat_r)).
  apply (Rmult_lt_reg_r (/ b)); [now apply Rinv_0_lt_compat|].
  replace ((1 - exp (- (C' * b))) / C' * / b) with ((1 - exp (- (C' * b))) / (C' * b)) by (field; lra).
  replace ((1 - exp (- (C * b))) / C * / b) with ((1 - exp (- (C * b))) / (C * b)) by (field; lra). exact K.
Qed.
Lemma eff_bounds N C : 0 < N -> 0 < C -> 0 < eff_cross N C < 1.
Proof.
  intros HN HC. rewrite eff_cross_g by lra. assert (K := cross_g_pos N C HN HC).
  assert (A := expm_lt_1 _ K). pose proof (exp_pos (- cross_g N C)). lra.
Qed.

(** ** Fins *)
Lemma cosh_pos x : 0 < cosh x.
Proof. unfold cosh. pose proof (exp_pos x). pose proof (exp_pos (- x)). lra. Qed.
Lemma cosh_sq x : cosh x ^ 2 = 1 + sinh x ^ 2.
Proof.
  unfold cosh, sinh. pose proof (exp_plus x (- x)) as E. rewrite Rplus_opp_r, exp_0 in E.
  assert (H : forall a b, a * b = 1 -> ((a + b) / 2) ^ 2 = 1 + ((a - b) / 2) ^ 2).
  { intros a b H. rewrite <- H. field. }
  apply H. lra.
Qed.
Lemma tanh_lt x : 0 < x -> tanh x < x.
Proof.
  intro Hx. destruct (MVT_cor2 tanh (fun t => / (cosh t ^ 2)) 0 x Hx) as [c [E Hc]].
  - intros t _. apply is_derive_Reals, tanh_derive.
  - assert (T0 : tanh 0 = 0) by (unfold tanh, sinh; rewrite Ropp_0; unfold Rdiv; ring).
    rewrite T0, !Rminus_0_r in E. rewrite E.
    assert (S : 0 < sinh c). { unfold sinh. assert (exp (- c) < exp c) by (apply exp_increasing; lra). lra. }
    rewrite cosh_sq. assert (0 < sinh c ^ 2) by now apply pow_lt.
    assert (/ (1 + sinh c ^ 2) < 1). { rewrite <- Rinv_1 at 2. apply Rinv_lt_contravar; lra. } nra.
Qed.
Lemma eta_fin_bounds m l : 0 < m -> 0 < l -> 0 < eta_fin m l < 1.
Proof.
  intros Hm Hl. assert (P : 0 < m * l) by now apply Rmult_lt_0_compat. assert (P2 : 0 < m * l / 2) by lra.
  assert (H1 := tanh_pos _ P2). assert (H2 := tanh_lt _ P2). unfold eta_fin.
  replace (2 * tanh (m * l / 2) / m / l) with (tanh (m * l / 2) * (2 / (m * l))) by (field; lra).
  assert (Q : 0 < 2 / (m * l)) by (apply quot_pos; lra). assert (M : m * l / 2 * (2 / (m * l)) = 1) by (field; lra). nra.
Qed.
Lemma eta_overall_bounds h k t l a : 0 < h -> 0 < k -> 0 < t -> 0 < l -> 0 < a < 1 -> 0 < eta_overall h k t l a < 1.
Proof.
  intros Hh Hk Ht Hl Ha. destruct (fin_m_sq h k t Hh Hk Ht) as [P _]. destruct (eta_fin_bounds _ l P Hl). unfold eta_overall. nra.
Qed.

(** ** The group without the checks *)
Definition HXPlain (nn : nat) : group := {|
  g_subs :=
    [relabel "dvpassthru" [("ac|propulsion|thermal|hx|n_wide_cold", "n_wide_cold"); ("ac|propulsion|thermal|hx|n_long_cold", "n_long_cold");
                           ("ac|propulsion|thermal|hx|n_tall", "n_tall")] [P "*"] [P "*"];
     comp nn "osfgeometry" OffsetStripFinGeometry [P "*"] [P "*"];
     comp nn "redh" HydraulicDiameterReynoldsNumber [P "*"] [P "*"];
     comp nn "osfdata" OffsetStripFinData [P "*"] [P "*"];
     comp nn "nusselt" NusseltFromColburnJ [P "*"] [P "*"];
     comp nn "convection" ConvectiveCoefficient [P "*"] [P "*"];
     comp nn "finefficiency" FinEfficiency [P "*"] [P "*"];
     comp nn "ua" (UAOverall 0 0) [P "*"] [P "*"];
     comp nn "ntu" NTUMethod [P "*"] [P "*"];
     comp nn "effectiveness" CrossFlowNTUEffectiveness [P "*"] [P "*"];
     comp nn "heat" NTUEffectivenessActualHeatTransfer [P "*"] [P "*"];
     comp nn "t_out" OutletTemperatures [P "*"] [P "*"];
     comp nn "delta_p" (PressureDrop (3/10) (-1/10) (3/10) (-1/10)) [P "*"] [P "*"]];
  g_conns := []
|}.
Lemma plain_of_checked nn V : solution (HXGroup nn) V -> solution (HXPlain nn) V.
Proof.
  intros S s Hs.
  assert (K : forall name C run, (forall E F, run nn E = Ok F -> F = vcompute C E) ->
     In (checked nn name C run [P "*"] [P "*"]) (g_subs (HXGroup nn)) ->
     gs_rel (comp nn name C [P "*"] [P "*"]) (reads (HXPlain nn) (comp nn name C [P "*"] [P "*"]) V) (writes (comp nn name C [P "*"] [P "*"]) V)).
  { intros name C r Hr HI. destruct (S _ HI) as [F [E1 E2]]. apply Hr in E1. subst F. exact E2. }
  assert (R1 : forall E F, osfdata_run nn E = Ok F -> F = vcompute OffsetStripFinData E).
  { intros E F. unfold osfdata_run. destruct nonpos; congruence. }
  assert (R2 : forall E F, convection_run nn E = Ok F -> F = vcompute ConvectiveCoefficient E).
  { intros E F. unfold convection_run. destruct nonpos; congruence. }
  assert (R3 : forall E F, fin_run nn E = Ok F -> F = vcompute FinEfficiency E).
  { intros E F. unfold fin_run. destruct nonpos; congruence. }
  cbn [HXPlain g_subs In] in Hs.
  repeat match type of Hs with
  | _ = _ \/ _ => destruct Hs as [<-|Hs]
  end; try contradiction;
  first [exact (K _ _ _ R1 ltac:(cbn [HXGroup g_subs In]; tauto)) | exact (K _ _ _ R2 ltac:(cbn [HXGroup g_subs In]; tauto))
        | exact (K _ _ _ R3 ltac:(cbn [HXGroup g_subs In]; tauto)) | refine (S _ _); cbn [HXGroup g_subs In]; tauto].
Qed.

Ltac hx_in := cbn [HXPlain g_subs In]; tauto.
(** [V o i] equals the expression of component [C]. *)
Tactic Notation "eqn" constr(S) constr(name) constr(C) constr(o) constr(i) constr(Hi) "as" ident(B) :=
  pose proof (star_comp (HXPlain _) _ _ name C o _ _ i eq_refl S ltac:(hx_in) eq_refl Hi) as B;
  unfold node in B; cbn [HydraulicDiameterReynoldsNumber OffsetStripFinData NusseltFromColburnJ ConvectiveCoefficient FinEfficiency
    UAOverall NTUMethod CrossFlowNTUEffectiveness NTUEffectivenessActualHeatTransfer OutletTemperatures PressureDrop
    pc_ins assoc String.eqb Ascii.eqb Bool.eqb] in B.

Lemma plain_counts nn V : solution (HXPlain nn) V -> forall i,
  V "n_wide_cold" i = V "ac|propulsion|thermal|hx|n_wide_cold" i /\ V "n_long_cold" i = V "ac|propulsion|thermal|hx|n_long_cold" i /\
  V "n_tall" i = V "ac|propulsion|thermal|hx|n_tall" i.
Proof.
  intros S i. set (s := hd (comp 0 "" OutletTemperatures [] []) (g_subs (HXPlain nn))).
  pose proof (star_rel_env (HXPlain nn) V s eq_refl eq_refl eq_refl S (or_introl eq_refl)) as R. unfold s in R. cbn [hd HXPlain g_subs] in R.
  cbn [gs_rel relabel] in R. cbn [In] in R. repeat match goal with |- _ /\ _ => split end; apply R; tauto.
Qed.
Lemma osf_ins_pos nn V : solution (HXPlain nn) V -> hx_positive nn V -> forall x, In x (map fst osf_ins) -> 0 < V x 0%nat.
Proof.
  intros S [P _] x Hx. destruct (plain_counts nn V S 0%nat) as [C1 [C2 C3]]. cbn [osf_ins map fst In] in Hx.
  repeat (destruct Hx as [<-|Hx]; [first [rewrite C1|rewrite C2|rewrite C3|idtac]; apply P; unfold hx_scalars; cbn [In]; tauto|]).
  contradiction.
Qed.
Lemma osf_value nn V o k f : solution (HXPlain nn) V -> In (o, (k, f)) osf_outs ->
  V o 0%nat = f (fun x => V x 0%nat).
Proof.
  intros S H.
  assert (A : assoc o osf_outs = Some (k, f) /\ k = Sca).
  { unfold osf_outs in H. cbn [In] in H. each_in H; split; reflexivity. }
  destruct A as [A ->].
  rewrite (star_comp (HXPlain nn) V nn "osfgeometry" OffsetStripFinGeometry o Sca f 0%nat eq_refl S ltac:(hx_in) A ltac:(cbn; lia)).
  replace (node OffsetStripFinGeometry V 0%nat) with (fun x => V x 0%nat); [reflexivity|].
  apply FunctionalExtensionality.functional_extensionality. intro x. unfold node.
  destruct (assoc x (pc_ins OffsetStripFinGeometry)) as [[|]|]; reflexivity.
Qed.
Lemma osf_positive nn V : solution (HXPlain nn) V -> hx_positive nn V -> forall o, In o (map fst osf_outs) -> 0 < V o 0%nat.
Proof.
  intros S Hp o Ho. assert (P := osf_ins_pos nn V S Hp). apply in_map_iff in Ho. destruct Ho as [[o' [k f]] [<- Ho]]. cbn [fst].
  rewrite (osf_value nn V o' k f S Ho). clear S Hp.
  set (e := fun x => V x 0%nat). change (forall x, In x (map fst osf_ins) -> 0 < e x) in P. clearbody e. clear V nn.
  cbn [osf_ins map fst In] in P.
  assert (P1 := P "channel_width_hot" ltac:(tauto)). assert (P2 := P "channel_height_hot" ltac:(tauto)).
  assert (P3 := P "fin_length_hot" ltac:(tauto)). assert (P4 := P "channel_width_cold" ltac:(tauto)).
  assert (P5 := P "channel_height_cold" ltac:(tauto)). assert (P6 := P "fin_length_cold" ltac:(tauto)).
  assert (P7 := P "fin_thickness" ltac:(tauto)). assert (P8 := P "plate_thickness" ltac:(tauto)).
  assert (P9 := P "case_thickness" ltac:(tauto)). assert (P10 := P "n_wide_cold" ltac:(tauto)).
  assert (P11 := P "n_long_cold" ltac:(tauto)). assert (P12 := P "n_tall" ltac:(tauto)). assert (P13 := P "material_rho" ltac:(tauto)). clear P.
  unfold osf_outs in Ho. cbn [In] in Ho. each_in Ho; posi.
Qed.

Record hx_facts (nn : nat) (V : env) (i : nat) : Prop := {
  F_Re_c : 0 < V "Re_dh_cold" i; F_Re_h : 0 < V "Re_dh_hot" i;
  F_j_c : 0 < V "j_cold" i; F_j_h : 0 < V "j_hot" i; F_f_c : 0 < V "f_cold" i; F_f_h : 0 < V "f_hot" i;
  F_Nu_c : 0 < V "Nu_dh_cold" i; F_Nu_h : 0 < V "Nu_dh_hot" i;
  F_h_c : 0 < V "h_conv_cold" i; F_h_h : 0 < V "h_conv_hot" i;
  F_eta_c : 0 < V "eta_overall_cold" i < 1; F_eta_h : 0 < V "eta_overall_hot" i < 1;
  F_UA : 0 < V "UA_overall" i; F_NTU : 0 < V "NTU" i; F_Cr : 0 < V "C_ratio" i <= 1;
  F_eff : 0 < V "effectiveness" i < 1 }.

Lemma osf_j_pos Re a d g : 0 < Re -> 0 < a -> 0 < d -> 0 < g -> 0 < osf_j Re a d g.
Proof. intros. unfold osf_j, j1, j2. posi. Qed.
Lemma osf_f_pos Re a d g : 0 < Re -> 0 < a -> 0 < d -> 0 < g -> 0 < osf_f Re a d g.
Proof. intros. unfold osf_f, f1, f2. posi. Qed.

Lemma plain_facts nn V i : solution (HXPlain nn) V -> hx_positive nn V -> (i < nn)%nat -> hx_facts nn V i.
Proof.
  intros S Hp Hi. assert (O := osf_positive nn V S Hp). destruct Hp as [Ps Pf].
  assert (Q : forall x, In x hx_scalars -> 0 < V x 0%nat) by exact Ps. unfold hx_scalars in Q. cbn [In] in Q.
  assert (W : forall x, In x hx_flows -> 0 < V x i) by (intros; now apply Pf). unfold hx_flows in W. cbn [In] in W.
  cbn [osf_outs map fst In] in O.
  assert (O1 := O "dh_cold" ltac:(tauto)). assert (O2 := O "dh_hot" ltac:(tauto)).
  assert (O3 := O "xs_area_cold" ltac:(tauto)). assert (O4 := O "xs_area_hot" ltac:(tauto)).
  assert (O5 := O "alpha_cold" ltac:(tauto)). assert (O6 := O "delta_cold" ltac:(tauto)). assert (O7 := O "gamma_cold" ltac:(tauto)).
  assert (O8 := O "alpha_hot" ltac:(tauto)). assert (O9 := O "delta_hot" ltac:(tauto)). assert (O10 := O "gamma_hot" ltac:(tauto)).
  assert (O11 := O "heat_transfer_area_cold" ltac:(tauto)). assert (O12 := O "heat_transfer_area_hot" ltac:(tauto)).
  assert (A1 := O "fin_area_ratio_cold" ltac:(tauto)). assert (A2 := O "fin_area_ratio_hot" ltac:(tauto)). clear O.
  assert (Q1 := Q "mu_cold" ltac:(tauto)). assert (Q2 := Q "mu_hot" ltac:(tauto)). assert (Q3 := Q "k_cold" ltac:(tauto)).
  assert (Q4 := Q "k_hot" ltac:(tauto)). assert (Q5 := Q "cp_cold" ltac:(tauto)). assert (Q6 := Q "cp_hot" ltac:(tauto)).
  assert (Q7 := Q "material_k" ltac:(tauto)). assert (Q8 := Q "fin_thickness" ltac:(tauto)).
  assert (Q9 := Q "channel_height_cold" ltac:(tauto)). assert (Q10 := Q "channel_height_hot" ltac:(tauto)).
  assert (Q11 := Q "channel_width_cold" ltac:(tauto)). assert (Q12 := Q "channel_width_hot" ltac:(tauto)). clear Q.
  assert (W1 := W "mdot_cold" ltac:(tauto)). assert (W2 := W "mdot_hot" ltac:(tauto)). clear W.
  assert (A3 : V "fin_area_ratio_cold" 0%nat < 1).
  { rewrite (osf_value nn V "fin_area_ratio_cold" Sca _ S ltac:(unfold osf_outs; cbn [In]; tauto)). cbv beta.
    apply (Rmult_lt_reg_r (V "channel_height_cold" 0%nat + V "channel_width_cold" 0%nat)); [lra|]. unfold Rdiv.
    rewrite Rmult_assoc, Rinv_l by lra. lra. }
  assert (A4 : V "fin_area_ratio_hot" 0%nat < 1).
  { rewrite (osf_value nn V "fin_area_ratio_hot" Sca _ S ltac:(unfold osf_outs; cbn [In]; tauto)). cbv beta.
    apply (Rmult_lt_reg_r (V "channel_height_hot" 0%nat + V "channel_width_hot" 0%nat)); [lra|]. unfold Rdiv.
    rewrite Rmult_assoc, Rinv_l by lra. lra. }
  eqn S "redh" HydraulicDiameterReynoldsNumber "Re_dh_cold" i Hi as B1. eqn S "redh" HydraulicDiameterReynoldsNumber "Re_dh_hot" i Hi as B2.
  assert (R1 : 0 < V "Re_dh_cold" i) by (rewrite B1; posi). assert (R2 : 0 < V "Re_dh_hot" i) by (rewrite B2; posi).
  eqn S "osfdata" OffsetStripFinData "j_cold" i Hi as B3. eqn S "osfdata" OffsetStripFinData "j_hot" i Hi as B4.
  eqn S "osfdata" OffsetStripFinData "f_cold" i Hi as B5. eqn S "osfdata" OffsetStripFinData "f_hot" i Hi as B6.
  assert (R3 : 0 < V "j_cold" i) by (rewrite B3; apply osf_j_pos; assumption). assert (R4 : 0 < V "j_hot" i) by (rewrite B4; apply osf_j_pos; assumption).
  assert (R5 : 0 < V "f_cold" i) by (rewrite B5; apply osf_f_pos; assumption). assert (R6 : 0 < V "f_hot" i) by (rewrite B6; apply osf_f_pos; assumption).
  eqn S "nusselt" NusseltFromColburnJ "Nu_dh_cold" i Hi as B7. eqn S "nusselt" NusseltFromColburnJ "Nu_dh_hot" i Hi as B8.
  assert (R7 : 0 < V "Nu_dh_cold" i) by (rewrite B7; posi). assert (R8 : 0 < V "Nu_dh_hot" i) by (rewrite B8; posi).
  eqn S "convection" ConvectiveCoefficient "h_conv_cold" i Hi as B9. eqn S "convection" ConvectiveCoefficient "h_conv_hot" i Hi as B10.
  assert (R9 : 0 < V "h_conv_cold" i) by (rewrite B9; posi). assert (R10 : 0 < V "h_conv_hot" i) by (rewrite B10; posi).
  eqn S "finefficiency" FinEfficiency "eta_overall_cold" i Hi as B11. eqn S "finefficiency" FinEfficiency "eta_overall_hot" i Hi as B12.
  assert (R11 : 0 < V "eta_overall_cold" i < 1) by (rewrite B11; apply eta_overall_bounds; try assumption; lra).
  assert (R12 : 0 < V "eta_overall_hot" i < 1) by (rewrite B12; apply eta_overall_bounds; try assumption; lra).
  eqn S "ua" (UAOverall 0 0) "UA_overall" i Hi as B13.
  assert (R13 : 0 < V "UA_overall" i).
  { rewrite B13. unfold Rdiv. rewrite !Rmult_0_l, !Rplus_0_r. posi. }
  eqn S "ntu" NTUMethod "NTU" i Hi as B14. eqn S "ntu" NTUMethod "C_ratio" i Hi as B15.
  assert (X1 : 0 < V "mdot_cold" i * V "cp_cold" 0%nat) by posi. assert (X2 : 0 < V "mdot_hot" i * V "cp_hot" 0%nat) by posi.
  assert (R14 : 0 < V "NTU" i) by (rewrite B14; destruct Rlt_dec; posi).
  assert (R15 : 0 < V "C_ratio" i <= 1).
  { rewrite B15. destruct Rlt_dec; (split; [posi|]).
    - apply (Rmult_le_reg_r (V "mdot_hot" i * V "cp_hot" 0%nat)); [auto|]. unfold Rdiv. rewrite Rmult_assoc, Rinv_l by lra. lra.
    - apply (Rmult_le_reg_r (V "mdot_cold" i * V "cp_cold" 0%nat)); [auto|]. unfold Rdiv. rewrite Rmult_assoc, Rinv_l by lra. lra. }
  eqn S "effectiveness" CrossFlowNTUEffectiveness "effectiveness" i Hi as B16.
  constructor; try assumption. rewrite B16. apply eff_bounds; [assumption|lra].
Qed.

(** ** A solution for all positive inputs *)
Ltac local_auto C :=
  let o := fresh "o" in let k := fresh "k" in let f := fresh "f" in let A := fresh "A" in let H := fresh "H" in
  let e := fresh "e" in let e' := fresh "e'" in
  intros o k f e e' A H; apply assoc_In in A; unfold C in A, H; cbn [pc_outs pc_ins map fst In] in A, H;
  each_in A; cbv beta;
  repeat match goal with |- context [e ?x] => rewrite (H x) by tauto end; reflexivity.
Lemma local_geo : local_comp OffsetStripFinGeometry.
Proof.
  intros o k f e e' A H. apply assoc_In in A. unfold OffsetStripFinGeometry in A, H. cbn [pc_outs pc_ins] in A, H.
  unfold osf_outs in A. unfold osf_ins in H. cbn [map fst In] in A, H.
  each_in A; cbv beta; repeat match goal with |- context [e ?x] => rewrite (H x) by tauto end; reflexivity.
Qed.
Lemma local_re : local_comp HydraulicDiameterReynoldsNumber. Proof. local_auto HydraulicDiameterReynoldsNumber. Qed.
Lemma local_data : local_comp OffsetStripFinData. Proof. local_auto OffsetStripFinData. Qed.
Lemma local_nu : local_comp NusseltFromColburnJ. Proof. local_auto NusseltFromColburnJ. Qed.
Lemma local_conv : local_comp ConvectiveCoefficient. Proof. local_auto ConvectiveCoefficient. Qed.
Lemma local_fin : local_comp FinEfficiency. Proof. local_auto FinEfficiency. Qed.
Lemma local_ua : local_comp (UAOverall 0 0). Proof. local_auto UAOverall. Qed.
Lemma local_ntu : local_comp NTUMethod. Proof. local_auto NTUMethod. Qed.
Lemma local_cross : local_comp CrossFlowNTUEffectiveness. Proof. local_auto CrossFlowNTUEffectiveness. Qed.
Lemma local_heat : local_comp NTUEffectivenessActualHeatTransfer. Proof. local_auto NTUEffectivenessActualHeatTransfer. Qed.
Lemma local_out : local_comp OutletTemperatures. Proof. local_auto OutletTemperatures. Qed.
Lemma local_drop a b c d : local_comp (PressureDrop a b c d). Proof. local_auto PressureDrop. Qed.

Definition relabel_fun (l : list (string * string)) : env -> env := fun I o i =>
  match find (fun p => String.eqb o (snd p)) l with Some p => I (fst p) i | None => 0 end.
Lemma relabel_local name l pin pout : local (relabel name l pin pout) (relabel_fun l).
Proof.
  intros I I' o i _ H. unfold relabel_fun. destruct (find _ l) as [p|] eqn:F; [|reflexivity].
  apply find_some in F. apply H. cbn [relabel gs_ins]. apply in_map. apply F.
Qed.
Lemma relabel_ok name l pin pout I O : no_dup (map snd l) = true ->
  (forall o i, In o (map snd l) -> O o i = relabel_fun l I o i) -> gs_rel (relabel name l pin pout) I O.
Proof.
  intros N H a b Hab i. rewrite H by (apply (in_map snd) in Hab; exact Hab). unfold relabel_fun.
  destruct (find _ l) as [[a' b']|] eqn:F.
  - apply find_some in F. destruct F as [F1 F2]. cbn [fst snd] in *. apply String.eqb_eq in F2. subst b'.
    assert (E : (a', b) = (a, b)); [|now injection E as ->].
    clear H. induction l as [|[c d] l IH]; [contradiction|]. cbn [map snd no_dup] in N. apply andb_prop in N. destruct N as [N1 N2].
    apply negb_true_iff in N1. cbn [In] in *.
    assert (M : forall u, In (u, d) l -> False).
    { intros u Hu. apply (in_map snd) in Hu. apply mem_In in Hu. cbn [snd] in Hu. congruence. }
    destruct Hab as [Hab|Hab], F1 as [F1|F1].
    + congruence.
    + injection Hab as -> ->. exfalso. exact (M _ F1).
    + injection F1 as -> ->. exfalso. exact (M _ Hab).
    + now apply IH.
  - exfalso. pose proof (find_none _ _ F (a, b) Hab) as K. cbn [snd] in K. rewrite String.eqb_refl in K. discriminate.
Qed.

Definition hx_functions (nn : nat) : list (gsub * (env -> env)) :=
  combine (g_subs (HXPlain nn))
   [relabel_fun [("ac|propulsion|thermal|hx|n_wide_cold", "n_wide_cold"); ("ac|propulsion|thermal|hx|n_long_cold", "n_long_cold");
                 ("ac|propulsion|thermal|hx|n_tall", "n_tall")];
    vcompute OffsetStripFinGeometry; vcompute HydraulicDiameterReynoldsNumber; vcompute OffsetStripFinData; vcompute NusseltFromColburnJ;
    vcompute ConvectiveCoefficient; vcompute FinEfficiency; vcompute (UAOverall 0 0); vcompute NTUMethod; vcompute CrossFlowNTUEffectiveness;
    vcompute NTUEffectivenessActualHeatTransfer; vcompute OutletTemperatures; vcompute (PressureDrop (3/10) (-1/10) (3/10) (-1/10))].
Lemma hx_plain_exists nn V0 : exists V, solution (HXPlain nn) V /\
  (forall x i, In x (app hx_scalars (app hx_flows ["T_in_cold"; "T_in_hot"])) -> V x i = V0 x i).
Proof.
  exists (run (HXPlain nn) (hx_functions nn) V0). 
  assert (O : ordered (HXPlain nn) (map fst (hx_functions nn)) = true) by reflexivity.
  assert (L : forall p, In p (hx_functions nn) -> local (fst p) (snd p)).
  { intros p Hp. unfold hx_functions in Hp. cbn [HXPlain g_subs combine In] in Hp.
    repeat (destruct Hp as [<-|Hp]; [cbn [fst snd]; first [apply relabel_local|apply comp_local;
      first [exact local_geo|exact local_re|exact local_data|exact local_nu|exact local_conv|exact local_fin|exact local_ua|exact local_ntu
            |exact local_cross|exact local_heat|exact local_out|apply local_drop]]|]). contradiction. }
  pose proof (feed_forward (HXPlain nn) (hx_functions nn) V0 O L) as F. split.
  - intros s Hs.
    assert (K : exists f, In (s, f) (hx_functions nn) /\ (forall I O', (forall o i, In o (gs_outs s) -> O' o i = f I o i) -> gs_rel s I O')).
    { unfold hx_functions. cbn [HXPlain g_subs combine In] in Hs |- *.
      repeat (destruct Hs as [<-|Hs]; [eexists; split; [tauto|intros I O' H; first [apply comp_rel; exact H|apply relabel_ok; [reflexivity|exact H]]]|]).
      contradiction. }
    destruct K as [f [Hf R]]. apply R. intros o i Ho. exact (F (s, f) o i Hf Ho).
  - intros x i Hx. apply run_other. intro K. revert x Hx K.
    assert (D : disjoint (app hx_scalars (app hx_flows ["T_in_cold"; "T_in_hot"])) (flat_map out_names (map fst (hx_functions nn))) = true) by reflexivity.
    intros x Hx K. exact (disjoint_spec _ _ _ D Hx K).
Qed.
Lemma anyb_false nn p : (forall i, (i < nn)%nat -> p i = false) -> anyb nn p = false.
Proof.
  intro H. unfold anyb. destruct (existsb p (seq 0 nn)) eqn:E; [|exact E || reflexivity].
  apply existsb_exists in E. destruct E as [i [Hi E]]. apply in_seq in Hi. rewrite H in E by lia. discriminate.
Qed.
Lemma checked_of_plain nn V : solution (HXPlain nn) V -> hx_positive nn V -> solution (HXGroup nn) V.
Proof.
  intros S Hp s Hs.
  assert (N : forall v, (forall i, (i < nn)%nat -> 0 < v i) -> nonpos nn v = false).
  { intros v H. apply anyb_false. intros i Hi. specialize (H i Hi). destruct Rle_dec; [lra|reflexivity]. }
  assert (F := fun i Hi => plain_facts nn V i S Hp Hi).
  assert (K : forall name C run, (run nn V = Ok (vcompute C V)) ->
     In (comp nn name C [P "*"] [P "*"]) (g_subs (HXPlain nn)) ->
     gs_rel (checked nn name C run [P "*"] [P "*"]) (reads (HXGroup nn) (checked nn name C run [P "*"] [P "*"]) V)
            (writes (checked nn name C run [P "*"] [P "*"]) V)).
  { intros name C r Hr HI. exists (vcompute C V). split.
    - transitivity (r nn V); [|exact Hr]. f_equal. apply FunctionalExtensionality.functional_extensionality. intro x. now apply star_reads.
    - intros o k f i A Hi. pose proof (star_rel_env (HXPlain nn) V (comp nn name C [P "*"] [P "*"]) eq_refl eq_refl eq_refl S HI) as R.
      rewrite star_writes by reflexivity. exact (R o k f i A Hi). }
  assert (R1 : osfdata_run nn V = Ok (vcompute OffsetStripFinData V)).
  { unfold osfdata_run. rewrite N; [reflexivity|]. intros i Hi. exact (F_Re_c _ _ _ (F i Hi)). }
  assert (R2 : convection_run nn V = Ok (vcompute ConvectiveCoefficient V)).
  { unfold convection_run. rewrite N; [reflexivity|]. intros i Hi.
    assert (HI : In (comp nn "convection" ConvectiveCoefficient [P "*"] [P "*"]) (g_subs (HXPlain nn))) by hx_in.
    pose proof (star_rel_env (HXPlain nn) V (comp nn "convection" ConvectiveCoefficient [P "*"] [P "*"]) eq_refl eq_refl eq_refl S HI "h_conv_cold" _ _ i eq_refl Hi) as R. rewrite <- R.
    exact (F_h_c _ _ _ (F i Hi)). }
  assert (R3 : fin_run nn V = Ok (vcompute FinEfficiency V)).
  { unfold fin_run. rewrite N; [reflexivity|]. intros i Hi. exact (F_h_c _ _ _ (F i Hi)). }
  cbn [HXGroup g_subs In] in Hs.
  repeat match type of Hs with _ = _ \/ _ => destruct Hs as [<-|Hs] end; try contradiction;
  first [refine (K _ _ _ R1 _); hx_in | refine (K _ _ _ R2 _); hx_in | refine (K _ _ _ R3 _); hx_in | refine (S _ _); hx_in].
Qed.
