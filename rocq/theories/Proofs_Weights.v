(** Partials of the weight components. *)
From Coq Require Import Reals List Bool PeanoNat String Lra Lia.
From Coquelicot Require Import Coquelicot.
From Verif Require Import Base Py RSum Model_Algebra Model_Net Model_Thermal Model_Ducts Model_HeatPipe Model_Systems Model_Weights Spec_Weights
  Proofs_Net Proofs_Cs Proofs_Thermal Proofs_Ducts Proofs_Systems Proofs_Exec Proofs_Deriv.
Import ListNotations.
Open Scope R_scope.
Open Scope string_scope.
Open Scope list_scope.

Lemma to_component C E : sane_inputs C E -> forallb (fun p => match snd p with Sca => true | Vec => false end) (pc_ins C) = true -> no_dup (map fst (pc_ins C)) = true ->
  (forall e, List.Forall (fun p => sane (fst p) (e (fst p))) (pc_ins C) -> node_jac_ok C e) -> jac_correct 1 C E.
Proof.
  intros S K N H. apply jac_correct_lift; [lia|]. intros i _. apply H. apply Forall_forall. intros [x k] I. cbn [fst].
  rewrite forallb_forall in K. specialize (K _ I). cbn in K. destruct k; [discriminate|].
  assert (A : assoc x (pc_ins C) = Some Sca).
  { clear S H. induction (pc_ins C) as [|[y k'] l IH]; [contradiction|]. cbn [map fst no_dup] in N. apply andb_prop in N. destruct N as [N1 N2].
    cbn [assoc]. destruct I as [I|I]; [injection I as -> ->; now rewrite String.eqb_refl|]. destruct (String.eqb_spec x y) as [->|]; [|now apply IH].
    exfalso. apply negb_true_iff in N1. apply (in_map fst) in I. cbn in I. unfold mem in N1. rewrite <- Bool.not_true_iff_false in N1. apply N1. apply existsb_exists. exists y. split; [exact I|apply String.eqb_refl]. }
  unfold node. rewrite A. exact (S x Sca A).
Qed.
Lemma cos_pos v : - (PI / 2) < v < PI / 2 -> 0 < cos v.
Proof. intro H. apply cos_gt_0; lra. Qed.
Ltac inputs_of H := unfold sane in H; cbn [pc_ins fst snd mem existsb String.eqb Ascii.eqb Bool.eqb orb] in H;
  repeat match type of H with List.Forall _ (_ :: _) => let a := fresh "P" in let b := fresh "F" in
    inversion H as [|? ? a b]; subst; clear H; rename b into H; cbn [fst snd mem existsb String.eqb Ascii.eqb Bool.eqb orb] in a;
    try (apply cos_pos in a) end; clear H.
Ltac wcomp C := let H := fresh "H" in let e := fresh "e" in
  let S := fresh "S" in intro S; apply to_component; [exact S|reflexivity|reflexivity|]; intros e H; unfold C in H; inputs_of H; split_jac C.
Lemma Wav_pos : 0 < Wavionics.
Proof. unfold Wavionics. apply Rmult_lt_0_compat; [lra|apply Rpower_pos]. Qed.
Ltac pos_ := repeat match goal with |- ?a <> 0 => apply Rgt_not_eq, Rlt_gt end; try assumption; repeat first [assumption | exact Wav_pos | lra | apply Rplus_lt_0_compat | posi].
Ltac fin := match goal with |- ?a = ?b => change (@eq R a b) end; cbv beta; cbn [INR pred]; exponents;
  repeat match goal with |- context [Rpower ?a ?b] => let r := fresh "r" in set (r := Rpower a b); clearbody r end;
  solve [ring | field; pos_].
Lemma pow_mul a b p : 0 < a -> 0 < b -> Rpower (a * b) p = Rpower a p * Rpower b p.
Proof. intros. symmetry. now apply Rpower_mult_distr. Qed.
Lemma pow_inv b p : 0 < b -> Rpower (/ b) p = / Rpower b p.
Proof. intro. unfold Rpower. rewrite ln_Rinv by assumption. rewrite <- exp_Ropp. f_equal. ring. Qed.
Lemma pow_div a b p : 0 < a -> 0 < b -> Rpower (a / b) p = Rpower a p / Rpower b p.
Proof. intros. unfold Rdiv. rewrite pow_mul, pow_inv; auto. now apply Rinv_0_lt_compat. Qed.
Lemma pow_pred a p : 0 < a -> Rpower a (p - 1) = Rpower a p / a.
Proof. intro. unfold Rminus. rewrite Rpower_plus, Rpower_Ropp, Rpower_1 by assumption. reflexivity. Qed.
(** Splits powers of products and quotients, and lowered exponents. *)
Ltac powers := repeat first
  [ rewrite pow_mul by solve [pos_] | rewrite pow_div by solve [pos_] | rewrite pow_pred by solve [pos_] | rewrite Rpower_plus ].
Ltac fin2 := match goal with |- ?a = ?b => change (@eq R a b) end; cbv beta; powers; 
  repeat match goal with |- context [Rpower ?a ?b] => let r := fresh "r" in let h := fresh "h" in pose proof (Rpower_pos a b) as h; set (r := Rpower a b) in *; clearbody r end;
  solve [field; repeat split; pos_].
Lemma j_ga_wing n E : 0 < n -> sane_inputs (WingWeight_SmallTurboprop n) E -> jac_correct 1 (WingWeight_SmallTurboprop n) E.
Proof.
  intros *; intro; wcomp WingWeight_SmallTurboprop; (eapply D_eq; [der; try solve [pos_]|]).
  all: fin.
Qed.
Lemma j_ga_tail n E : 0 < n -> sane_inputs (EmpennageWeight_SmallTurboprop n) E -> jac_correct 1 (EmpennageWeight_SmallTurboprop n) E.
Proof.
  intros *; intro; wcomp EmpennageWeight_SmallTurboprop; (eapply D_eq; [der; try solve [pos_]|]).
  all: fin.
Qed.
Lemma j_ga_fuselage n E : 0 < n -> sane_inputs (FuselageWeight_SmallTurboprop n) E -> jac_correct 1 (FuselageWeight_SmallTurboprop n) E.
Proof.
  intros *; intro; wcomp FuselageWeight_SmallTurboprop; (eapply D_eq; [der; try solve [pos_]|]).
  all: fin.
Qed.
Lemma j_ga_nacelle  E : sane_inputs NacelleWeight_SmallSingleTurboprop E -> jac_correct 1 NacelleWeight_SmallSingleTurboprop E.
Proof.
  intros *; wcomp NacelleWeight_SmallSingleTurboprop; (eapply D_eq; [der; try solve [pos_]|]).
  all: fin.
Qed.
Lemma j_ga_nacelles  E : sane_inputs NacelleWeight_MultiTurboprop E -> jac_correct 1 NacelleWeight_MultiTurboprop E.
Proof.
  intros *; wcomp NacelleWeight_MultiTurboprop; (eapply D_eq; [der; try solve [pos_]|]).
  all: fin.
Qed.
Lemma j_ga_gear n E : 0 < n -> sane_inputs (LandingGearWeight_SmallTurboprop n) E -> jac_correct 1 (LandingGearWeight_SmallTurboprop n) E.
Proof.
  intros *; intro; wcomp LandingGearWeight_SmallTurboprop; (eapply D_eq; [der; try solve [pos_]|]).
  all: fin.
Qed.
Lemma j_ga_fuel k E : 0 < k -> sane_inputs (FuelSystemWeight_SmallTurboprop k) E -> jac_correct 1 (FuelSystemWeight_SmallTurboprop k) E.
Proof.
  intros *; intro; wcomp FuelSystemWeight_SmallTurboprop; (eapply D_eq; [der; try solve [pos_]|]).
  all: fin.
Qed.
Lemma j_ga_equipment  E : sane_inputs EquipmentWeight_SmallTurboprop E -> jac_correct 1 EquipmentWeight_SmallTurboprop E.
Proof.
  intros *; wcomp EquipmentWeight_SmallTurboprop; (eapply D_eq; [der; try solve [pos_]|]).
  all: fin.
Qed.
Lemma j_hstab_const f E : sane_inputs (HstabConst_JetTransport f) E -> jac_correct 1 (HstabConst_JetTransport f) E.
Proof.
  intros *; wcomp HstabConst_JetTransport; (eapply D_eq; [der; try solve [pos_]|]).
  all: fin.
Qed.
Lemma j_hstab n k s E : sane_inputs (HstabWeight_JetTransport n k s) E -> jac_correct 1 (HstabWeight_JetTransport n k s) E.
Proof.
  intros *; wcomp HstabWeight_JetTransport; (eapply D_eq; [der; try solve [pos_]|]).
  all: try fin.
  replace (-1296/1000) with (704/1000 - 1 - 1) by lra. fin2.
Qed.
Lemma j_vstab n t E : sane_inputs (VstabWeight_JetTransport n t) E -> jac_correct 1 (VstabWeight_JetTransport n t) E.
Proof.
  intros *; wcomp VstabWeight_JetTransport; (eapply D_eq; [der; try solve [pos_]|]).
  all: fin.
Qed.
Lemma j_kws  E : sane_inputs FuselageKws_JetTransport E -> jac_correct 1 FuselageKws_JetTransport E.
Proof.
  intros *; wcomp FuselageKws_JetTransport; (eapply D_eq; [der; try solve [pos_]|]).
  all: try fin.
  unfold tan, Rdiv. pose proof (sin2_cos2 (e wsweep)) as Q. unfold Rsqr in Q.
  replace (1 * ((sin (e wsweep) * / cos (e wsweep)) ^ 2 + 1)) with ((1 * / cos (e wsweep)) ^ 2); [reflexivity|].
  field_simplify; try lra. f_equal. lra.
Qed.
Lemma j_fuselage n d l E : sane_inputs (FuselageWeight_JetTransport n d l) E -> jac_correct 1 (FuselageWeight_JetTransport n d l) E.
Proof.
  intros *; wcomp FuselageWeight_JetTransport; (eapply D_eq; [der; try solve [pos_]|]).
  all: fin.
Qed.
Lemma j_main n k E : sane_inputs (MainLandingGearWeight_JetTransport n k) E -> jac_correct 1 (MainLandingGearWeight_JetTransport n k) E.
Proof.
  intros *; wcomp MainLandingGearWeight_JetTransport; (eapply D_eq; [der; try solve [pos_]|]).
  all: fin.
Qed.
Lemma j_nose n k E : sane_inputs (NoseLandingGearWeight_JetTransport n k) E -> jac_correct 1 (NoseLandingGearWeight_JetTransport n k) E.
Proof.
  intros *; wcomp NoseLandingGearWeight_JetTransport; (eapply D_eq; [der; try solve [pos_]|]).
  all: fin.
Qed.
Lemma j_engine  E : sane_inputs EngineWeight_JetTransport E -> jac_correct 1 EngineWeight_JetTransport E.
Proof.
  intros *; wcomp EngineWeight_JetTransport; (eapply D_eq; [der; try solve [pos_]|]).
  all: fin.
Qed.
Lemma j_nacelle  E : sane_inputs NacelleWeight_JetTransport E -> jac_correct 1 NacelleWeight_JetTransport E.
Proof.
  intros *; wcomp NacelleWeight_JetTransport; (eapply D_eq; [der; try solve [pos_]|]).
  all: fin.
Qed.
Lemma j_systems  E : sane_inputs EngineSystemsWeight_JetTransport E -> jac_correct 1 EngineSystemsWeight_JetTransport E.
Proof.
  intros *; wcomp EngineSystemsWeight_JetTransport; (eapply D_eq; [der; try solve [pos_]|]).
  all: try fin.
  - replace (5/10 - 1) with (- (5/10)) by lra. rewrite Rpower_Ropp. fin2.
  - replace (78/1000) with (1078/1000 - 1) by lra. fin2.
Qed.
Lemma j_furnishing l b E : sane_inputs (FurnishingWeight_JetTransport l b) E -> jac_correct 1 (FurnishingWeight_JetTransport l b) E.
Proof.
  intros *; wcomp FurnishingWeight_JetTransport; (eapply D_eq; [der; try solve [pos_]|]).
  all: try fin.
  - replace (33/100) with (133/100 - 1) by lra. replace (12/100) with (112/100 - 1) by lra. fin2.
  - fin2.
Qed.
Lemma j_equipment c a p E : 0 <= a -> sane_inputs (EquipmentWeight_JetTransport c a p) E -> jac_correct 1 (EquipmentWeight_JetTransport c a p) E.
Proof.
  intros *; intro; wcomp EquipmentWeight_JetTransport.
  all: assert (A1 : 0 < 1/1000 * (e "W_fuelsystem" + a * (e ndeck * (15 + 32/1000000 * e MTOW) + e neng * (5 + 6/1000000 * e MTOW) + (15/100000 + 12/1000) * e MTOW)))
    by (apply Rmult_lt_0_compat; [lra|]; apply Rplus_lt_le_0_compat; [assumption|]; apply Rmult_le_pos; [assumption|];
        repeat apply Rplus_le_le_0_compat; apply Rmult_le_pos; lra).
  all: assert (A2 : 0 < 1/10000 * e Vpr * (e ndeck + e ncabin + e npax)) by (repeat apply Rmult_lt_0_compat; lra).
  all: (eapply D_eq; [der; try solve [pos_]|]).
  all: fin.
Qed.
Lemma j_cabin  E : sane_inputs CabinWeight_BWB E -> jac_correct 1 CabinWeight_BWB E.
Proof.
  intros *; wcomp CabinWeight_BWB; (eapply D_eq; [der; try solve [pos_]|]).
  all: fin.
Qed.
Lemma j_aftbody  E : sane_inputs AftbodyWeight_BWB E -> jac_correct 1 AftbodyWeight_BWB E.
Proof.
  intros *; wcomp AftbodyWeight_BWB; (eapply D_eq; [der; try solve [pos_]|]).
  all: fin.
Qed.
Lemma j_wing n f E : 0 < n -> 0 < f -> sane_inputs (WingWeight_JetTransport n f) E -> jac_correct 1 (WingWeight_JetTransport n f) E.
Proof.
  intros *; intro; intro; wcomp WingWeight_JetTransport; (eapply D_eq; [der; try solve [pos_]|]).
  all: try fin.
  all: fin2.
Qed.
Lemma j_volume f E : jac_correct 1 (cabin_volume f) E.
Proof.
  apply cs_jac; [lia|]. intros i o ko g Hi Ho x kx Hx. cbv zeta. apply assoc_In in Ho. cbn [In] in Ho. destruct Ho as [Ho|[]]. injection Ho as <- <- <-.
  apply assoc_In in Hx. cbn [In] in Hx. set (e := node _ E i). clearbody e. unfold upd.
  destruct Hx as [Hx|[Hx|[]]]; injection Hx as <- <-; cbn [String.eqb Ascii.eqb Bool.eqb]; exd; first [apply ex_derive_id | lra].
Qed.

(** ** Adders and multipliers on scalars *)
Lemma fun_adder1 name s pin pout : (forall I, exists v, add_compute s I 0 = Ok v) -> functional (adder 1 name s pin pout).
Proof.
  intro K. exists (fun I _ i => match add_compute s I i with Ok v => v | _ => 0 end). split.
  - intros I I' o i _ H. now rewrite (add_sum_ext s I I').
  - intros I O H i Hi. assert (i = 0)%nat as -> by lia. cbn [adder gs_outs] in H. rewrite (H (as_out s) 0%nat) by now left. destruct (K I) as [v E]. now rewrite E.
Qed.
Lemma fun_scale name a b o u pin pout : functional (multiplier 1 name
  {| ms_out := o; ms_ins := [a; b]; ms_vec := VInt 1; ms_len := 1; ms_sf := 1; ms_div := None; ms_units := Some u |} pin pout) \/ List.length u <> 2%nat.
Proof.
  destruct (Nat.eq_dec (List.length u) 2) as [L|]; [left|now right].
  destruct u as [|u1 [|u2 [|]]]; try discriminate L.
  exists (fun I _ _ => I a 0%nat * I b 0%nat). split.
  - intros I I' x i _ H. cbn [multiplier gs_ins ms_ins] in H. now rewrite !H by (cbn; auto).
  - intros I O H i Hi. assert (i = 0)%nat as -> by lia. 
    cbn [multiplier gs_outs ms_out] in H. cbn [multiplier ms_out]. rewrite (H o 0%nat) by now left. transitivity (Ok (1 * I a 0%nat * I b 0%nat * 1)); [reflexivity|]. f_equal. ring.
Qed.

(** ** Turboprop and series hybrid *)
Section GA.
Variables (total : add_sys) (V : env).
Let G := {| g_subs := ga_subs total; g_conns := [] |}.
Hypothesis S : solution G V.
Let v x := V x 0%nat.
Hypothesis (HF : 0 < v Wfuel) (HP : 0 < v "P_TO").
Lemma ga_values :
  v "W_wing" = ga_wing (v wS) (v Wfuel) (v wAR) (v wsweep) (v qcr) (v wtaper) (v wtc) (57/10) (v MTOW) /\
  v "W_empennage" = ga_empennage (57/10) (v vS) (v hS) /\
  v "W_fuselage" = ga_fuselage (v fS) (57/10) (v MTOW) (v harm) (v fL) (v fH) (v qcr) + ga_pressurization (PI * ((v fW + v fH) / 2) * (8/10 * v fL)) 8 /\
  v "W_nacelle" = ga_nacelle (v "P_TO") /\
  v "W_gear" = ga_gear (57/10) (v MLW) (v mgL) (v ngL) /\
  v "W_fuelsystem" = ga_fuel_system (v Wfuel / (655/100)) (v Wfuel / (655/100)) 1 1 /\
  v "W_equipment" = ga_equipment (v MTOW) (v npax) (v "W_fuelsystem") (v fL) (sqrt (v wS * v wAR)) /\
  v "W_structure" = v "W_wing" + v "W_fuselage" + v "W_nacelle" + v "W_empennage" + v "W_gear" /\
  v "W_structure_adjusted" = 16/10 * v "W_structure" /\
  v "W_fluids" = 20 / pound.
Proof.
  assert (N : n_ult_ga = 57/10) by (unfold n_ult_ga; lra).
  pose proof (star_comp G V 1 "wing" _ "W_wing" Sca _ 0 eq_refl S ltac:(nth_sub 1%nat) eq_refl Nat.lt_0_1) as H1.
  pose proof (star_comp G V 1 "empennage" _ "W_empennage" Sca _ 0 eq_refl S ltac:(nth_sub 2%nat) eq_refl Nat.lt_0_1) as H2.
  pose proof (star_comp G V 1 "fuselage" _ "W_fuselage" Sca _ 0 eq_refl S ltac:(nth_sub 3%nat) eq_refl Nat.lt_0_1) as H3.
  pose proof (star_comp G V 1 "nacelle" _ "W_nacelle" Sca _ 0 eq_refl S ltac:(nth_sub 4%nat) eq_refl Nat.lt_0_1) as H4.
  pose proof (star_comp G V 1 "gear" _ "W_gear" Sca _ 0 eq_refl S ltac:(nth_sub 5%nat) eq_refl Nat.lt_0_1) as H5.
  pose proof (star_comp G V 1 "fuelsystem" _ "W_fuelsystem" Sca _ 0 eq_refl S ltac:(nth_sub 6%nat) eq_refl Nat.lt_0_1) as H6.
  pose proof (star_comp G V 1 "equipment" _ "W_equipment" Sca _ 0 eq_refl S ltac:(nth_sub 7%nat) eq_refl Nat.lt_0_1) as H7.
  pose proof (star_rel_env G V (adder 1 "structural" ga_structure [P "*"] [P "*"]) eq_refl eq_refl eq_refl S ltac:(nth_sub 8%nat) 0%nat Nat.lt_0_1) as H8.
  pose proof (star_rel_env G V (multiplier 1 "structural_fudge" ga_fudge [P "*"] [P "*"]) eq_refl eq_refl eq_refl S ltac:(nth_sub 9%nat) 0%nat Nat.lt_0_1) as H9.
  pose proof (S ga_const ltac:(nth_sub 0%nat)) as H0. destruct H0 as [H01 H02].
  change (V "W_fluids" 0%nat = 20 / pound) in H01. change (V "structural_fudge" 0%nat = 16/10) in H02.
  change (Ok (0 + V "W_wing" 0%nat * 1 + V "W_fuselage" 0%nat * 1 + V "W_nacelle" 0%nat * 1 + V "W_empennage" 0%nat * 1 + V "W_gear" 0%nat * 1) = Ok (V "W_structure" 0%nat)) in H8.
  change (Ok (1 * V "W_structure" 0%nat * V "structural_fudge" 0%nat * 1) = Ok (V "W_structure_adjusted" 0%nat)) in H9.
  injection H8 as H8. injection H9 as H9. rewrite H02 in H9. cbv beta in H1, H2, H3, H4, H5, H6, H7. rewrite N in *.
  repeat match goal with |- _ /\ _ => split end.
  - exact H1.
  - exact H2.
  - etransitivity; [exact H3|]. unfold ga_fuselage, ga_pressurization. f_equal. f_equal. f_equal.
    change (PI * (v fW + v fH) / 2 * v fL * (8/10) * 8 = PI * ((v fW + v fH) / 2) * (8/10 * v fL) * 8). field.
  - etransitivity; [exact H4|]. unfold ga_nacelle. f_equal. rewrite <- Rpower_sqrt by exact HP.
    change (Rpower (v "P_TO") (5/10) = Rpower (v "P_TO") (/ 2)). f_equal. lra.
  - exact H5.
  - etransitivity; [exact H6|]. unfold ga_fuel_system.
    change (249/100 * Rpower (v Wfuel * 1 / default_Kfsp) (726/1000) * Rpower (5/10) (363/1000) =
      249/100 * Rpower (v Wfuel / (655/100)) (726/1000) * Rpower (1 / (1 + v Wfuel / (655/100) / (v Wfuel / (655/100)))) (363/1000) * Rpower 1 (242/1000) * Rpower 1 (157/1000)).
    replace (1 / (1 + v Wfuel / (655/100) / (v Wfuel / (655/100)))) with (5/10) by (field; lra).
    unfold default_Kfsp. replace (v Wfuel * 1 / (655/100)) with (v Wfuel / (655/100)) by field.
    unfold Rpower at 5 6. rewrite ln_1, !Rmult_0_r, exp_0. ring.
  - etransitivity; [exact H7|]. unfold ga_equipment. fold Wavionics.
    change (23/100 * Rpower (v MTOW) (666/1000) + 1257/100 * Rpower (v "W_fuelsystem" + Wavionics) (51/100) + Wavionics
      + 265/1000 * Rpower (v MTOW) (52/100) * Rpower (v npax) (68/100) * Rpower Wavionics (17/100) * (95/100) + (30 + 12/10 * v npax)
      + 412/1000 * Rpower (v npax) (1145/1000) * Rpower (v MTOW) (489/1000) + 3/1000 * v MTOW + 2673/10000 * 1 * Rpower (v fL * sqrt (v wS * v wAR)) (937/1000) =
      23/100 * Rpower (v MTOW) (666/1000) + Wavionics + 1257/100 * Rpower (v "W_fuelsystem" + Wavionics) (51/100)
      + 95/100 * (265/1000 * Rpower (v MTOW) (52/100) * Rpower (v npax) (68/100) * Rpower Wavionics (17/100)) + (30 + 12/10 * v npax)
      + 412/1000 * Rpower (v npax) (1145/1000) * Rpower (v MTOW) (489/1000) + 3/1000 * v MTOW + 2673/10000 * Rpower (v fL * sqrt (v wS * v wAR)) (937/1000)). ring.
  - unfold v. rewrite <- H8. ring.
  - unfold v. rewrite <- H9. ring.
  - exact H01.
Qed.
End GA.
(** ** Jet transports and blended wing bodies *)
Section jet.
Variables (o : jet_options) (V : env).
Let G := JetTransportEmptyWeight o.
Hypothesis S : solution G V.
Let v x := V x 0%nat.
Hypothesis (Hn : 0 < n_ult o) (HM : 0 < v MTOW) (HT : 0 < v rating).
Lemma jet_W_wing : v "W_wing" = raymer_wing (v MTOW) (n_ult o) (v wS) (v wAR) (v wtc) (v wtaper) (v wsweep) (control_surface_area_frac o * v wS).
Proof.
  pose proof (sol_comp G V 1 "wing" _ _ _ "W_wing" Sca _ 0 S ltac:(nth_sub 0%nat) eq_refl Nat.lt_0_1) as H.
  etransitivity; [exact H|clear H]. reflexivity.
Qed.
Lemma jet_W_vstab : v "W_vstab" = raymer_vstab (if T_tail o then 1 else 0) (v MTOW) (n_ult o) (v varm) (v vS) (v vsweep) (v vAR) (v vtc).
Proof.
  pose proof (sol_comp G V 1 "vstab" _ _ _ "W_vstab" Sca _ 0 S ltac:(nth_sub 2%nat) eq_refl Nat.lt_0_1) as H.
  etransitivity; [exact H|clear H]. unfold raymer_vstab. change (26/10000 * Rpower (1 + (if T_tail o then 1 else 0)) (225/1000) * Rpower (v MTOW) (556/1000) * Rpower (n_ult o) (536/1000) * Rpower (v varm) (-5/10 + 875/1000) * Rpower (v vS) (5/10)
    * / cos (v vsweep) * Rpower (v vAR) (35/100) * Rpower (v vtc) (-5/10) = 26/10000 * Rpower (1 + (if T_tail o then 1 else 0)) (225/1000) * Rpower (v MTOW) (556/1000) * Rpower (n_ult o) (536/1000) * Rpower (v varm) (-5/10) * Rpower (v vS) (5/10)
    * Rpower (v varm) (875/1000) / cos (v vsweep) * Rpower (v vAR) (35/100) * Rpower (v vtc) (-5/10)). rewrite Rpower_plus. unfold Rdiv. ring.
Qed.
Lemma jet_W_mlg : v "W_mlg" = raymer_main_gear (kneeling_main o) (v MLW) (n_land_ult o) (v mgL) (v mgW) (v mgS) (v Vstall).
Proof.
  pose proof (sol_comp G V 1 "main_gear" _ _ _ "W_mlg" Sca _ 0 S ltac:(nth_sub 4%nat) eq_refl Nat.lt_0_1) as H.
  etransitivity; [exact H|clear H]. reflexivity.
Qed.
Lemma jet_W_nlg : v "W_nlg" = raymer_nose_gear (kneeling_nose o) (v MLW) (n_land_ult o) (v ngL) (v ngW).
Proof.
  pose proof (sol_comp G V 1 "nose_gear" _ _ _ "W_nlg" Sca _ 0 S ltac:(nth_sub 5%nat) eq_refl Nat.lt_0_1) as H.
  etransitivity; [exact H|clear H]. reflexivity.
Qed.
Lemma jet_engine : v "single_engine.W_engine" = flops_engine (v rating).
Proof. exact (sol_comp G V 1 "single_engine" _ _ _ "W_engine" Sca _ 0 S ltac:(nth_sub 6%nat) eq_refl Nat.lt_0_1). Qed.
Lemma jet_W_engines : v "W_engines" = flops_engine (v rating) * v neng.
Proof.
  pose proof (sol_rel G V (multiplier 1 "engine_multiplier" engine_multiplier [P neng] [P "W_engines"]) S ltac:(nth_sub 7%nat) 0%nat Nat.lt_0_1) as H.
  change (Ok (1 * V "single_engine.W_engine" 0%nat * V neng 0%nat * 1) = Ok (V "W_engines" 0%nat)) in H. injection H as H.
  rewrite <- jet_engine. unfold v. rewrite <- H. ring.
Qed.
Lemma jet_W_thrust_rev : v "W_thrust_rev" = flops_reversers (v rating) (v neng).
Proof.
  pose proof (sol_comp G V 1 "engine_systems" _ _ _ "W_thrust_rev" Sca _ 0 S ltac:(nth_sub 8%nat) eq_refl Nat.lt_0_1) as H.
  etransitivity; [exact H|clear H]. reflexivity.
Qed.
Lemma jet_W_eng_control : v "W_eng_control" = flops_controls (v rating) (v neng).
Proof.
  pose proof (sol_comp G V 1 "engine_systems" _ _ _ "W_eng_control" Sca _ 0 S ltac:(nth_sub 8%nat) eq_refl Nat.lt_0_1) as H.
  etransitivity; [exact H|clear H]. unfold flops_controls. rewrite <- Rpower_sqrt by exact HT. replace (/ 2) with (5/10) by lra. reflexivity.
Qed.
Lemma jet_W_fuelsystem : v "W_fuelsystem" = flops_fuel_system (v Wfuel) (v neng) (v Mmax).
Proof.
  pose proof (sol_comp G V 1 "engine_systems" _ _ _ "W_fuelsystem" Sca _ 0 S ltac:(nth_sub 8%nat) eq_refl Nat.lt_0_1) as H.
  etransitivity; [exact H|clear H]. reflexivity.
Qed.
Lemma jet_W_eng_start : v "W_eng_start" = roskam_starters (v "single_engine.W_engine") (v neng).
Proof.
  pose proof (sol_comp G V 1 "engine_systems" _ _ _ "W_eng_start" Sca _ 0 S ltac:(nth_sub 8%nat) eq_refl Nat.lt_0_1) as H.
  etransitivity; [exact H|clear H]. unfold roskam_starters. change (933/100 * Rpower (v "single_engine.W_engine" / 1000) (1078/1000) * v neng = 933/100 * v neng * Rpower (v "single_engine.W_engine" / 1000) (1078/1000)). ring.
Qed.
Lemma jet_W_nacelle : v "W_nacelle" = roskam_nacelles (v rating) (v neng).
Proof.
  pose proof (sol_comp G V 1 "nacelles" _ _ _ "W_nacelle" Sca _ 0 S ltac:(nth_sub 9%nat) eq_refl Nat.lt_0_1) as H.
  etransitivity; [exact H|clear H]. apply Rmult_assoc.
Qed.
Lemma jet_W_furnishings : v "W_furnishings" = roskam_furnishings (v ndeck) (v npax) (v ncabin) (K_lav o) (K_buf o) (v pcabin) (v MTOW).
Proof.
  pose proof (sol_comp G V 1 "furnishings" _ _ _ "W_furnishings" Sca _ 0 S ltac:(nth_sub 10%nat) eq_refl Nat.lt_0_1) as H.
  etransitivity; [exact H|clear H]. reflexivity.
Qed.
Lemma jet_W_flight_controls : v "W_flight_controls" = roskam_flight_controls (coeff_fc o) (v MTOW).
Proof.
  pose proof (sol_comp G V 1 "equipment" _ _ _ "W_flight_controls" Sca _ 0 S ltac:(nth_sub 12%nat) eq_refl Nat.lt_0_1) as H.
  etransitivity; [exact H|clear H]. reflexivity.
Qed.
Lemma jet_W_avionics : v "W_avionics" = coeff_avionics o * roskam_avionics (v ndeck) (v neng) (v MTOW).
Proof.
  pose proof (sol_comp G V 1 "equipment" _ _ _ "W_avionics" Sca _ 0 S ltac:(nth_sub 12%nat) eq_refl Nat.lt_0_1) as H.
  etransitivity; [exact H|clear H]. change (coeff_avionics o * (v ndeck * (15 + 32/1000000 * v MTOW) + v neng * (5 + 6/1000000 * v MTOW) + (15/100000 + 12/1000) * v MTOW) = coeff_avionics o * roskam_avionics (v ndeck) (v neng) (v MTOW)). unfold roskam_avionics. field.
Qed.
Lemma jet_W_electrical : v "W_electrical" = roskam_electrical (v "W_fuelsystem") (v "W_avionics").
Proof.
  pose proof (sol_comp G V 1 "equipment" _ _ _ "W_electrical" Sca _ 0 S ltac:(nth_sub 12%nat) eq_refl Nat.lt_0_1) as H.
  etransitivity; [exact H|clear H]. change (1163 * Rpower (1/1000 * (v "W_fuelsystem" + coeff_avionics o * (v ndeck * (15 + 32/1000000 * v MTOW) + v neng * (5 + 6/1000000 * v MTOW) + (15/100000 + 12/1000) * v MTOW))) (506/1000) = roskam_electrical (v "W_fuelsystem") (v "W_avionics")).
  rewrite jet_W_avionics. unfold roskam_electrical, roskam_avionics. f_equal. f_equal. field.
Qed.
Lemma jet_W_ac_pressurize_antiice : v "W_ac_pressurize_antiice" = roskam_pressurization (V "cabin_volume.V_pressurized" 0%nat) (v ndeck + v ncabin + v npax).
Proof.
  pose proof (sol_comp G V 1 "equipment" _ _ _ "W_ac_pressurize_antiice" Sca _ 0 S ltac:(nth_sub 12%nat) eq_refl Nat.lt_0_1) as H.
  etransitivity; [exact H|clear H]. unfold roskam_pressurization. change (469 * Rpower (1/10000 * V "cabin_volume.V_pressurized" 0%nat * (v ndeck + v ncabin + v npax)) (419/1000) = 469 * Rpower (V "cabin_volume.V_pressurized" 0%nat * (v ndeck + v ncabin + v npax) / 10000) (419/1000)). f_equal. f_equal. field.
Qed.
Lemma jet_W_oxygen : v "W_oxygen" = roskam_oxygen (v ndeck + v ncabin + v npax).
Proof.
  pose proof (sol_comp G V 1 "equipment" _ _ _ "W_oxygen" Sca _ 0 S ltac:(nth_sub 12%nat) eq_refl Nat.lt_0_1) as H.
  etransitivity; [exact H|clear H]. reflexivity.
Qed.
Lemma jet_W_APU : v "W_APU" = APU_weight_frac o * v MTOW.
Proof.
  pose proof (sol_comp G V 1 "equipment" _ _ _ "W_APU" Sca _ 0 S ltac:(nth_sub 12%nat) eq_refl Nat.lt_0_1) as H.
  etransitivity; [exact H|clear H]. reflexivity.
Qed.
Lemma jet_W_structure : v "W_structure" = structural_fudge o * (wing_weight_multiplier o * v "W_wing" + v "W_hstab" + v "W_vstab" + v "W_fuselage" + v "W_mlg" + v "W_nlg" + v "W_nacelle").
Proof.
  pose proof (sol_rel G V (adder 1 "structural_adjustment" (jet_structure o ["W_hstab"; "W_vstab"; "W_fuselage"; "W_mlg"; "W_nlg"; "W_nacelle"]) [P "*"] [P "W_structure"]) S ltac:(nth_sub 13%nat) 0%nat Nat.lt_0_1) as H.
  change (Ok (0 + V "W_wing" 0%nat * (structural_fudge o * wing_weight_multiplier o) + V "W_hstab" 0%nat * structural_fudge o + V "W_vstab" 0%nat * structural_fudge o + V "W_fuselage" 0%nat * structural_fudge o + V "W_mlg" 0%nat * structural_fudge o + V "W_nlg" 0%nat * structural_fudge o + V "W_nacelle" 0%nat * structural_fudge o) = Ok (V "W_structure" 0%nat)) in H. injection H as H. unfold v. rewrite <- H. ring.
Qed.
Lemma jet_OEW : v "OEW" = total_fudge o * (v "W_structure" + v "W_engines" + v "W_thrust_rev" + v "W_eng_control" + v "W_fuelsystem" + v "W_eng_start" + v "W_furnishings" + v "W_flight_controls" + v "W_avionics" + v "W_electrical" + v "W_ac_pressurize_antiice" + v "W_oxygen" + v "W_APU").
Proof.
  pose proof (sol_rel G V (adder 1 "sum_weights" (jet_total o) [P "*"] [P "OEW"]) S ltac:(nth_sub 14%nat) 0%nat Nat.lt_0_1) as H.
  change (Ok (0 + V "W_structure" 0%nat * total_fudge o + V "W_engines" 0%nat * total_fudge o + V "W_thrust_rev" 0%nat * total_fudge o + V "W_eng_control" 0%nat * total_fudge o + V "W_fuelsystem" 0%nat * total_fudge o + V "W_eng_start" 0%nat * total_fudge o + V "W_furnishings" 0%nat * total_fudge o + V "W_flight_controls" 0%nat * total_fudge o + V "W_avionics" 0%nat * total_fudge o + V "W_electrical" 0%nat * total_fudge o + V "W_ac_pressurize_antiice" 0%nat * total_fudge o + V "W_oxygen" 0%nat * total_fudge o + V "W_APU" 0%nat * total_fudge o) = Ok (V "OEW" 0%nat)) in H. injection H as H. unfold v. rewrite <- H. ring.
Qed.
Lemma jet_volume : v "cabin_volume.V_pressurized" = PI / 4 * v fH ^ 2 * (cabin_length_frac o * v fL).
Proof.
  pose proof (sol_comp G V 1 "cabin_volume" _ _ _ "V_pressurized" Sca _ 0 S ltac:(nth_sub 11%nat) eq_refl Nat.lt_0_1) as H.
  etransitivity; [exact H|clear H]. change (PI * (25/100) * v fH * v fH * v fL * cabin_length_frac o = PI / 4 * v fH ^ 2 * (cabin_length_frac o * v fL)). field.
Qed.
Lemma jet_W_hstab : v "W_hstab" = raymer_hstab (K_uht o) (fuselage_width_frac o * v fH) (sqrt (v hS * v hAR)) (v MTOW) (n_ult o) (v hS) (v harm) (v hsweep) (v hAR) (elevator_area_frac o).
Proof.
  destruct (sol_nested G V "hstab" (jet_hstab o) _ _ _ _ S ltac:(nth_sub 1%nat)) as [W [SW [HI HO]]].
  pose proof (sol_comp (jet_hstab o) W 1 "hstab_const" _ _ _ "HstabConst" Sca _ 0 SW ltac:(nth_sub 0%nat) eq_refl Nat.lt_0_1) as A.
  pose proof (sol_comp (jet_hstab o) W 1 "hstab_calc" _ _ _ "W_hstab" Sca _ 0 SW ltac:(nth_sub 1%nat) eq_refl Nat.lt_0_1) as B.
  change (W "hstab_const.HstabConst" 0%nat = 1 + W fH 0%nat * fuselage_width_frac o / sqrt (W hS 0%nat * W hAR 0%nat)) in A.
  change (W "W_hstab" 0%nat = 379/10000 * K_uht o * Rpower (W "hstab_const.HstabConst" 0%nat) (-25/100) * Rpower (W MTOW 0%nat) (639/1000) * Rpower (n_ult o) (10/100) * Rpower (W hS 0%nat) (75/100)
    * Rpower (3/10 * W harm 0%nat) (704/1000) * / W harm 0%nat * / cos (W hsweep 0%nat) * Rpower (W hAR 0%nat) (166/1000) * Rpower (1 + elevator_area_frac o) (1/10)) in B.
  rewrite A in B. clear A.
  assert (F : forall x, mem x (free_ins (jet_hstab o)) = true -> W x 0%nat = V (source G (gname "hstab" [P "*"] x)) 0%nat) by (intros x Hx; apply HI; now apply mem_In).
  rewrite (F fH eq_refl), (F hS eq_refl), (F hAR eq_refl), (F MTOW eq_refl), (F harm eq_refl), (F hsweep eq_refl) in B.
  transitivity (W "W_hstab" 0%nat); [symmetry; apply (HO "W_hstab" 0%nat); apply mem_In; reflexivity|].
  etransitivity; [exact B|]. unfold raymer_hstab.
  change (379/10000 * K_uht o * Rpower (1 + v fH * fuselage_width_frac o / sqrt (v hS * v hAR)) (-25/100) * Rpower (v MTOW) (639/1000) * Rpower (n_ult o) (10/100) * Rpower (v hS) (75/100)
    * Rpower (3/10 * v harm) (704/1000) * / v harm * / cos (v hsweep) * Rpower (v hAR) (166/1000) * Rpower (1 + elevator_area_frac o) (1/10) =
    379/10000 * K_uht o * Rpower (1 + fuselage_width_frac o * v fH / sqrt (v hS * v hAR)) (-25/100) * Rpower (v MTOW) (639/1000) * Rpower (n_ult o) (1/10) * Rpower (v hS) (75/100)
    / v harm * Rpower (3/10 * v harm) (704/1000) / cos (v hsweep) * Rpower (v hAR) (166/1000) * Rpower (1 + elevator_area_frac o) (1/10)).
  rewrite (Rmult_comm (v fH)). replace (10/100) with (1/10) by lra. unfold Rdiv. ring.
Qed.
Hypothesis (HwS : 0 < v wS) (HwA : 0 < v wAR) (HfL : 0 < v fL) (HfH : 0 < v fH).
Lemma jet_W_fuselage : v "W_fuselage" = raymer_fuselage (K_door o) (K_lg o) (v MTOW) (n_ult o) (v fL) (v fS) (raymer_kws (v wtaper) (sqrt (v wS * v wAR)) (v wsweep) (v fL)) (v fH).
Proof.
  destruct (sol_nested G V "fuselage" (jet_fuselage o) _ _ _ _ S ltac:(nth_sub 3%nat)) as [W [SW [HI HO]]].
  pose proof (sol_comp (jet_fuselage o) W 1 "K_ws_term" _ _ _ "K_ws" Sca _ 0 SW ltac:(nth_sub 0%nat) eq_refl Nat.lt_0_1) as A.
  pose proof (sol_comp (jet_fuselage o) W 1 "fuselage_calc" _ _ _ "W_fuselage" Sca _ 0 SW ltac:(nth_sub 1%nat) eq_refl Nat.lt_0_1) as B.
  change (W "K_ws_term.K_ws" 0%nat = 75/100 * (1 + 2 * W wtaper 0%nat) / (1 + W wtaper 0%nat) * Rpower (W wS 0%nat) (5/10) * Rpower (W wAR 0%nat) (5/10) * tan (W wsweep 0%nat) * / W fL 0%nat) in A.
  change (W "W_fuselage" 0%nat = 3280/10000 * K_door o * K_lg o * Rpower (W MTOW 0%nat) (5/10) * Rpower (n_ult o) (5/10) * Rpower (W fL 0%nat) (25/100 + 1/10) * Rpower (W fS 0%nat) (302/1000)
    * Rpower (1 + W "K_ws_term.K_ws" 0%nat) (4/100) * Rpower (W fH 0%nat) (-10/100)) in B.
  rewrite A in B. clear A.
  assert (F : forall x, mem x (free_ins (jet_fuselage o)) = true -> W x 0%nat = V (source G (gname "fuselage" [P "*"] x)) 0%nat) by (intros x Hx; apply HI; now apply mem_In).
  rewrite (F wtaper eq_refl), (F wS eq_refl), (F wAR eq_refl), (F wsweep eq_refl), (F fL eq_refl), (F MTOW eq_refl), (F fS eq_refl), (F fH eq_refl) in B.
  transitivity (W "W_fuselage" 0%nat); [symmetry; apply (HO "W_fuselage" 0%nat); apply mem_In; reflexivity|].
  etransitivity; [exact B|]. unfold raymer_fuselage.
  change (3280/10000 * K_door o * K_lg o * Rpower (v MTOW) (5/10) * Rpower (n_ult o) (5/10) * Rpower (v fL) (25/100 + 1/10) * Rpower (v fS) (302/1000)
    * Rpower (1 + 75/100 * (1 + 2 * v wtaper) / (1 + v wtaper) * Rpower (v wS) (5/10) * Rpower (v wAR) (5/10) * tan (v wsweep) * / v fL) (4/100) * Rpower (v fH) (-10/100) =
    328/1000 * K_door o * K_lg o * Rpower (v MTOW * n_ult o) (5/10) * Rpower (v fL) (25/100) * Rpower (v fS) (302/1000)
    * Rpower (1 + raymer_kws (v wtaper) (sqrt (v wS * v wAR)) (v wsweep) (v fL)) (4/100) * Rpower (v fL / v fH) (1/10)).
  rewrite (pow_mul (v MTOW)), (pow_div (v fL)), Rpower_plus by assumption.
  replace (-10/100) with (- (1/10)) by lra. rewrite Rpower_Ropp.
  replace (raymer_kws (v wtaper) (sqrt (v wS * v wAR)) (v wsweep) (v fL)) with (75/100 * (1 + 2 * v wtaper) / (1 + v wtaper) * Rpower (v wS) (5/10) * Rpower (v wAR) (5/10) * tan (v wsweep) * / v fL).
  - unfold Rdiv. field. pos_.
  - unfold raymer_kws. rewrite <- Rpower_sqrt by (now apply Rmult_lt_0_compat). replace (/ 2) with (5/10) by lra. rewrite pow_mul by assumption. unfold Rdiv. ring.
Qed.
End jet.
Section bwb.
Variables (o : jet_options) (V : env).
Let G := BWBEmptyWeight o.
Hypothesis S : solution G V.
Let v x := V x 0%nat.
Hypothesis (Hn : 0 < n_ult o) (HM : 0 < v MTOW) (HT : 0 < v rating).
Lemma bwb_W_cabin : v "W_cabin" = bradley_cabin (v MTOW) (v Scabin).
Proof.
  pose proof (sol_comp G V 1 "cabin" _ _ _ "W_cabin" Sca _ 0 S ltac:(nth_sub 0%nat) eq_refl Nat.lt_0_1) as H.
  etransitivity; [exact H|clear H]. reflexivity.
Qed.
Lemma bwb_W_aftbody : v "W_aftbody" = bradley_aftbody (v neng) (v Saft) (v MTOW) (v taft).
Proof.
  pose proof (sol_comp G V 1 "aftbody" _ _ _ "W_aftbody" Sca _ 0 S ltac:(nth_sub 1%nat) eq_refl Nat.lt_0_1) as H.
  etransitivity; [exact H|clear H]. unfold bradley_aftbody. change (53/100 * (1 + 5/100 * v neng) * v Saft * Rpower (v MTOW) (2/10) * (v taft + 5/10) = 53/100 * (1 + 5/100 * v neng) * v Saft * Rpower (v MTOW) (2/10) * (v taft + 1/2)). f_equal. lra.
Qed.
Lemma bwb_W_wing : v "W_wing" = raymer_wing (v MTOW) (n_ult o) (v wS) (v wAR) (v wtc) (v wtaper) (v wsweep) (control_surface_area_frac o * v wS).
Proof.
  pose proof (sol_comp G V 1 "wing" _ _ _ "W_wing" Sca _ 0 S ltac:(nth_sub 2%nat) eq_refl Nat.lt_0_1) as H.
  etransitivity; [exact H|clear H]. reflexivity.
Qed.
Lemma bwb_W_mlg : v "W_mlg" = raymer_main_gear (kneeling_main o) (v MLW) (n_land_ult o) (v mgL) (v mgW) (v mgS) (v Vstall).
Proof.
  pose proof (sol_comp G V 1 "main_gear" _ _ _ "W_mlg" Sca _ 0 S ltac:(nth_sub 3%nat) eq_refl Nat.lt_0_1) as H.
  etransitivity; [exact H|clear H]. reflexivity.
Qed.
Lemma bwb_W_nlg : v "W_nlg" = raymer_nose_gear (kneeling_nose o) (v MLW) (n_land_ult o) (v ngL) (v ngW).
Proof.
  pose proof (sol_comp G V 1 "nose_gear" _ _ _ "W_nlg" Sca _ 0 S ltac:(nth_sub 4%nat) eq_refl Nat.lt_0_1) as H.
  etransitivity; [exact H|clear H]. reflexivity.
Qed.
Lemma bwb_engine : v "single_engine.W_engine" = flops_engine (v rating).
Proof. exact (sol_comp G V 1 "single_engine" _ _ _ "W_engine" Sca _ 0 S ltac:(nth_sub 5%nat) eq_refl Nat.lt_0_1). Qed.
Lemma bwb_W_engines : v "W_engines" = flops_engine (v rating) * v neng.
Proof.
  pose proof (sol_rel G V (multiplier 1 "engine_multiplier" engine_multiplier [P neng] [P "W_engines"]) S ltac:(nth_sub 6%nat) 0%nat Nat.lt_0_1) as H.
  change (Ok (1 * V "single_engine.W_engine" 0%nat * V neng 0%nat * 1) = Ok (V "W_engines" 0%nat)) in H. injection H as H.
  rewrite <- bwb_engine. unfold v. rewrite <- H. ring.
Qed.
Lemma bwb_W_thrust_rev : v "W_thrust_rev" = flops_reversers (v rating) (v neng).
Proof.
  pose proof (sol_comp G V 1 "engine_systems" _ _ _ "W_thrust_rev" Sca _ 0 S ltac:(nth_sub 7%nat) eq_refl Nat.lt_0_1) as H.
  etransitivity; [exact H|clear H]. reflexivity.
Qed.
Lemma bwb_W_eng_control : v "W_eng_control" = flops_controls (v rating) (v neng).
Proof.
  pose proof (sol_comp G V 1 "engine_systems" _ _ _ "W_eng_control" Sca _ 0 S ltac:(nth_sub 7%nat) eq_refl Nat.lt_0_1) as H.
  etransitivity; [exact H|clear H]. unfold flops_controls. rewrite <- Rpower_sqrt by exact HT. replace (/ 2) with (5/10) by lra. reflexivity.
Qed.
Lemma bwb_W_fuelsystem : v "W_fuelsystem" = flops_fuel_system (v Wfuel) (v neng) (v Mmax).
Proof.
  pose proof (sol_comp G V 1 "engine_systems" _ _ _ "W_fuelsystem" Sca _ 0 S ltac:(nth_sub 7%nat) eq_refl Nat.lt_0_1) as H.
  etransitivity; [exact H|clear H]. reflexivity.
Qed.
Lemma bwb_W_eng_start : v "W_eng_start" = roskam_starters (v "single_engine.W_engine") (v neng).
Proof.
  pose proof (sol_comp G V 1 "engine_systems" _ _ _ "W_eng_start" Sca _ 0 S ltac:(nth_sub 7%nat) eq_refl Nat.lt_0_1) as H.
  etransitivity; [exact H|clear H]. unfold roskam_starters. change (933/100 * Rpower (v "single_engine.W_engine" / 1000) (1078/1000) * v neng = 933/100 * v neng * Rpower (v "single_engine.W_engine" / 1000) (1078/1000)). ring.
Qed.
Lemma bwb_W_nacelle : v "W_nacelle" = roskam_nacelles (v rating) (v neng).
Proof.
  pose proof (sol_comp G V 1 "nacelles" _ _ _ "W_nacelle" Sca _ 0 S ltac:(nth_sub 8%nat) eq_refl Nat.lt_0_1) as H.
  etransitivity; [exact H|clear H]. apply Rmult_assoc.
Qed.
Lemma bwb_W_furnishings : v "W_furnishings" = roskam_furnishings (v ndeck) (v npax) (v ncabin) (K_lav o) (K_buf o) (v pcabin) (v MTOW).
Proof.
  pose proof (sol_comp G V 1 "furnishings" _ _ _ "W_furnishings" Sca _ 0 S ltac:(nth_sub 9%nat) eq_refl Nat.lt_0_1) as H.
  etransitivity; [exact H|clear H]. reflexivity.
Qed.
Lemma bwb_W_flight_controls : v "W_flight_controls" = roskam_flight_controls (coeff_fc o) (v MTOW).
Proof.
  pose proof (sol_comp G V 1 "equipment" _ _ _ "W_flight_controls" Sca _ 0 S ltac:(nth_sub 10%nat) eq_refl Nat.lt_0_1) as H.
  etransitivity; [exact H|clear H]. reflexivity.
Qed.
Lemma bwb_W_avionics : v "W_avionics" = coeff_avionics o * roskam_avionics (v ndeck) (v neng) (v MTOW).
Proof.
  pose proof (sol_comp G V 1 "equipment" _ _ _ "W_avionics" Sca _ 0 S ltac:(nth_sub 10%nat) eq_refl Nat.lt_0_1) as H.
  etransitivity; [exact H|clear H]. change (coeff_avionics o * (v ndeck * (15 + 32/1000000 * v MTOW) + v neng * (5 + 6/1000000 * v MTOW) + (15/100000 + 12/1000) * v MTOW) = coeff_avionics o * roskam_avionics (v ndeck) (v neng) (v MTOW)). unfold roskam_avionics. field.
Qed.
Lemma bwb_W_electrical : v "W_electrical" = roskam_electrical (v "W_fuelsystem") (v "W_avionics").
Proof.
  pose proof (sol_comp G V 1 "equipment" _ _ _ "W_electrical" Sca _ 0 S ltac:(nth_sub 10%nat) eq_refl Nat.lt_0_1) as H.
  etransitivity; [exact H|clear H]. change (1163 * Rpower (1/1000 * (v "W_fuelsystem" + coeff_avionics o * (v ndeck * (15 + 32/1000000 * v MTOW) + v neng * (5 + 6/1000000 * v MTOW) + (15/100000 + 12/1000) * v MTOW))) (506/1000) = roskam_electrical (v "W_fuelsystem") (v "W_avionics")).
  rewrite bwb_W_avionics. unfold roskam_electrical, roskam_avionics. f_equal. f_equal. field.
Qed.
Lemma bwb_W_ac_pressurize_antiice : v "W_ac_pressurize_antiice" = roskam_pressurization (v Vpr) (v ndeck + v ncabin + v npax).
Proof.
  pose proof (sol_comp G V 1 "equipment" _ _ _ "W_ac_pressurize_antiice" Sca _ 0 S ltac:(nth_sub 10%nat) eq_refl Nat.lt_0_1) as H.
  etransitivity; [exact H|clear H]. unfold roskam_pressurization. change (469 * Rpower (1/10000 * v Vpr * (v ndeck + v ncabin + v npax)) (419/1000) = 469 * Rpower (v Vpr * (v ndeck + v ncabin + v npax) / 10000) (419/1000)). f_equal. f_equal. field.
Qed.
Lemma bwb_W_oxygen : v "W_oxygen" = roskam_oxygen (v ndeck + v ncabin + v npax).
Proof.
  pose proof (sol_comp G V 1 "equipment" _ _ _ "W_oxygen" Sca _ 0 S ltac:(nth_sub 10%nat) eq_refl Nat.lt_0_1) as H.
  etransitivity; [exact H|clear H]. reflexivity.
Qed.
Lemma bwb_W_APU : v "W_APU" = APU_weight_frac o * v MTOW.
Proof.
  pose proof (sol_comp G V 1 "equipment" _ _ _ "W_APU" Sca _ 0 S ltac:(nth_sub 10%nat) eq_refl Nat.lt_0_1) as H.
  etransitivity; [exact H|clear H]. reflexivity.
Qed.
Lemma bwb_W_structure : v "W_structure" = structural_fudge o * (wing_weight_multiplier o * v "W_wing" + v "W_cabin" + v "W_aftbody" + v "W_mlg" + v "W_nlg" + v "W_nacelle").
Proof.
  pose proof (sol_rel G V (adder 1 "structural_adjustment" (jet_structure o ["W_cabin"; "W_aftbody"; "W_mlg"; "W_nlg"; "W_nacelle"]) [P "*"] [P "W_structure"]) S ltac:(nth_sub 11%nat) 0%nat Nat.lt_0_1) as H.
  change (Ok (0 + V "W_wing" 0%nat * (structural_fudge o * wing_weight_multiplier o) + V "W_cabin" 0%nat * structural_fudge o + V "W_aftbody" 0%nat * structural_fudge o + V "W_mlg" 0%nat * structural_fudge o + V "W_nlg" 0%nat * structural_fudge o + V "W_nacelle" 0%nat * structural_fudge o) = Ok (V "W_structure" 0%nat)) in H. injection H as H. unfold v. rewrite <- H. ring.
Qed.
Lemma bwb_OEW : v "OEW" = total_fudge o * (v "W_structure" + v "W_engines" + v "W_thrust_rev" + v "W_eng_control" + v "W_fuelsystem" + v "W_eng_start" + v "W_furnishings" + v "W_flight_controls" + v "W_avionics" + v "W_electrical" + v "W_ac_pressurize_antiice" + v "W_oxygen" + v "W_APU").
Proof.
  pose proof (sol_rel G V (adder 1 "sum_weights" (jet_total o) [P "*"] [P "OEW"]) S ltac:(nth_sub 12%nat) 0%nat Nat.lt_0_1) as H.
  change (Ok (0 + V "W_structure" 0%nat * total_fudge o + V "W_engines" 0%nat * total_fudge o + V "W_thrust_rev" 0%nat * total_fudge o + V "W_eng_control" 0%nat * total_fudge o + V "W_fuelsystem" 0%nat * total_fudge o + V "W_eng_start" 0%nat * total_fudge o + V "W_furnishings" 0%nat * total_fudge o + V "W_flight_controls" 0%nat * total_fudge o + V "W_avionics" 0%nat * total_fudge o + V "W_electrical" 0%nat * total_fudge o + V "W_ac_pressurize_antiice" 0%nat * total_fudge o + V "W_oxygen" 0%nat * total_fudge o + V "W_APU" 0%nat * total_fudge o) = Ok (V "OEW" 0%nat)) in H. injection H as H. unfold v. rewrite <- H. ring.
Qed.
End bwb.
