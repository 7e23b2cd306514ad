(** Lemmas about the heat pipe. *)
From Coq Require Import Reals Lra Lia List String PeanoNat Bool Ascii.
From Coquelicot Require Import Coquelicot.
From Verif Require Import Base Py Model_Net Model_Algebra Model_Vectors Model_Thermal Model_HX Model_Ducts Model_Phases Model_HeatPipe Spec_HeatPipe
  Proofs_Net Proofs_Cs Proofs_Thermal Proofs_HX Proofs_HXJac Proofs_Ducts.
Import ListNotations.
Open Scope R_scope.
Open Scope string_scope.

(** ** Conduction *)
Lemma conducts_drop k L q a b T : 0 < a -> a <= b -> k <> 0 -> L <> 0 -> conducts k L q a b T ->
  T a - T b = q * radial b a L k.
Proof.
  intros Ha Hab Hk HL H. unfold radial. pose proof PI_RGT_0.
  destruct (Req_dec a b) as [<-|N].
  { unfold Rdiv at 2. rewrite Rinv_r, ln_1 by lra. unfold Rdiv. ring. }
  set (g := fun r => - q / (k * (2 * PI * L)) * ln r).
  assert (D : forall r, a <= r <= b -> is_derive (fun r => T r - g r) r 0).
  { intros r Hr. specialize (H r Hr).
    assert (G : is_derive g r (- q / (k * (2 * PI * L)) * / r)).
    { unfold g. auto_derive; [lra|]. field. repeat split; lra. }
    pose proof (is_derive_minus T g r _ _ H G) as M.
    replace 0 with (minus (- q / (k * (2 * PI * r * L))) (- q / (k * (2 * PI * L)) * / r)).
    - exact M.
    - unfold minus, plus, opp; cbn. field. repeat split; lra. }
  destruct (MVT_cor2 (fun r => T r - g r) (fun _ => 0) a b ltac:(lra)) as [c [E _]].
  - intros r Hr. apply is_derive_Reals. now apply D.
  - cbv beta in E. unfold g in E. rewrite ln_div by lra.
    transitivity (- q / (k * (2 * PI * L)) * ln a - - q / (k * (2 * PI * L)) * ln b); [lra|field; repeat split; lra].
Qed.
(** A profile exists, from any temperature at the inner radius. *)
Lemma conducts_exists k L q a b (T0 : R) : 0 < a -> k <> 0 -> L <> 0 -> exists T, conducts k L q a b T /\ T a = T0.
Proof.
  intros Ha Hk HL. pose proof PI_RGT_0. exists (fun r => T0 + - q / (k * (2 * PI * L)) * (ln r - ln a)). split.
  - intros r Hr. auto_derive; [lra|]. field. repeat split; lra.
  - ring.
Qed.

(** ** Groups *)
Section Facts.
Variables (A : ammonia) (nn : nat).
Lemma qmax_facts theta sy FOS rho W i : solution (QMaxHeatPipe A nn theta sy FOS rho) W -> (i < nn)%nat ->
  let p := am_pressure A (W "design_temp" 0%nat) / 1000 in let d := W "inner_diam" 0%nat in
  W "q_max" i = flooding theta latent_ammonia st_base_ammonia st_incr_ammonia d (W "temp" i) (am_liquid A (W "temp" i)) (am_vapor A (W "temp" i)) /\
  W "heat_pipe_weight" 0%nat = W "length" 0%nat * PI * d ^ 2 * p * FOS * rho / sy /\
  W "wall_thickness" 0%nat = p * d * FOS / sy.
Proof.
  intros S Hi p d. set (G := QMaxHeatPipe A nn theta sy FOS rho) in *.
  assert (DP : W "design_pressure" 0%nat = am_pressure A (W "design_temp" 0%nat))
    by exact (sol_comp G W 1 "ammonia_design" (AmmoniaProperties A) [As "temp" "design_temp"] [As "vapor_pressure" "design_pressure"] "vapor_pressure" Vec _ 0%nat S ltac:(cbn; tauto) eq_refl ltac:(cbn; lia)).
  assert (MP : W "design_pressure_MPa" 0%nat = p).
  { pose proof (sol_rel G W (converted "kPa_to_MPa" (/ 1000) "design_pressure" "design_pressure_MPa") S ltac:(cbn; tauto) 0%nat) as K.
    change (W "design_pressure_MPa" 0%nat = W "design_pressure" 0%nat * / 1000) in K. rewrite K, DP. reflexivity. }
  repeat match goal with |- _ /\ _ => split end.
  - pose proof (sol_comp G W nn "ammonia_current" (AmmoniaProperties A) [P "temp"] [P "vapor_pressure"] "rho_liquid" Vec _ i S ltac:(cbn; tauto) eq_refl Hi) as K1.
    pose proof (sol_comp G W nn "ammonia_current" (AmmoniaProperties A) [P "temp"] [P "vapor_pressure"] "rho_vapor" Vec _ i S ltac:(cbn; tauto) eq_refl Hi) as K2.
    change (W "ammonia_current.rho_liquid" i = am_liquid A (W "temp" i)) in K1. change (W "ammonia_current.rho_vapor" i = am_vapor A (W "temp" i)) in K2.
    rewrite <- K1, <- K2.
    exact (sol_comp G W nn "q_max_calc" (QMaxAnalyticalPart theta latent_ammonia st_base_ammonia st_incr_ammonia) [P "inner_diam"; P "temp"] [P "q_max"] "q_max" Vec _ i S ltac:(cbn; tauto) eq_refl Hi).
  - rewrite <- MP.
    exact (sol_comp G W 1 "weight_calc" (HeatPipeWeight sy FOS rho) [As "design_pressure" "design_pressure_MPa"; P "*"] [P "*"] "heat_pipe_weight" Sca _ 0%nat S ltac:(cbn; tauto) eq_refl ltac:(cbn; lia)).
  - rewrite <- MP.
    exact (sol_comp G W 1 "weight_calc" (HeatPipeWeight sy FOS rho) [As "design_pressure" "design_pressure_MPa"; P "*"] [P "*"] "wall_thickness" Sca _ 0%nat S ltac:(cbn; tauto) eq_refl ltac:(cbn; lia)).
Qed.
Lemma weight_value E : mul_compute weight_multiplier E 0 = Ok (E "single_pipe_weight" 0%nat * E "n_pipes" 0%nat).
Proof. cbn. f_equal. ring. Qed.
Lemma hp_facts o V i : solution (HeatPipe A nn o) V -> (i < nn)%nat ->
  let T := V "T_evap" i in let d := V "inner_diam" 0%nat in let n := V "n_pipes" 0%nat in let q := V "q" i / n in
  let p := am_pressure A (V "T_design" 0%nat) / 1000 in let t := V "q_max_calc.wall_thickness" 0%nat in
  let dT := vapor_drop latent_ammonia visc_base_ammonia visc_inc_ammonia q T (am_vapor A T) (am_pressure A T * 1000) d (V "length" 0%nat) in
  t = p * d * hp_safety o / hp_yield_stress o /\
  V "weight" 0%nat = V "length" 0%nat * PI * d ^ 2 * p * hp_safety o * hp_rho_wall o / hp_yield_stress o * n /\
  V "q_max" i = flooding (hp_theta o) latent_ammonia st_base_ammonia st_incr_ammonia d T (am_liquid A T) (am_vapor A T) * n /\
  V "delta_T_calc.delta_T" i = dT /\
  V "T_cond" i = T - q * (radial d (d - 2 * hp_wick_thickness o) (hp_length_evap o) (hp_wall_conduct o) + radial (d + 2 * t) d (hp_length_evap o) (hp_wall_conduct o) +
    (radial d (d - 2 * hp_wick_thickness o) (hp_length_cond o) (hp_wall_conduct o) + radial (d + 2 * t) d (hp_length_cond o) (hp_wall_conduct o)) + dT / q).
Proof.
  intros S Hi T d n q p t dT. set (G := HeatPipe A nn o) in *.
  pose proof (sol_nested G V "q_max_calc" _ _ _ [P "inner_diam"; P "length"; As "design_temp" "T_design"; As "temp" "T_evap"] [] S
    ltac:(unfold G, HeatPipe; cbn [g_subs]; unfold subgroup; right; left; reflexivity)) as [W [SW [HI HO]]].
  pose proof (qmax_facts _ _ _ _ W i SW Hi) as F. cbv zeta in F.
  rewrite !(HI "inner_diam" 0%nat ltac:(inl)), !(HI "length" 0%nat ltac:(inl)), !(HI "temp" i ltac:(inl)), !(HI "design_temp" 0%nat ltac:(inl)),
    !(HO "q_max" i ltac:(inl)), !(HO "heat_pipe_weight" 0%nat ltac:(inl)), !(HO "wall_thickness" 0%nat ltac:(inl)) in F.
  clear HI HO SW W. destruct F as [F1 [F2 F3]].
  change (V "q_max_calc.q_max" i = flooding (hp_theta o) latent_ammonia st_base_ammonia st_incr_ammonia d T (am_liquid A T) (am_vapor A T)) in F1.
  change (V "q_max_calc.heat_pipe_weight" 0%nat = V "length" 0%nat * PI * d ^ 2 * p * hp_safety o * hp_rho_wall o / hp_yield_stress o) in F2.
  change (t = p * d * hp_safety o / hp_yield_stress o) in F3.
  assert (Q : V "heat_divide.q_div" i = q)
    by exact (sol_comp G V nn "heat_divide" heat_divide [P "q"; P "n_pipes"] [] "q_div" Vec _ i S ltac:(left; reflexivity) eq_refl Hi).
  assert (RV : V "ammonia_surrogate.rho_vapor" i = am_vapor A T)
    by exact (sol_comp G V nn "ammonia_surrogate" (AmmoniaProperties A) [As "temp" "T_evap"] [] "rho_vapor" Vec _ i S ltac:(do 4 right; left; reflexivity) eq_refl Hi).
  assert (PV : V "ammonia_surrogate.vapor_pressure" i = am_pressure A T)
    by exact (sol_comp G V nn "ammonia_surrogate" (AmmoniaProperties A) [As "temp" "T_evap"] [] "vapor_pressure" Vec _ i S ltac:(do 4 right; left; reflexivity) eq_refl Hi).
  assert (PP : V "vapor_pressure_Pa" i = am_pressure A T * 1000).
  { pose proof (sol_rel G V (converted "kPa_to_Pa" 1000 "ammonia_surrogate.vapor_pressure" "vapor_pressure_Pa") S ltac:(do 5 right; left; reflexivity) i) as K.
    change (V "vapor_pressure_Pa" i = V "ammonia_surrogate.vapor_pressure" i * 1000) in K. now rewrite K, PV. }
  assert (DT : V "delta_T_calc.delta_T" i = dT).
  { unfold dT. rewrite <- RV, <- PP, <- Q.
    exact (sol_comp G V nn "delta_T_calc" (HeatPipeVaporTempDrop latent_ammonia visc_base_ammonia visc_inc_ammonia)
       [As "temp" "T_evap"; P "inner_diam"; P "length"] [] "delta_T" Vec _ i S ltac:(do 6 right; left; reflexivity) eq_refl Hi). }
  repeat match goal with |- _ /\ _ => split end; auto.
  - pose proof (sol_rel G V (multiplier 1 "weight_multiplier" weight_multiplier [P "n_pipes"] [P "weight"]) S ltac:(do 2 right; left; reflexivity) 0%nat ltac:(lia)) as K.
    change (mul_compute weight_multiplier (reads G (multiplier 1 "weight_multiplier" weight_multiplier [P "n_pipes"] [P "weight"]) V) 0%nat = Ok (V "weight" 0%nat)) in K.
    rewrite weight_value in K. injection K as K. rewrite <- K, <- F2. reflexivity.
  - rewrite <- F1.
    exact (sol_comp G V nn "q_max_multiplier" q_max_multiplier [P "n_pipes"] [P "q_max"] "q_max" Vec _ i S ltac:(do 3 right; left; reflexivity) eq_refl Hi).
  - pose proof (sol_comp G V nn "resistance" _ [P "inner_diam"] [] "thermal_resistance" Vec _ i S ltac:(do 7 right; left; reflexivity) eq_refl Hi) as K.
    match type of K with _ = ?rhs => change (V "resistance.thermal_resistance" i = rhs) in K end.
    pose proof (sol_comp G V nn "cond_temp_calc" cond_temp [P "T_evap"] [P "T_cond"] "T_cond" Vec _ i S ltac:(do 8 right; left; reflexivity) eq_refl Hi) as C.
    change (V "T_cond" i = T - V "heat_divide.q_div" i * V "resistance.thermal_resistance" i) in C.
    rewrite C, K, Q. rewrite <- DT at 1. rewrite <- Q. reflexivity.
Qed.
End Facts.

(** ** Values *)
Lemma ln_pos x : 1 < x -> 0 < ln x.
Proof. intro. rewrite <- ln_1. apply ln_increasing; lra. Qed.
Lemma radial_nonneg b a L k : 0 < a -> a <= b -> 0 < L -> 0 < k -> 0 <= radial b a L k.
Proof.
  intros. unfold radial. pose proof PI_RGT_0. destruct (Req_dec a b) as [<-|N].
  - unfold Rdiv at 2. rewrite Rinv_r, ln_1 by lra. unfold Rdiv. lra.
  - left. apply quot_pos; [|posi]. apply ln_pos. apply (Rmult_lt_reg_r a); auto. unfold Rdiv. rewrite Rmult_assoc, Rinv_l; lra.
Qed.
Lemma radial_pos b a L k : 0 < a -> a < b -> 0 < L -> 0 < k -> 0 < radial b a L k.
Proof.
  intros. unfold radial. pose proof PI_RGT_0. apply quot_pos; [|posi]. apply ln_pos. apply (Rmult_lt_reg_r a); auto.
  unfold Rdiv. rewrite Rmult_assoc, Rinv_l; lra.
Qed.
Lemma radial_half b a L k : a <> 0 -> radial (b / 2) (a / 2) L k = radial b a L k.
Proof. intro. unfold radial. replace (b / 2 / (a / 2)) with (b / a) by (field; auto). reflexivity. Qed.
Lemma vapor_drop_pos latent vb vi q T rho pv d L : 0 < latent -> 0 < q -> 0 < rho -> 0 < pv -> 0 < d -> 0 < L ->
  0 < vapor_drop latent vb vi q T rho pv d L.
Proof. intros. unfold vapor_drop. pose proof PI_RGT_0. cbv zeta. posi. Qed.
Lemma vapor_drop_loss latent vb vi q T rho pv d L : 0 < latent -> 0 < q -> 0 < rho -> 0 < pv -> 0 < d -> 0 < T * vi + vb ->
  forall dp, pipe_loss (q / latent) rho (T * vi + vb) d L dp ->
  vapor_drop latent vb vi q T rho pv d L = (35976/1000) * (dp / pv).
Proof.
  intros H1 H2 H3 H4 H5 H6 dp [v [Re [f [M [HR [Hf Hd]]]]]]. pose proof PI_RGT_0. unfold vapor_drop. cbv zeta.
  assert (Hv : q / latent / rho / (PI * d ^ 2 / 4) = v) by (rewrite M; field; lra).
  rewrite Hv, <- HR. subst dp.
  assert (HP : Rpower Re (- (1) / 4) = / Rpower Re (1/4)).
  { unfold Rpower. replace (- (1) / 4 * ln Re) with (- (1 / 4 * ln Re)) by field. apply exp_Ropp. }
  rewrite HP, Hf. pose proof (Rpower_pos Re (1/4)). field. lra.
Qed.
Lemma tanh_incr x y : x < y -> tanh x < tanh y.
Proof.
  intro H. rewrite !tanh_alt. pose proof (exp_pos (2 * x)). assert (exp (2 * x) < exp (2 * y)) by (apply exp_increasing; lra).
  assert (/ (exp (2 * y) + 1) < / (exp (2 * x) + 1)) by (apply Rinv_lt_contravar; [apply Rmult_lt_0_compat|]; lra). unfold Rdiv. lra.
Qed.
Lemma Rpower_lt_base a x y : 0 < a -> 0 < x < y -> Rpower x a < Rpower y a.
Proof. intros Ha [Hx H]. unfold Rpower. apply exp_increasing. apply Rmult_lt_compat_l; auto. now apply ln_increasing. Qed.
Lemma tilt_cos theta : sin (PI / 2 - theta * PI / 180) = cos (theta * PI / 180).
Proof. now rewrite cos_sin, <- (sin_PI_x (PI / 2 + _)); f_equal; field. Qed.
Lemma tilt_range theta : 0 <= theta < 90 -> 0 <= theta * PI / 180 < PI / 2.
Proof. intros [H1 H2]. pose proof PI_RGT_0. split; [apply Rmult_le_pos; [apply Rmult_le_pos|]; lra|]. apply (Rmult_lt_reg_r (180 / PI)); [posi|]. replace (theta * PI / 180 * (180 / PI)) with theta by (field; lra). replace (PI / 2 * (180 / PI)) with 90 by (field; lra). lra. Qed.
Lemma flooding_pos theta latent sb si d T rL rV : 0 <= theta < 90 -> 0 < latent -> 0 < sb + si * T -> 0 < d -> 0 < rV < rL ->
  0 < flooding theta latent sb si d T rL rV.
Proof.
  intros Ht Hl Hs Hd Hr. pose proof PI_RGT_0. unfold flooding. cbv zeta.
  assert (0 < tanh (Rpower (d * sqrt (GRAV / (sb + si * T) * (rL - rV))) (25/100))) by apply tanh_pos, Rpower_pos. posi.
Qed.
Lemma flooding_tilt th1 th2 latent sb si d T rL rV : 0 <= th1 < th2 -> th2 < 90 -> 0 < latent -> 0 < sb + si * T -> 0 < d -> 0 < rV < rL ->
  flooding th2 latent sb si d T rL rV < flooding th1 latent sb si d T rL rV.
Proof.
  intros Ht Ht2 Hl Hs Hd Hr. pose proof PI_RGT_0 as Hpi. unfold flooding. cbv zeta. rewrite !tilt_cos.
  set (bb := Rpower (d * sqrt _) _). assert (Hb : 0 < tanh bb) by apply tanh_pos, Rpower_pos.
  pose proof (tilt_range th1 ltac:(lra)) as [B1 B2]. pose proof (tilt_range th2 ltac:(lra)) as [B3 B4].
  assert (B5 : th1 * PI / 180 < th2 * PI / 180) by (unfold Rdiv; apply Rmult_lt_compat_r; [lra|]; apply Rmult_lt_compat_r; lra).
  assert (C : 0 < cos (th2 * PI / 180) < cos (th1 * PI / 180)) by (split; [apply cos_gt_0; lra|apply cos_decreasing_1; lra]).
  unfold Rdiv at 1 6. apply Rmult_lt_compat_r; [posi|]. apply Rmult_lt_compat_l; [posi|].
  assert (Hg : 0 < GRAV) by (unfold GRAV; lra).
  apply Rpower_lt_base; [lra|]. split; [posi|]. repeat (apply Rmult_lt_compat_r; [posi|]). apply Rmult_lt_compat_l; [auto|apply C].
Qed.
Lemma flooding_diam theta latent sb si d d' T rL rV : 0 <= theta < 90 -> 0 < latent -> 0 < sb + si * T -> 0 < d < d' -> 0 < rV < rL ->
  flooding theta latent sb si d T rL rV < flooding theta latent sb si d' T rL rV.
Proof.
  intros Ht Hl Hs Hd Hr. pose proof PI_RGT_0 as Hpi. unfold flooding. cbv zeta.
  assert (Hg : 0 < GRAV) by (unfold GRAV; lra).
  set (s := sqrt _). assert (S0 : 0 < s) by (unfold s; apply sqrt_lt_R0; posi).
  set (b := tanh (Rpower (d * s) _)). set (b' := tanh (Rpower (d' * s) _)).
  assert (B : 0 < b) by apply tanh_pos, Rpower_pos.
  assert (B' : b < b'). { apply tanh_incr, Rpower_lt_base; [lra|]. split; [posi|]. apply Rmult_lt_compat_r; lra. }
  unfold Rdiv at 1 6. apply Rmult_lt_compat_r; [posi|]. apply Rmult_lt_compat_r; [posi|]. apply Rmult_lt_compat_r; [posi|].
  assert (b ^ 2 < b' ^ 2) by nra. assert (d ^ 2 < d' ^ 2) by nra.
  apply Rmult_gt_0_lt_compat; try (apply Rlt_gt; posi); [apply Rmult_lt_compat_l|apply Rmult_lt_compat_l]; auto; posi.
Qed.

(** ** Partials *)
Lemma ex_ln (f : R -> R) x : ex_derive f x -> 0 < f x -> ex_derive (fun t => ln (f t)) x.
Proof. intros. apply (ex_comp ln f); auto. eexists. now apply is_derive_ln. Qed.
Lemma ex_tanh (f : R -> R) x : ex_derive f x -> ex_derive (fun t => tanh (f t)) x.
Proof. intro. apply (ex_comp tanh f); auto. eexists. apply tanh_derive. Qed.
Lemma radial_ex (e : nenv) (x : string) (f g : R -> R) L k : ex_derive f (e x) -> ex_derive g (e x) -> 0 < f (e x) -> 0 < g (e x) -> L <> 0 -> k <> 0 ->
  ex_derive (fun t => radial (f t) (g t) L k) (e x).
Proof.
  intros. pose proof PI_RGT_0. unfold radial. apply (ex_div (fun t => ln (f t / g t)) (fun _ => 2 * PI * L * k)).
  - apply (ex_ln (fun t => f t / g t)); [apply (ex_div f g); auto; lra|now apply quot_pos].
  - apply ex_derive_const.
  - assert (2 * PI <> 0) by lra. intro Z. apply Rmult_integral in Z. destruct Z as [Z|Z]; auto. apply Rmult_integral in Z. tauto.
Qed.
Lemma resistance_jac n E Le Lc kw w kk vap : (0 < n)%nat -> Le <> 0 -> Lc <> 0 -> kw <> 0 ->
  0 < E "inner_diam" 0%nat -> 2 * w < E "inner_diam" 0%nat -> 0 < E "inner_diam" 0%nat + 2 * E "wall_thickness" 0%nat ->
  (forall i, (i < n)%nat -> E "q" i <> 0) -> jac_correct n (HeatPipeThermalResistance Le Lc kw w kk vap) E.
Proof.
  intros Hn HLe HLc Hk Hd Hw Ht Hq. apply cs_jac; [assumption|]. intros i o ko f Hi Ho x kx Hx. cbv zeta. specialize (Hq i Hi).
  apply assoc_In in Ho. each_in Ho. set (e := node _ E i).
  change (E "inner_diam" 0%nat) with (e "inner_diam") in Hd, Hw, Ht. change (E "wall_thickness" 0%nat) with (e "wall_thickness") in Ht.
  change (E "q" i) with (e "q") in Hq.
  assert (M : forall L, L <> 0 -> ex_derive (fun t => radial (upd e x t "inner_diam") (upd e x t "inner_diam" - 2 * w) L kw) (e x)).
  { intros L HL. apply (radial_ex e x (fun t => upd e x t "inner_diam") (fun t => upd e x t "inner_diam" - 2 * w)); auto; [exd|exd|cbv beta; rewrite upd_same; lra..]. }
  assert (W : forall L, L <> 0 -> ex_derive (fun t => radial (upd e x t "inner_diam" + 2 * upd e x t "wall_thickness") (upd e x t "inner_diam") L kw) (e x)).
  { intros L HL. apply (radial_ex e x (fun t => upd e x t "inner_diam" + 2 * upd e x t "wall_thickness") (fun t => upd e x t "inner_diam")); auto; [exd|exd|cbv beta; rewrite ?upd_same; lra..]. }
  apply ex_plus; [apply ex_plus; apply ex_plus; auto|]. destruct vap; [|apply ex_derive_const]. exd. auto.
Qed.
Lemma drop_jac n E latent vb vi : (0 < n)%nat -> 0 < latent -> 0 < E "inner_diam" 0%nat ->
  (forall i, (i < n)%nat -> 0 < E "q" i /\ 0 < E "rho_vapor" i /\ E "vapor_pressure" i <> 0 /\ 0 < E "temp" i * vi + vb) ->
  jac_correct n (HeatPipeVaporTempDrop latent vb vi) E.
Proof.
  intros Hn Hl Hd Hq. apply cs_jac; [assumption|]. intros i o ko f Hi Ho x kx Hx. cbv zeta. destruct (Hq i Hi) as [H1 [H2 [H3 H4]]].
  apply assoc_In in Ho. each_in Ho. set (e := node _ E i).
  change (E "inner_diam" 0%nat) with (e "inner_diam") in Hd. change (E "q" i) with (e "q") in H1. change (E "rho_vapor" i) with (e "rho_vapor") in H2.
  change (E "vapor_pressure" i) with (e "vapor_pressure") in H3. change (E "temp" i) with (e "temp") in H4.
  pose proof PI_RGT_0. unfold vapor_drop. cbv zeta. exd; try lra; try posi.
Qed.
Lemma qmax_jac n E theta latent sb si : (0 < n)%nat -> 0 <= theta < 90 -> 0 < E "inner_diam" 0%nat ->
  (forall i, (i < n)%nat -> 0 < E "rho_vapor" i < E "rho_liquid" i /\ 0 < sb + si * E "temp" i) ->
  jac_correct n (QMaxAnalyticalPart theta latent sb si) E.
Proof.
  intros Hn Ht Hd Hq. apply cs_jac; [assumption|]. intros i o ko f Hi Ho x kx Hx. cbv zeta. destruct (Hq i Hi) as [H1 H2].
  apply assoc_In in Ho. each_in Ho. set (e := node _ E i).
  change (E "inner_diam" 0%nat) with (e "inner_diam") in Hd. change (E "rho_vapor" i) with (e "rho_vapor") in H1.
  change (E "rho_liquid" i) with (e "rho_liquid") in H1. change (E "temp" i) with (e "temp") in H2.
  assert (Hg : 0 < GRAV) by (unfold GRAV; lra).
  assert (Hc : 0 < sin (PI / 2 - theta * PI / 180)). { rewrite tilt_cos. apply cos_gt_0; pose proof (tilt_range theta Ht); pose proof PI_RGT_0; lra. }
  assert (HB : ex_derive (fun t => tanh (Rpower (upd e x t "inner_diam" * sqrt (GRAV / (sb + si * upd e x t "temp") * (upd e x t "rho_liquid" - upd e x t "rho_vapor"))) (25/100))) (e x)).
  { apply (ex_tanh (fun t => Rpower (upd e x t "inner_diam" * sqrt (GRAV / (sb + si * upd e x t "temp") * (upd e x t "rho_liquid" - upd e x t "rho_vapor"))) (25/100))). exd; try lra; posi. }
  unfold flooding. cbv zeta. apply ex_div; [|exd; lra|cbv beta; rewrite ?upd_same; posi].
  apply ex_mult; [|exd; cbv beta; rewrite ?upd_same; posi]. apply ex_mult; [|exd]. apply ex_mult; [|exd; lra].
  apply ex_mult; [exd; [lra|posi]|]. apply (ex_pow _ 2). exact HB.
Qed.

Lemma pipe_end kw kk Le Lc d w t q dT Te Tc : 0 < kw -> kk <> 0 -> 0 < Le -> 0 < Lc -> 0 <= w -> 2 * w < d -> 0 <= t ->
  pipe_temperatures kw kk Le Lc (d / 2 - w) (d / 2) (d / 2 + t) q dT Te Tc ->
  Tc = Te - q * (radial d (d - 2 * w) Le kk + radial (d + 2 * t) d Le kw + (radial d (d - 2 * w) Lc kk + radial (d + 2 * t) d Lc kw)) - dT.
Proof.
  intros Hk Hkk HLe HLc Hw Hd Ht [E [C [Ew [Cw [H1 [H2 [H3 [H4 [H5 [H6 [H7 [H8 H9]]]]]]]]]]]].
  apply conducts_drop in H1; [|lra..]. apply conducts_drop in H2; [|auto; lra..]. apply conducts_drop in H6; [|auto; lra..]. apply conducts_drop in H7; [|lra..].
  assert (R1 : forall L k, radial (d / 2 + t) (d / 2) L k = radial (d + 2 * t) d L k).
  { intros. rewrite <- (radial_half _ d) by lra. f_equal. field. }
  assert (R2 : forall L k, radial (d / 2) (d / 2 - w) L k = radial d (d - 2 * w) L k).
  { intros. rewrite <- (radial_half _ (d - 2 * w)) by lra. f_equal. field. }
  rewrite R1 in H1, H7. rewrite R2 in H2, H6. rewrite !Rmult_plus_distr_l. lra.
Qed.
