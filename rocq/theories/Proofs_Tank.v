(** Proofs about the hydrogen tank. *)
From Coq Require Import Reals List Bool PeanoNat String Lra Lia.
From Verif Require Import Base Py RSum Calc Model_Algebra Spec_Algebra Proofs_Algebra Model_Atmos Proofs_Atmos
  Model_Integrals Model_Tank.
Import ListNotations.
Open Scope R_scope.
Open Scope string_scope.

Lemma upow_pos x y : 0 < x -> upow x y = Rpower x y.
Proof. intro H. unfold upow. destruct (Rle_dec x 0); [lra|reflexivity]. Qed.
Lemma upow_zero y : upow 0 y = 0.
Proof. unfold upow. destruct (Rle_dec 0 0); [reflexivity|lra]. Qed.
Lemma upow_nonneg x y : 0 <= upow x y.
Proof. unfold upow. destruct (Rle_dec x 0); [lra|]. apply Rlt_le, exp_pos. Qed.
Lemma upow_gt0 x y : 0 < x -> 0 < upow x y.
Proof. intro H. rewrite upow_pos by auto. apply exp_pos. Qed.
Lemma upow_inv x y : 0 <= x -> y <> 0 -> upow (upow x (1 / y)) y = x.
Proof.
  intros Hx Hy. destruct (Rle_lt_or_eq_dec 0 x Hx) as [H|<-]; [|rewrite upow_zero; apply upow_zero].
  rewrite (upow_pos x) by auto. rewrite upow_pos by apply exp_pos. rewrite Rpower_mult.
  replace (1 / y * y) with 1 by (field; auto). now apply Rpower_1.
Qed.
Lemma upow_mono x z y : 0 <= x <= z -> 0 < y -> upow x y <= upow z y.
Proof.
  intros [Hx Hz] Hy. destruct (Rle_lt_or_eq_dec 0 x Hx) as [H|<-]; [|rewrite upow_zero; apply upow_nonneg].
  rewrite !upow_pos by lra. apply Rle_Rpower_l; lra.
Qed.
Lemma upow_lt x e y : 0 < e -> 0 < y -> x < upow e (1 / y) -> upow x y < e.
Proof.
  intros He Hy H. destruct (Rle_lt_dec x 0) as [Hx|Hx].
  - unfold upow. destruct (Rle_dec x 0); [auto|lra].
  - rewrite <- (upow_inv e y) by lra. rewrite (upow_pos x), (upow_pos (upow e (1 / y))) by (auto; apply upow_gt0; auto).
    unfold Rpower. apply exp_increasing. apply Rmult_lt_compat_l; auto. now apply ln_increasing.
Qed.

Lemma pressure_jac n E SF sigma d : (0 < n)%nat -> sigma <> 0 -> jac_correct n (PressureVesselWall SF sigma d) E.
Proof.
  intros Hn Hs. apply jac_correct_lift; auto. intros i Hi. generalize (node (PressureVesselWall SF sigma d) E i); intros e.
  split_jac PressureVesselWall; unfold shell_area; auto_derive; try tauto; field; auto.
Qed.
Lemma mli_jac n E a b : (0 < n)%nat -> jac_correct n (MLIWeight a b) E.
Proof.
  intros Hn. apply jac_correct_lift; auto. intros i Hi. generalize (node (MLIWeight a b) E i); intros e.
  split_jac MLIWeight; unfold shell_area; auto_derive; try tauto; ring.
Qed.
Lemma lh2_jac n E f rho : (0 < n)%nat -> rho <> 0 -> tank_volume (E "radius" 0%nat) (E "length" 0%nat) <> 0 ->
  jac_correct n (InitialLH2Mass f rho) E.
Proof.
  intros Hn Hr HV. apply jac_correct_lift; auto. intros i Hi.
  change (E "radius" 0%nat) with (node (InitialLH2Mass f rho) E i "radius") in *.
  change (E "length" 0%nat) with (node (InitialLH2Mass f rho) E i "length") in *.
  generalize dependent (node (InitialLH2Mass f rho) E i); intros e He.
  assert (Dr : is_derive (fun t => tank_volume t (e "length")) (e "radius") (4 * PI * e "radius" ^ 2 + 2 * PI * e "radius" * e "length")).
  { unfold tank_volume. auto_derive; auto. field. }
  assert (DL : is_derive (fun t => tank_volume (e "radius") t) (e "length") (PI * e "radius" ^ 2)).
  { unfold tank_volume. auto_derive; auto. field. }
  assert (HV : rho * tank_volume (e "radius") (e "length") <> 0) by (apply Rmult_integral_contrapositive; split; auto).
  split_jac InitialLH2Mass.
  - eapply derive_eq; [eapply (derive_minus (fun t => tank_volume t (e "length") * f * rho) _ _ _ 0); [apply derive_mulr, derive_mulr; exact Dr|apply derive_const]|ring].
  - eapply derive_eq; [eapply (derive_minus (fun t => tank_volume (e "radius") t * f * rho) _ _ _ 0); [apply derive_mulr, derive_mulr; exact DL|apply derive_const]|ring].
  - set (V := tank_volume _ _). auto_derive; auto; ring.
  - eapply derive_eq; [eapply (derive_div (fun t => tank_volume t (e "length") * f * rho - e "delta_m_liq") (fun t => rho * tank_volume t (e "length")));
      [eapply (derive_minus (fun t => tank_volume t (e "length") * f * rho) _ _ _ 0); [apply derive_mulr, derive_mulr; exact Dr|apply derive_const]
      |apply derive_mull; exact Dr|exact HV]|].
    cbv beta. field. auto.
  - eapply derive_eq; [eapply (derive_div (fun t => tank_volume (e "radius") t * f * rho - e "delta_m_liq") (fun t => rho * tank_volume (e "radius") t));
      [eapply (derive_minus (fun t => tank_volume (e "radius") t * f * rho) _ _ _ 0); [apply derive_mulr, derive_mulr; exact DL|apply derive_const]
      |apply derive_mull; exact DL|exact HV]|].
    cbv beta. field. auto.
  - set (V := tank_volume _ _) in *. auto_derive; auto; field; auto.
Qed.

(** *** The vacuum wall. *)
Lemma cyl_base_pos SF Y p r L : 0 < SF -> 0 < Y -> 0 < p -> 0 < r -> 0 < L -> 0 < p * SF * L * upow r (15/10) / (92/100 * Y).
Proof.
  intros. unfold Rdiv at 1. apply Rmult_lt_0_compat; [|apply Rinv_0_lt_compat; lra].
  repeat apply Rmult_lt_0_compat; auto. now apply upow_gt0.
Qed.
Lemma sph_base_pos SF Y p : 0 < SF -> 0 < Y -> 0 < p -> 0 < p * SF / (365/1000 * Y).
Proof. intros. unfold Rdiv at 1. apply Rmult_lt_0_compat; [nra|apply Rinv_0_lt_compat; lra]. Qed.

Lemma t_cyl_pos SF Y p r L : 0 < SF -> 0 < Y -> 0 < p -> 0 < r -> 0 < L -> 0 < t_cyl SF Y p r L.
Proof. intros. unfold t_cyl. apply upow_gt0. now apply cyl_base_pos. Qed.
Lemma t_sph_pos SF Y p r : 0 < SF -> 0 < Y -> 0 < p -> 0 < r -> 0 < t_sph SF Y p r.
Proof. intros. unfold t_sph. apply Rmult_lt_0_compat; auto. apply sqrt_lt_R0. now apply sph_base_pos. Qed.

(** The power [upow x y] near a positive [x]. *)
Lemma upow_derive x y : 0 < x -> is_derive (fun t => upow t y) x (y * Rpower x (y - 1)).
Proof.
  intro Hx. apply (derive_near (fun t => Rpower t y) _ (fun t => 0 < t)).
  - apply (near_gt_c (fun t => t) x 0); auto. apply (cont_of (fun t => t) x 1). apply derive_id.
  - intros t Ht. now rewrite upow_pos.
  - unfold Rpower. auto_derive; auto. replace ((y - 1) * ln x) with (y * ln x + - ln x) by ring. rewrite exp_plus, exp_Ropp, exp_ln by auto. field. lra.
Qed.
Lemma upow_cont x y : 0 < y -> continuous (fun t => upow t y) x.
Proof.
  intro Hy. destruct (Rtotal_order x 0) as [H|[->|H]].
  - apply (cont_of _ _ 0). apply (derive_near (fun _ => 0) _ (fun t => t < 0)).
    + apply (near_lt_c (fun t => t) x 0); auto. apply (cont_of (fun t => t) x 1). apply derive_id.
    + intros t Ht. unfold upow. destruct (Rle_dec t 0); [reflexivity|lra].
    + apply derive_const.
  - apply (filterlim_locally (F := locally 0)). intro eps. rewrite upow_zero.
    assert (He : 0 < upow eps (1 / y)) by (apply upow_gt0; apply cond_pos).
    eapply filter_imp; [|apply (near_lt_c (fun t => t) 0 (upow eps (1 / y)))]; auto.
    + intros t Ht. cbv beta in Ht. unfold ball; simpl. unfold AbsRing_ball, abs, minus, plus, opp; simpl.
      rewrite Ropp_0, Rplus_0_r. rewrite Rabs_pos_eq by apply upow_nonneg. apply upow_lt; auto. apply cond_pos.
    + apply (cont_of (fun t => t) 0 1). apply derive_id.
  - eapply cont_of. now apply upow_derive.
Qed.
Lemma continuous_compR (f g : R -> R) x : continuous g x -> continuous f (g x) -> continuous (fun t => f (g t)) x.
Proof. intros Hg Hf. now apply (continuous_comp g f x). Qed.

(** Maximum of two functions away from ties. *)
Lemma derive_max (f g : R -> R) x l : continuous f x -> continuous g x -> f x <> g x ->
  (g x < f x -> is_derive f x l) -> (f x < g x -> is_derive g x l) -> is_derive (fun t => Rmax (f t) (g t)) x l.
Proof.
  intros Hf Hg H0 H1 H2. assert (Hd : continuous (fun t => f t - g t) x) by (now apply cont_minus).
  destruct (Rtotal_order (f x) (g x)) as [H|[H|H]]; [|congruence|].
  - apply (derive_near g _ (fun t => f t - g t < 0)); auto.
    + apply near_lt_c; auto. lra.
    + intros t Ht. rewrite Rmax_right; lra.
  - apply (derive_near f _ (fun t => 0 < f t - g t)); auto.
    + apply near_gt_c; auto. lra.
    + intros t Ht. rewrite Rmax_left; lra.
Qed.
Lemma derive_powr (g : R -> R) x m y : is_derive g x m -> 0 < g x -> is_derive (fun t => upow (g t) y) x (m * (y * Rpower (g x) (y - 1))).
Proof. intros Hg H. apply (derive_comp (fun t => upow t y) g x _ m); auto. now apply upow_derive. Qed.

Lemma Rpower_half_inv x : 0 < x -> Rpower x (- (5/10)) = / sqrt x.
Proof. intro H. rewrite Rpower_Ropp. f_equal. replace (5/10) with (/ 2) by field. now apply Rpower_sqrt. Qed.
Lemma upow_half_three r : 0 < r -> upow r (15/10) = r * upow r (5/10).
Proof.
  intro H. rewrite !upow_pos by auto. replace (15/10) with (1 + 5/10) by field. rewrite Rpower_plus, Rpower_1; auto.
Qed.

(** Thickness and its partials at one design point. *)
Definition vac_ok (SF Y p r L : R) : Prop :=
  0 < SF /\ 0 < Y /\ 0 < p /\ 0 < r /\ 0 <= L /\ t_cyl SF Y p r L <> t_sph SF Y p r /\
  (t_sph SF Y p r < t_cyl SF Y p r L -> 1/1000000 <= L).

Ltac cyl_cont := unfold t_cyl; apply (continuous_compR (fun x => upow x (1 / (25/10))));
  [eapply cont_of; auto_derive; auto|apply upow_cont; lra].

Lemma vac_dp SF Y p r L : vac_ok SF Y p r L ->
  is_derive (fun t => Rmax (t_cyl SF Y t r L) (t_sph SF Y t r)) p
   (if Rlt_dec (t_sph SF Y p r) (t_cyl SF Y p r L)
    then (if Rlt_dec L (1/1000000) then 0 else Rpower (p * SF * L * upow r (15/10) / (92/100 * Y)) (1 / (25/10) - 1) / (25/10) * SF * L * upow r (15/10) / (92/100 * Y))
    else 5/10 * r * Rpower (p * SF / (365/1000 * Y)) (- (5/10)) * SF / (365/1000 * Y)).
Proof.
  intros (HS & HY & Hp & Hr & HL & Hne & Hs). pose proof (sph_base_pos SF Y p HS HY Hp) as Hb.
  assert (D : is_derive (fun t => t_sph SF Y t r) p (5/10 * r * Rpower (p * SF / (365/1000 * Y)) (- (5/10)) * SF / (365/1000 * Y))).
  { unfold t_sph. rewrite Rpower_half_inv by auto. eapply derive_eq.
    - apply derive_mull. apply (derive_sqrt (fun t => t * SF / (365/1000 * Y)) p (SF / (365/1000 * Y))); auto.
      auto_derive; auto. field. lra.
    - pose proof (sqrt_lt_R0 _ Hb). cbv beta. set (q := sqrt _) in *. clearbody q. field. lra. }
  apply derive_max; auto.
  - cyl_cont.
  - eapply cont_of; exact D.
  - intro Hlt. destruct (Rlt_dec (t_sph SF Y p r) (t_cyl SF Y p r L)); [|contradiction]. specialize (Hs Hlt).
    destruct (Rlt_dec L (1/1000000)); [lra|]. unfold t_cyl. eapply derive_eq.
    + apply (derive_powr (fun t => t * SF * L * upow r (15/10) / (92/100 * Y)) p (SF * L * upow r (15/10) / (92/100 * Y))).
      * auto_derive; auto. field. lra.
      * apply cyl_base_pos; lra.
    + cbv beta. field. lra.
  - intro Hlt. destruct (Rlt_dec (t_sph SF Y p r) (t_cyl SF Y p r L)); [lra|exact D].
Qed.
Lemma vac_dr SF Y p r L : vac_ok SF Y p r L ->
  is_derive (fun t => Rmax (t_cyl SF Y p t L) (t_sph SF Y p t)) r
   (if Rlt_dec (t_sph SF Y p r) (t_cyl SF Y p r L)
    then (if Rlt_dec L (1/1000000) then 0 else Rpower (p * SF * L * upow r (15/10) / (92/100 * Y)) (1 / (25/10) - 1) / (25/10) * p * SF * L * upow r (5/10) / (92/100 * Y) * (15/10))
    else t_sph SF Y p r / r).
Proof.
  intros (HS & HY & Hp & Hr & HL & Hne & Hs). pose proof (sph_base_pos SF Y p HS HY Hp) as Hb.
  assert (D : is_derive (fun t => t_sph SF Y p t) r (t_sph SF Y p r / r)).
  { unfold t_sph. auto_derive; auto. field. lra. }
  assert (U : is_derive (fun t => p * SF * L * upow t (15/10) / (92/100 * Y)) r (p * SF * L * (15/10 * upow r (5/10)) / (92/100 * Y))).
  { apply derive_mulr. apply derive_mull. eapply derive_eq; [apply upow_derive; auto|].
    rewrite upow_pos by auto. f_equal. f_equal. field. }
  apply derive_max; auto.
  - unfold t_cyl. apply (continuous_compR (fun x => upow x (1 / (25/10)))); [eapply cont_of; exact U|apply upow_cont; lra].
  - eapply cont_of; exact D.
  - intro Hlt. destruct (Rlt_dec (t_sph SF Y p r) (t_cyl SF Y p r L)); [|contradiction]. specialize (Hs Hlt).
    destruct (Rlt_dec L (1/1000000)); [lra|]. unfold t_cyl. eapply derive_eq.
    + eapply derive_powr; [exact U|]. apply cyl_base_pos; lra.
    + cbv beta. field. lra.
  - intro Hlt. destruct (Rlt_dec (t_sph SF Y p r) (t_cyl SF Y p r L)); [lra|exact D].
Qed.
Lemma vac_dL SF Y p r L : vac_ok SF Y p r L ->
  is_derive (fun t => Rmax (t_cyl SF Y p r t) (t_sph SF Y p r)) L
   (if Rlt_dec (t_sph SF Y p r) (t_cyl SF Y p r L)
    then (if Rlt_dec L (1/1000000) then 0 else Rpower (p * SF * L * upow r (15/10) / (92/100 * Y)) (1 / (25/10) - 1) / (25/10) * p * SF * upow r (15/10) / (92/100 * Y))
    else 0).
Proof.
  intros (HS & HY & Hp & Hr & HL & Hne & Hs).
  apply derive_max; auto.
  - cyl_cont.
  - eapply cont_of; apply derive_const.
  - intro Hlt. destruct (Rlt_dec (t_sph SF Y p r) (t_cyl SF Y p r L)); [|contradiction]. specialize (Hs Hlt).
    destruct (Rlt_dec L (1/1000000)); [lra|]. unfold t_cyl. eapply derive_eq.
    + apply (derive_powr (fun t => p * SF * t * upow r (15/10) / (92/100 * Y)) L (p * SF * upow r (15/10) / (92/100 * Y))).
      * auto_derive; auto. field. lra.
      * apply cyl_base_pos; lra.
    + cbv beta. field. lra.
  - intro Hlt. destruct (Rlt_dec (t_sph SF Y p r) (t_cyl SF Y p r L)); [lra|apply derive_const].
Qed.
Ltac ring_if := match goal with |- ?a = ?b => change (@eq R a b) end; cbv beta;
  repeat match goal with |- context [Rlt_dec ?a ?b] => destruct (Rlt_dec a b) end;
  try contradiction; unfold shell_area, Rdiv; ring.
Lemma vacuum_jac n E SF stiff Y d : (0 < n)%nat ->
  vac_ok SF Y (E "design_pressure_differential" 0%nat) (E "radius" 0%nat) (E "length" 0%nat) ->
  jac_correct n (VacuumWall SF stiff Y d) E.
Proof.
  intros Hn H. apply jac_correct_lift; auto. intros i Hi.
  change (E "design_pressure_differential" 0%nat) with (node (VacuumWall SF stiff Y d) E i "design_pressure_differential") in H.
  change (E "radius" 0%nat) with (node (VacuumWall SF stiff Y d) E i "radius") in H.
  change (E "length" 0%nat) with (node (VacuumWall SF stiff Y d) E i "length") in H.
  generalize dependent (node (VacuumWall SF stiff Y d) E i); intros e H.
  pose proof (vac_dp _ _ _ _ _ H) as Dp. pose proof (vac_dr _ _ _ _ _ H) as Dr. pose proof (vac_dL _ _ _ _ _ H) as DL.
  split_jac VacuumWall.
  - rewrite Rmult_comm. apply derive_mull. exact Dp.
  - rewrite Rmult_comm. apply derive_mull. exact Dr.
  - rewrite Rmult_comm. apply derive_mull. exact DL.
  - eapply derive_eq; [apply derive_mulr; apply derive_mull; apply derive_mull; exact Dp|ring_if].
  - eapply derive_eq; [apply derive_mulr|].
    + apply (derive_mult (fun t => shell_area t (e "length"))); [|apply derive_mull; exact Dr].
      unfold shell_area. auto_derive; auto.
    + ring_if.
  - eapply derive_eq; [apply derive_mulr|].
    + apply (derive_mult (fun t => shell_area (e "radius") t)); [|apply derive_mull; exact DL].
      unfold shell_area. auto_derive; auto.
    + ring_if.
Qed.
