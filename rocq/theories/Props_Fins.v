(** C51, continued: the fins. *)
From Coq Require Import Reals List Bool PeanoNat String Lra Lia.
From Verif Require Import Base Py Calc Model_Vectors Model_Net Proofs_Net Model_Thermal Proofs_Thermal Proofs_Cs Model_HX Spec_HX Proofs_HXJac Proofs_HX Spec_Fins.
Import ListNotations.
Open Scope R_scope.
Open Scope string_scope.

Lemma colburn_eq Re s h t l : osf_j Re (s / h) (t / l) (t / s) = colburn Re s h t l.
Proof.
  unfold osf_j, j1, j2, colburn.
  replace (-5403/10000) with (-0.5403) by lra. replace (-1541/10000) with (-0.1541) by lra. replace (1499/10000) with 0.1499 by lra. replace (-678/10000) with (-0.0678) by lra.
  replace (134/100) with 1.340 by lra. replace (504/1000) with 0.504 by lra. replace (456/1000) with 0.456 by lra. replace (-1055/1000) with (-1.055) by lra. replace (1/10) with 0.1 by lra.
  replace (6522/10000) with 0.6522 by lra. replace (5269/100000000) with 0.00005269 by lra.
  rewrite !Rmult_assoc. reflexivity.
Qed.
Lemma friction_eq Re s h t l : osf_f Re (s / h) (t / l) (t / s) = friction Re s h t l.
Proof.
  unfold osf_f, f1, f2, friction.
  replace (-7422/10000) with (-0.7422) by lra. replace (-1856/10000) with (-0.1856) by lra. replace (3053/10000) with 0.3053 by lra. replace (-2659/10000) with (-0.2659) by lra.
  replace (4429/1000) with 4.429 by lra. replace (92/100) with 0.920 by lra. replace (3767/1000) with 3.767 by lra. replace (236/1000) with 0.236 by lra. replace (1/10) with 0.1 by lra.
  replace (96243/10000) with 9.6243 by lra. replace (7669/100000000000) with 0.00000007669 by lra.
  rewrite !Rmult_assoc. reflexivity.
Qed.
(** Heat transfer and friction factors of a converged heat exchanger are those of the cited
    correlations for its channels; the cold side also has the hydraulic diameter of the paper,
    the hot side that of a plain rectangular channel, which is larger for the same sizes. *)
Theorem C51_correlations nn V i : solution (HXGroup nn) V -> hx_positive nn V -> (i < nn)%nat ->
  let v x := V x 0%nat in
  V "j_cold" i = colburn (V "Re_dh_cold" i) (v "channel_width_cold") (v "channel_height_cold") (v "fin_thickness") (v "fin_length_cold") /\
  V "f_cold" i = friction (V "Re_dh_cold" i) (v "channel_width_cold") (v "channel_height_cold") (v "fin_thickness") (v "fin_length_cold") /\
  V "j_hot" i = colburn (V "Re_dh_hot" i) (v "channel_width_hot") (v "channel_height_hot") (v "fin_thickness") (v "fin_length_hot") /\
  V "f_hot" i = friction (V "Re_dh_hot" i) (v "channel_width_hot") (v "channel_height_hot") (v "fin_thickness") (v "fin_length_hot") /\
  v "dh_cold" = hydraulic_diameter (v "channel_width_cold") (v "channel_height_cold") (v "fin_thickness") (v "fin_length_cold") /\
  v "dh_hot" = 2 * v "channel_width_hot" * v "channel_height_hot" / (v "channel_width_hot" + v "channel_height_hot") /\
  hydraulic_diameter (v "channel_width_hot") (v "channel_height_hot") (v "fin_thickness") (v "fin_length_hot") < v "dh_hot".
Proof.
  intros S Hp Hi v. apply plain_of_checked in S.
  eqn S "osfdata" OffsetStripFinData "j_cold" i Hi as B1. eqn S "osfdata" OffsetStripFinData "f_cold" i Hi as B2.
  eqn S "osfdata" OffsetStripFinData "j_hot" i Hi as B3. eqn S "osfdata" OffsetStripFinData "f_hot" i Hi as B4.
  assert (A : forall o k f, In (o, (k, f)) osf_outs -> V o 0%nat = f (fun x => V x 0%nat)) by (intros; eapply osf_value; eassumption).
  assert (E1 := A "alpha_cold" Sca _ ltac:(unfold osf_outs; cbn [In]; tauto)). assert (E2 := A "delta_cold" Sca _ ltac:(unfold osf_outs; cbn [In]; tauto)).
  assert (E3 := A "gamma_cold" Sca _ ltac:(unfold osf_outs; cbn [In]; tauto)). assert (E4 := A "alpha_hot" Sca _ ltac:(unfold osf_outs; cbn [In]; tauto)).
  assert (E5 := A "delta_hot" Sca _ ltac:(unfold osf_outs; cbn [In]; tauto)). assert (E6 := A "gamma_hot" Sca _ ltac:(unfold osf_outs; cbn [In]; tauto)).
  assert (E7 := A "dh_cold" Sca _ ltac:(unfold osf_outs; cbn [In]; tauto)). assert (E8 := A "dh_hot" Sca _ ltac:(unfold osf_outs; cbn [In]; tauto)).
  cbv beta in E1, E2, E3, E4, E5, E6, E7, E8. cbv beta in B1, B2, B3, B4. rewrite E1, E2, E3 in B1, B2. rewrite E4, E5, E6 in B3, B4.
  rewrite colburn_eq in B1, B3. rewrite friction_eq in B2, B4. repeat (split; [assumption|]).
  unfold v. rewrite E8. destruct Hp as [P _].
  assert (P1 : 0 < V "channel_width_hot" 0%nat) by (apply P; cbn; tauto). assert (P2 : 0 < V "channel_height_hot" 0%nat) by (apply P; cbn; tauto).
  assert (P3 : 0 < V "fin_thickness" 0%nat) by (apply P; cbn; tauto). assert (P4 : 0 < V "fin_length_hot" 0%nat) by (apply P; cbn; tauto).
  set (s := V "channel_width_hot" 0%nat) in *. set (h := V "channel_height_hot" 0%nat) in *. set (t := V "fin_thickness" 0%nat) in *. set (l := V "fin_length_hot" 0%nat) in *. clearbody s h t l.
  unfold hydraulic_diameter. apply (Rmult_lt_reg_r ((2 * (s * l + h * l + t * h) + t * s) * (s + h))); [posi|].
  replace (4 * s * h * l / (2 * (s * l + h * l + t * h) + t * s) * ((2 * (s * l + h * l + t * h) + t * s) * (s + h))) with (4 * s * h * l * (s + h)) by (field; posi).
  replace (2 * s * h / (s + h) * ((2 * (s * l + h * l + t * h) + t * s) * (s + h))) with (2 * s * h * (2 * (s * l + h * l + t * h) + t * s)) by (field; posi).
  assert (0 < s * h * (2 * (t * h) + t * s)) by posi. nra.
Qed.
Print Assumptions C51_correlations.

(** ** Trends with the Reynolds number *)
Lemma rpow_up x y p : 0 < x < y -> 0 < p -> Rpower x p < Rpower y p.
Proof. intros H Hp. unfold Rpower. apply exp_increasing. apply Rmult_lt_compat_l; [exact Hp|]. apply ln_increasing; lra. Qed.
Lemma rpow_down x y p : 0 < x < y -> p < 0 -> Rpower y p < Rpower x p.
Proof. intros H Hp. unfold Rpower. apply exp_increasing. assert (ln x < ln y) by (apply ln_increasing; lra). nra. Qed.
Lemma rpow_pos x p : 0 < Rpower x p. Proof. apply exp_pos. Qed.
Lemma tenth x p k m : 0 < x -> 0 < k -> Rpower x p * Rpower (1 + k * Rpower x m) 0.1 = Rpower (Rpower x (10 * p) + k * Rpower x (m + 10 * p)) 0.1.
Proof.
  intros Hx Hk. rewrite Rpower_plus. replace (Rpower x (10 * p) + k * (Rpower x m * Rpower x (10 * p))) with (Rpower x (10 * p) * (1 + k * Rpower x m)) by ring.
  assert (0 < 1 + k * Rpower x m) by (pose proof (rpow_pos x m); nra). rewrite <- Rpower_mult_distr by (try apply rpow_pos; assumption).
  rewrite Rpower_mult. f_equal. f_equal. lra.
Qed.

(** A faster flow has smaller factors but more heat transfer and more pressure loss:
    j and f fall with the Reynolds number, Re j and Re^2 f rise. *)
Theorem C51_fin_trends Re Re' s h t l : 0 < s -> 0 < h -> 0 < t -> 0 < l -> 0 < Re < Re' ->
  0 < colburn Re' s h t l < colburn Re s h t l /\ 0 < friction Re' s h t l < friction Re s h t l /\
  Re * colburn Re s h t l < Re' * colburn Re' s h t l /\ Re ^ 2 * friction Re s h t l < Re' ^ 2 * friction Re' s h t l.
Proof.
  intros Hs Hh Ht Hl HR.
  assert (J : forall c k p m x, 0 < x -> 0 < k -> c * Rpower x p * Rpower (1 + k * Rpower x m) 0.1 = c * Rpower (Rpower x (10 * p) + k * Rpower x (m + 10 * p)) 0.1).
  { intros c k p m x Hx Hk. rewrite Rmult_assoc, tenth by assumption. reflexivity. }
  assert (D : forall c k p m, 0 < c -> 0 < k -> p < 0 -> m + 10 * p < 0 ->
    0 < c * Rpower Re' p * Rpower (1 + k * Rpower Re' m) 0.1 < c * Rpower Re p * Rpower (1 + k * Rpower Re m) 0.1).
  { intros c k p m Hc Hk Hp Hm. rewrite !J by lra. pose proof (rpow_down Re Re' (10 * p) HR ltac:(lra)) as A. pose proof (rpow_down Re Re' (m + 10 * p) HR Hm) as B.
    pose proof (rpow_pos Re' (10 * p)) as A'. pose proof (rpow_pos Re' (m + 10 * p)) as B'.
    split; [apply Rmult_lt_0_compat; [exact Hc | apply rpow_pos]|]. apply Rmult_lt_compat_l; [exact Hc|]. apply rpow_up; [|lra]. split; nra. }
  assert (U : forall c k p m, 0 < c -> 0 < k -> 0 < p -> 0 < m ->
    c * Rpower Re p * Rpower (1 + k * Rpower Re m) 0.1 < c * Rpower Re' p * Rpower (1 + k * Rpower Re' m) 0.1).
  { intros c k p m Hc Hk Hp Hm. rewrite !Rmult_assoc. apply Rmult_lt_compat_l; [exact Hc|].
    pose proof (rpow_up Re Re' p HR Hp) as A. pose proof (rpow_up Re Re' m HR Hm) as B. pose proof (rpow_pos Re p) as A'. pose proof (rpow_pos Re m) as B'.
    apply Rmult_gt_0_lt_compat; try apply rpow_pos; [exact A|]. apply rpow_up; [|lra]. split; nra. }
  set (cj := 0.6522 * (Rpower (s / h) (-0.1541) * Rpower (t / l) 0.1499 * Rpower (t / s) (-0.0678))).
  set (kj := 0.00005269 * (Rpower (s / h) 0.504 * Rpower (t / l) 0.456 * Rpower (t / s) (-1.055))).
  set (cf := 9.6243 * (Rpower (s / h) (-0.1856) * Rpower (t / l) 0.3053 * Rpower (t / s) (-0.2659))).
  set (kf := 0.00000007669 * (Rpower (s / h) 0.920 * Rpower (t / l) 3.767 * Rpower (t / s) 0.236)).
  assert (P3 : forall c a b d, 0 < c -> 0 < c * (Rpower a (fst (fst d)) * Rpower b (snd (fst d)) * Rpower (t / s) (snd d))).
  { intros c a b d Hc. repeat apply Rmult_lt_0_compat; try apply rpow_pos; exact Hc. }
  assert (C1 : 0 < cj) by (apply (P3 0.6522 (s/h) (t/l) ((-0.1541), 0.1499, (-0.0678))); lra).
  assert (C2 : 0 < kj) by (apply (P3 0.00005269 (s/h) (t/l) (0.504, 0.456, (-1.055))); lra).
  assert (C3 : 0 < cf) by (apply (P3 9.6243 (s/h) (t/l) ((-0.1856), 0.3053, (-0.2659))); lra).
  assert (C4 : 0 < kf) by (apply (P3 0.00000007669 (s/h) (t/l) (0.920, 3.767, 0.236)); lra).
  assert (EJ : forall x, colburn x s h t l = cj * Rpower x (-0.5403) * Rpower (1 + kj * Rpower x 1.340) 0.1).
  { intros x. unfold colburn, cj, kj. replace (1 + 0.00005269 * Rpower x 1.340 * Rpower (s / h) 0.504 * Rpower (t / l) 0.456 * Rpower (t / s) (-1.055)) with (1 + 0.00005269 * (Rpower (s / h) 0.504 * Rpower (t / l) 0.456 * Rpower (t / s) (-1.055)) * Rpower x 1.340) by ring. ring. }
  assert (EF : forall x, friction x s h t l = cf * Rpower x (-0.7422) * Rpower (1 + kf * Rpower x 4.429) 0.1).
  { intros x. unfold friction, cf, kf. replace (1 + 0.00000007669 * Rpower x 4.429 * Rpower (s / h) 0.920 * Rpower (t / l) 3.767 * Rpower (t / s) 0.236) with (1 + 0.00000007669 * (Rpower (s / h) 0.920 * Rpower (t / l) 3.767 * Rpower (t / s) 0.236) * Rpower x 4.429) by ring. ring. }
  clearbody cj kj cf kf. rewrite !EJ, !EF. split; [apply D; lra|]. split; [apply D; lra|]. split.
  - assert (M : forall x, 0 < x -> x * (cj * Rpower x (-0.5403) * Rpower (1 + kj * Rpower x 1.340) 0.1) = cj * Rpower x 0.4597 * Rpower (1 + kj * Rpower x 1.340) 0.1).
    { intros x Hx. replace 0.4597 with (1 + -0.5403) by lra. rewrite Rpower_plus, Rpower_1 by exact Hx. ring. }
    rewrite !M by lra. apply U; lra.
  - assert (M : forall x, 0 < x -> x ^ 2 * (cf * Rpower x (-0.7422) * Rpower (1 + kf * Rpower x 4.429) 0.1) = cf * Rpower x 1.2578 * Rpower (1 + kf * Rpower x 4.429) 0.1).
    { intros x Hx. replace 1.2578 with (INR 2 + -0.7422) by (cbn; lra). rewrite Rpower_plus, Rpower_pow by exact Hx. ring. }
    rewrite !M by lra. apply U; lra.
Qed.
Print Assumptions C51_fin_trends.
