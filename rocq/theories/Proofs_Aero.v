(** Lemmas about [Model_Aero]. *)
From Coq Require Import Reals List Bool PeanoNat String Lra Lia.
From Verif Require Import Base Py RSum Calc Model_Phases Proofs_Phases Model_Aero.
Import ListNotations.
Open Scope R_scope.
Open Scope string_scope.

Lemma sca_node C E i x : assoc x (pc_ins C) = Some Sca -> E x 0%nat = node C E i x.
Proof. intro H. unfold node. now rewrite H. Qed.

Lemma Rpower_half x : 0 < x -> Rpower x (5/10) = sqrt x.
Proof. intro H. rewrite <- (Rpower_sqrt x H). f_equal. lra. Qed.
Lemma Rpower_15 x : 0 < x -> Rpower x (15/10) = x * sqrt x.
Proof. intro H. replace (15/10) with (1 + 5/10) by lra. rewrite Rpower_plus, Rpower_1, Rpower_half; auto. Qed.
Lemma Rpower_mhalf x : 0 < x -> Rpower x (- (5/10)) = / sqrt x.
Proof. intro H. rewrite Rpower_Ropp, Rpower_half; auto. Qed.
Lemma Rpower_mhalf' x : 0 < x -> Rpower x (5/10 - 1) = / sqrt x.
Proof. intro H. rewrite <- Rpower_mhalf by auto. f_equal. lra. Qed.

Lemma polar_jac v n E : (0 < n)%nat -> E "e" 0%nat <> 0 -> E "ac|geom|wing|AR" 0%nat <> 0 -> jac_correct n (PolarDrag v) E.
Proof.
  intros Hn He HA. apply jac_correct_lift; auto. intros i Hi.
  assert (HP : PI <> 0) by (pose proof PI_RGT_0; lra).
  destruct v.
  - change (E "e" 0%nat) with (node (PolarDrag true) E i "e") in *.
    change (E "ac|geom|wing|AR" 0%nat) with (node (PolarDrag true) E i "ac|geom|wing|AR") in *.
    generalize dependent (node (PolarDrag true) E i); intros e He HA.
    split_jac PolarDrag; auto_derive; try tauto; try (field; tauto).
  - change (E "e" 0%nat) with (node (PolarDrag false) E i "e") in *.
    change (E "ac|geom|wing|AR" 0%nat) with (node (PolarDrag false) E i "ac|geom|wing|AR") in *.
    generalize dependent (node (PolarDrag false) E i); intros e He HA.
    split_jac PolarDrag; auto_derive; try tauto; try (field; tauto).
Qed.

Lemma stall_jac n E : (0 < n)%nat -> 0 < E "weight" 0%nat -> 0 < E "ac|geom|wing|S_ref" 0%nat -> 0 < E "CLmax" 0%nat ->
  jac_correct n StallSpeed E.
Proof.
  intros Hn HW HS HC. apply jac_correct_lift; auto. intros i Hi.
  change (E "weight" 0%nat) with (node StallSpeed E i "weight") in *.
  change (E "ac|geom|wing|S_ref" 0%nat) with (node StallSpeed E i "ac|geom|wing|S_ref") in *.
  change (E "CLmax" 0%nat) with (node StallSpeed E i "CLmax") in *.
  generalize dependent (node StallSpeed E i); intros e HW HS HC.
  pose proof GRAV_pos as HG. 
  assert (HA : 0 < 2 * e "weight" * GRAV / (1225/1000) / e "ac|geom|wing|S_ref" / e "CLmax").
  { unfold Rdiv. repeat apply Rmult_lt_0_compat; try apply Rinv_0_lt_compat; lra. }
  pose proof (sqrt_lt_R0 _ HA) as HQ.
  split_jac StallSpeed;
    (auto_derive; [repeat split; try lra; exact HA|]);
    set (Q := sqrt _) in *; field; repeat split; lra.
Qed.

Lemma clean_jac f n E : (0 < n)%nat -> jac_correct n (CleanCLmax f) E.
Proof.
  intros Hn. apply jac_correct_lift; auto. intros i Hi. generalize (node (CleanCLmax f) E i); intros e.
  split_jac CleanCLmax; auto_derive; auto; ring.
Qed.

Lemma flap_jac a b c d f n E : (0 < n)%nat -> 0 < cos (E "ac|geom|wing|c4sweep" 0%nat) -> jac_correct n (FlapCLmax a b c d f) E.
Proof.
  intros Hn HC. apply jac_correct_lift; auto. intros i Hi.
  change (E "ac|geom|wing|c4sweep" 0%nat) with (node (FlapCLmax a b c d f) E i "ac|geom|wing|c4sweep") in *.
  generalize dependent (node (FlapCLmax a b c d f) E i); intros e HC.
  split_jac FlapCLmax; unfold fl_k2, fl_k3, fl_base; try (auto_derive; [tauto|ring]).
  assert (P : Rpower (cos (e "ac|geom|wing|c4sweep")) (75/100) =
              cos (e "ac|geom|wing|c4sweep") / Rpower (cos (e "ac|geom|wing|c4sweep")) (25/100)).
  { replace (75/100) with (1 + - (25/100)) by lra. rewrite Rpower_plus, Rpower_1, Rpower_Ropp; auto. }
  assert (HR : 0 < Rpower (cos (e "ac|geom|wing|c4sweep")) (25/100)) by apply exp_pos.
  unfold Rpower at 1. auto_derive; [exact HC|].
  replace (exp (75 / 100 * ln (cos (e "ac|geom|wing|c4sweep")))) with (Rpower (cos (e "ac|geom|wing|c4sweep")) (75/100)) by reflexivity.
  rewrite P. set (q := Rpower _ _) in *. set (co := cos _) in *. set (si := sin _).
  field. split; lra.
Qed.

Lemma hstab_jac C n E : (0 < n)%nat -> E "ac|geom|hstab|c4_to_wing_c4" 0%nat <> 0 -> jac_correct n (HStabSizing C) E.
Proof.
  intros Hn HL. apply jac_correct_lift; auto. intros i Hi.
  change (E "ac|geom|hstab|c4_to_wing_c4" 0%nat) with (node (HStabSizing C) E i "ac|geom|hstab|c4_to_wing_c4") in *.
  generalize dependent (node (HStabSizing C) E i); intros e HL.
  split_jac HStabSizing; auto_derive; try tauto; field; tauto.
Qed.
Lemma vstab_jac C n E : (0 < n)%nat -> E "ac|geom|vstab|c4_to_wing_c4" 0%nat <> 0 ->
  0 < E "ac|geom|wing|S_ref" 0%nat -> 0 < E "ac|geom|wing|AR" 0%nat -> jac_correct n (VStabSizing C) E.
Proof.
  intros Hn HL HS HA. apply jac_correct_lift; auto. intros i Hi.
  change (E "ac|geom|vstab|c4_to_wing_c4" 0%nat) with (node (VStabSizing C) E i "ac|geom|vstab|c4_to_wing_c4") in *.
  change (E "ac|geom|wing|S_ref" 0%nat) with (node (VStabSizing C) E i "ac|geom|wing|S_ref") in *.
  change (E "ac|geom|wing|AR" 0%nat) with (node (VStabSizing C) E i "ac|geom|wing|AR") in *.
  generalize dependent (node (VStabSizing C) E i); intros e HL HS HA.
  pose proof (sqrt_lt_R0 _ HA) as HQ. pose proof (sqrt_lt_R0 _ HS) as HR. pose proof (sqrt_sqrt _ (Rlt_le _ _ HS)) as HRR.
  split_jac VStabSizing.
  - rewrite sqrt_mult by lra.
    unfold Rpower. auto_derive; [repeat split; auto|].
    replace (exp (15 / 10 * ln (e "ac|geom|wing|S_ref"))) with (Rpower (e "ac|geom|wing|S_ref") (15/10)) by reflexivity.
    rewrite Rpower_15 by auto. field. lra.
  - rewrite Rpower_mhalf by auto. auto_derive; [repeat split; lra|]. field. lra.
  - auto_derive; [tauto|]. field. tauto.
Qed.

Lemma mac_derive (f g : R -> R) (x f' g' : R) : is_derive f x f' -> is_derive g x g' -> f x + g x <> 0 ->
  is_derive (fun t => mac_of (f t) (g t)) x
    (2/3 * (1 - g x ^ 2 / (f x + g x) ^ 2) * f' + 2/3 * (1 - f x ^ 2 / (f x + g x) ^ 2) * g').
Proof.
  intros Hf Hg H. unfold mac_of.
  apply (derive_eq _ _ (2/3 * (f' + g' - ((f' * g x + f x * g') * (f x + g x) - f x * g x * (f' + g')) / (f x + g x) ^ 2))).
  - apply derive_mull. apply derive_minus.
    + now apply derive_plus.
    + apply (derive_div (fun t => f t * g t) (fun t => f t + g t)); auto.
      * now apply derive_mult.
      * now apply derive_plus.
  - field. auto.
Qed.

Lemma trap_jac n E : (0 < n)%nat -> 0 < E "S_ref" 0%nat -> 0 < E "AR" 0%nat -> 1 + E "taper" 0%nat <> 0 -> jac_correct n WingMACTrapezoidal E.
Proof.
  intros Hn HS HA HT. apply jac_correct_lift; auto. intros i Hi.
  change (E "S_ref" 0%nat) with (node WingMACTrapezoidal E i "S_ref") in *.
  change (E "AR" 0%nat) with (node WingMACTrapezoidal E i "AR") in *.
  change (E "taper" 0%nat) with (node WingMACTrapezoidal E i "taper") in *.
  generalize dependent (node WingMACTrapezoidal E i); intros e HS HA HT.
  pose proof (sqrt_lt_R0 _ HA) as HQ. pose proof (sqrt_lt_R0 _ HS) as HR.
  pose proof (sqrt_sqrt _ (Rlt_le _ _ HS)) as SS. pose proof (sqrt_sqrt _ (Rlt_le _ _ HA)) as AA.
  assert (HD : 0 < e "S_ref" / e "AR") by (unfold Rdiv; apply Rmult_lt_0_compat; auto; apply Rinv_0_lt_compat; auto).
  pose proof (sqrt_lt_R0 _ HD) as HQD.
  assert (Hden : sqrt (e "S_ref" / e "AR") * 2 / (1 + e "taper") + e "taper" * (sqrt (e "S_ref" / e "AR") * 2 / (1 + e "taper")) <> 0).
  { replace (_ + _) with (sqrt (e "S_ref" / e "AR") * 2) by (field; auto). lra. }
  assert (SD : sqrt (e "S_ref" * / e "AR") = sqrt (e "S_ref") / sqrt (e "AR")) by (apply sqrt_div; lra).
  split_jac WingMACTrapezoidal.
  - eapply derive_eq; [apply (mac_derive (fun t => sqrt (t / e "AR") * 2 / (1 + e "taper")) (fun t => e "taper" * (sqrt (t / e "AR") * 2 / (1 + e "taper"))) (e "S_ref")
      (5/10 / sqrt (e "S_ref" * e "AR") * 2 / (1 + e "taper")) (e "taper" * (5/10 / sqrt (e "S_ref" * e "AR") * 2 / (1 + e "taper")))); auto|ring].
    + auto_derive; [exact HD|]. rewrite SD. rewrite sqrt_mult by lra. rewrite <- AA at 1. field. repeat split; lra.
    + apply derive_mull. auto_derive; [exact HD|]. rewrite SD. rewrite sqrt_mult by lra. rewrite <- AA at 1. field. repeat split; lra.
  - rewrite Rpower_half, Rpower_15 by auto.
    eapply derive_eq; [apply (mac_derive (fun t => sqrt (e "S_ref" / t) * 2 / (1 + e "taper")) (fun t => e "taper" * (sqrt (e "S_ref" / t) * 2 / (1 + e "taper"))) (e "AR")
      (- (5/10) * sqrt (e "S_ref") / (e "AR" * sqrt (e "AR")) * 2 / (1 + e "taper")) (e "taper" * (- (5/10) * sqrt (e "S_ref") / (e "AR" * sqrt (e "AR")) * 2 / (1 + e "taper")))); auto|ring].
    + auto_derive; [split; [lra|split; [exact HD|auto]]|]. rewrite SD. clear - SS AA HQ HR HT. set (a := sqrt (e "AR")) in *. set (s := sqrt (e "S_ref")) in *. clearbody a s. rewrite <- SS, <- AA. field. repeat split; lra.
    + apply derive_mull. auto_derive; [split; [lra|split; [exact HD|auto]]|]. rewrite SD. clear - SS AA HQ HR HT. set (a := sqrt (e "AR")) in *. set (s := sqrt (e "S_ref")) in *. clearbody a s. rewrite <- SS, <- AA. field. repeat split; lra.
  - set (q := sqrt (e "S_ref" / e "AR")) in *.
    eapply derive_eq; [apply (mac_derive (fun t => q * 2 / (1 + t)) (fun t => t * (q * 2 / (1 + t))) (e "taper")
      (- q * 2 / (1 + e "taper") ^ 2) (1 * (q * 2 / (1 + e "taper")) + e "taper" * (- q * 2 / (1 + e "taper") ^ 2))); auto|ring].
    + auto_derive; [auto|]. field. auto.
    + auto_derive; [auto|]. field. auto.
Qed.

Lemma span_jac n E : (0 < n)%nat -> 0 < E "S_ref" 0%nat -> 0 < E "AR" 0%nat -> jac_correct n WingSpan E.
Proof.
  intros Hn HS HA. apply jac_correct_lift; auto. intros i Hi.
  change (E "S_ref" 0%nat) with (node WingSpan E i "S_ref") in *.
  change (E "AR" 0%nat) with (node WingSpan E i "AR") in *.
  generalize dependent (node WingSpan E i); intros e HS HA.
  assert (L : forall x k, 0 < x -> k - 1 = k + - (1) -> Rpower x (k - 1) = Rpower x k / x).
  { intros x k Hx ->. rewrite Rpower_plus, Rpower_Ropp, Rpower_1; auto. }
  split_jac WingSpan.
  - rewrite L by (auto; lra). unfold Rpower. auto_derive; [auto|]. field. lra.
  - rewrite L by (auto; lra). unfold Rpower. auto_derive; [auto|]. field. lra.
Qed.
Lemma aspect_jac n E : (0 < n)%nat -> E "S_ref" 0%nat <> 0 -> jac_correct n WingAspectRatio E.
Proof.
  intros Hn HS. apply jac_correct_lift; auto. intros i Hi.
  change (E "S_ref" 0%nat) with (node WingAspectRatio E i "S_ref") in *.
  generalize dependent (node WingAspectRatio E i); intros e HS.
  split_jac WingAspectRatio; auto_derive; try tauto; field; tauto.
Qed.
Lemma cyl_jac n E : (0 < n)%nat -> jac_correct n CylinderSurfaceArea E.
Proof.
  intros Hn. apply jac_correct_lift; auto. intros i Hi. generalize (node CylinderSurfaceArea E i); intros e.
  split_jac CylinderSurfaceArea; auto_derive; try tauto; ring.
Qed.

(** ** Sections *)
(** The straight line through (y1, v1) and (y2, v2). *)
Definition line (y1 y2 v1 v2 t : R) : R := v1 + (v2 - v1) * (t - y1) / (y2 - y1).

Lemma int_poly3 a b c0 c1 c2 : is_RInt (fun t => c0 + c1 * t + c2 * t ^ 2) a b
  ((c0 * b + c1 * b ^ 2 / 2 + c2 * b ^ 3 / 3) - (c0 * a + c1 * a ^ 2 / 2 + c2 * a ^ 3 / 3)).
Proof.
  apply (is_RInt_derive (fun t => c0 * t + c1 * t ^ 2 / 2 + c2 * t ^ 3 / 3)).
  - intros x _. auto_derive; auto. field.
  - intros x _. apply cont_ex. auto_derive. auto.
Qed.

(** Integral of the product of two functions that are straight on [y1, y2]. *)
Lemma int_line2 (f g : R -> R) y1 y2 f1 f2 g1 g2 : y1 < y2 ->
  (forall t, y1 <= t <= y2 -> f t = line y1 y2 f1 f2 t) -> (forall t, y1 <= t <= y2 -> g t = line y1 y2 g1 g2 t) ->
  is_RInt (fun t => f t * g t) y1 y2 ((y2 - y1) * (2 * f1 * g1 + f1 * g2 + f2 * g1 + 2 * f2 * g2) / 6).
Proof.
  intros Hy Hf Hg.
  set (p := (f2 - f1) / (y2 - y1)). set (q := (g2 - g1) / (y2 - y1)).
  apply (is_RInt_ext (fun t => (f1 - p * y1) * (g1 - q * y1) + ((f1 - p * y1) * q + p * (g1 - q * y1)) * t + p * q * t ^ 2)).
  - intros x Hx. rewrite Rmin_left, Rmax_right in Hx by lra. rewrite Hf, Hg by lra.
    match goal with |- ?a = ?b => change (@eq R a b) end. unfold line, p, q. field. lra.
  - replace (_ / 6) with
      ((((f1 - p * y1) * (g1 - q * y1)) * y2 + ((f1 - p * y1) * q + p * (g1 - q * y1)) * y2 ^ 2 / 2 + p * q * y2 ^ 3 / 3) -
       (((f1 - p * y1) * (g1 - q * y1)) * y1 + ((f1 - p * y1) * q + p * (g1 - q * y1)) * y1 ^ 2 / 2 + p * q * y1 ^ 3 / 3))
      by (unfold p, q; field; lra).
    apply int_poly3.
Qed.
Lemma int_line1 (f : R -> R) y1 y2 f1 f2 : y1 < y2 -> (forall t, y1 <= t <= y2 -> f t = line y1 y2 f1 f2 t) ->
  is_RInt f y1 y2 ((f1 + f2) / 2 * (y2 - y1)).
Proof.
  intros Hy Hf. apply (is_RInt_ext (fun t => f t * 1)); [intros; apply Rmult_1_r|].
  replace (_ * (y2 - y1)) with ((y2 - y1) * (2 * f1 * 1 + f1 * 1 + f2 * 1 + 2 * f2 * 1) / 6) by field.
  apply (int_line2 f (fun _ => 1) y1 y2 f1 f2 1 1); auto. intros. unfold line. field. lra.
Qed.

(** Integrals over consecutive panels add up. *)
Lemma int_panels (f : R -> R) (y p : nat -> R) s n :
  (forall k, (k < n)%nat -> is_RInt f (y (s + k)%nat) (y (s + k + 1)%nat) (p k)) ->
  is_RInt f (y s) (y (s + n)%nat) (rsum n p).
Proof.
  induction n; intros H.
  - rewrite Nat.add_0_r. apply (is_RInt_point f (y s)).
  - replace (s + S n)%nat with (s + n + 1)%nat by lia. change (rsum (S n) p) with (rsum n p + p n).
    apply (is_RInt_Chasles f _ (y (s + n)%nat)); [apply IHn; intros; apply H; lia|apply H; lia].
Qed.

(** Splitting one panel in two. *)
Lemma rsum_split_panel n j (g g' : nat -> R) : (j < n)%nat ->
  (forall k, (k < j)%nat -> g' k = g k) -> g' j + g' (j + 1)%nat = g j ->
  (forall k, (j < k < n)%nat -> g' (k + 1)%nat = g k) -> rsum (S n) g' = rsum n g.
Proof.
  intros Hj Hlo Hm Hhi. induction n; [lia|].
  change (rsum (S (S n)) g') with (rsum (S n) g' + g' (S n)). change (rsum (S n) g) with (rsum n g + g n).
  destruct (Nat.eq_dec j n) as [->|Hne].
  - change (rsum (S n) g') with (rsum n g' + g' n). rewrite (rsum_ext n g' g) by auto.
    rewrite <- Hm. replace (n + 1)%nat with (S n) by lia. ring.
  - rewrite IHn; [|lia|intros; apply Hhi; lia]. rewrite <- (Hhi n) by lia. f_equal. f_equal. lia.
Qed.

(** ** Costs *)
Lemma sum_in_rsum f n : sum_in f n = rsum n f.
Proof. induction n; simpl; [reflexivity|now rewrite IHn]. Qed.
Lemma adj_oew_rsum e n : adj_oew e n = e OEW - rsum n (fun i => e (CompWeight i)).
Proof. induction n; simpl; [ring|rewrite IHn; ring]. Qed.
