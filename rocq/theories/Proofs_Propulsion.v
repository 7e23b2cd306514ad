(** Lemmas about the propulsion components and the battery. *)
From Coq Require Import Reals List Bool PeanoNat String Lra Lia.
From Verif Require Import Base Py RSum Calc Model_Algebra Spec_Algebra Proofs_Algebra Model_Atmos Model_Integrals
  Spec_Integrals Proofs_Integrals Model_Propulsion.
Import ListNotations.
Open Scope R_scope.
Open Scope string_scope.

Lemma motor_jac n o E : (0 < n)%nat -> jac_correct n (SimpleMotor o) E.
Proof.
  intros Hn. apply jac_correct_lift; auto. intros i Hi. generalize (node (SimpleMotor o) E i); intro e.
  split_jac SimpleMotor. all: auto_derive; [tauto|ring].
Qed.
Lemma turboshaft_jac n psfc o E : (0 < n)%nat -> jac_correct n (SimpleTurboshaft psfc o) E.
Proof.
  intros Hn. apply jac_correct_lift; auto. intros i Hi. generalize (node (SimpleTurboshaft psfc o) E i); intro e.
  split_jac SimpleTurboshaft. all: auto_derive; [tauto|ring].
Qed.
Lemma generator_jac n o E : (0 < n)%nat -> E "elec_power_rating" 0%nat <> 0 -> jac_correct n (SimpleGenerator o) E.
Proof.
  intros Hn H. apply jac_correct_lift; auto. intros i Hi.
  change (E "elec_power_rating" 0%nat) with (node (SimpleGenerator o) E i "elec_power_rating") in *.
  generalize dependent (node (SimpleGenerator o) E i); intros e H.
  split_jac SimpleGenerator. all: auto_derive; [tauto|try (field; tauto)].
Qed.
Lemma fraction_jac n o E : (0 < n)%nat -> E "power_rating" 0%nat <> 0 -> jac_correct n (SplitFraction o) E.
Proof.
  intros Hn H. apply jac_correct_lift; auto. intros i Hi.
  change (E "power_rating" 0%nat) with (node (SplitFraction o) E i "power_rating") in *.
  generalize dependent (node (SplitFraction o) E i); intros e H.
  unfold SplitFraction, split_outs, split_J. unfold node_jac_ok; cbn [pc_outs pc_ins].
  repeat (apply Forall_cons; [repeat (apply Forall_cons; [|]); try apply Forall_nil|]); try apply Forall_nil;
  unfold nval, njac, upd; names.
  all: auto_derive; [tauto|try (field; tauto)].
Qed.
Lemma fixed_jac n o E : (0 < n)%nat -> E "power_rating" 0%nat <> 0 ->
  (forall i, (i < n)%nat -> E "power_in" i <> E "power_split_amount" i) -> jac_correct n (SplitFixed o) E.
Proof.
  intros Hn H Hs. apply jac_correct_lift; auto. intros i Hi. specialize (Hs i Hi).
  change (E "power_rating" 0%nat) with (node (SplitFixed o) E i "power_rating") in *.
  change (E "power_in" i) with (node (SplitFixed o) E i "power_in") in *.
  change (E "power_split_amount" i) with (node (SplitFixed o) E i "power_split_amount") in *.
  generalize dependent (node (SplitFixed o) E i); intros e H Hs.
  unfold SplitFixed, split_outs, split_J. unfold node_jac_ok; cbn [pc_outs pc_ins].
  repeat (apply Forall_cons; [repeat (apply Forall_cons; [|]); try apply Forall_nil|]); try apply Forall_nil;
  unfold nval, njac, upd; names.
  all: lazymatch goal with
  | |- is_derive (fun t => if Rlt_dec (@?g t) (@?h t) then @?a t else @?b t) ?x ?l =>
      apply (derive_if_lt2 g h a b x l);
        [apply (cont_ex g x); auto_derive; auto
        |apply (cont_ex h x); auto_derive; auto
        |cbv beta; auto
        |cbv beta; intro; try match goal with |- context [Rlt_dec ?p ?q] => destruct (Rlt_dec p q); try lra end; auto_derive; [tauto|try ring]
        |cbv beta; intro; try match goal with |- context [Rlt_dec ?p ?q] => destruct (Rlt_dec p q); try lra end; auto_derive; [tauto|try ring]]
  | |- _ => auto_derive; [tauto|try (field; tauto)]
  end.
Qed.

Lemma battery_jac n eta p_b ci cb E : (0 < n)%nat -> p_b <> 0 -> E "battery_weight" 0%nat <> 0 ->
  jac_correct n (SimpleBattery eta p_b ci cb) E.
Proof.
  intros Hn Hp H. apply jac_correct_lift; auto. intros i Hi.
  change (E "battery_weight" 0%nat) with (node (SimpleBattery eta p_b ci cb) E i "battery_weight") in *.
  generalize dependent (node (SimpleBattery eta p_b ci cb) E i); intros e H.
  split_jac SimpleBattery.
  all: auto_derive; [try tauto; try (repeat split; auto; apply Rmult_integral_contrapositive_currified; auto)|try (field; tauto)].
Qed.

(** ** Propeller *)
Lemma coefficients_jac n E : (0 < n)%nat -> E "diameter" 0%nat <> 0 ->
  (forall i, (i < n)%nat -> E "rpm" i <> 0 /\ E "fltcond|rho" i <> 0 /\ E "fltcond|Utrue" i <> 0) ->
  jac_correct n PropCoefficients E.
Proof.
  intros Hn Hd H. apply jac_correct_lift; auto. intros i Hi. specialize (H i Hi).
  change (E "diameter" 0%nat) with (node PropCoefficients E i "diameter") in *.
  change (E "rpm" i) with (node PropCoefficients E i "rpm") in *.
  change (E "fltcond|rho" i) with (node PropCoefficients E i "fltcond|rho") in *.
  change (E "fltcond|Utrue" i) with (node PropCoefficients E i "fltcond|Utrue") in *.
  generalize dependent (node PropCoefficients E i); intros e Hd (Hr & Hrho & HU).
  split_jac PropCoefficients.
  all: unfold prop_cp, prop_J; cbn [upd String.eqb Ascii.eqb Bool.eqb].
  all: auto_derive; [repeat split; auto; try (repeat apply Rmult_integral_contrapositive_currified; auto; lra)|try (field; tauto)].
Qed.

Lemma by_regime_cases {A} (j : R) (s i d : A) :
  (j <= jmin /\ by_regime j s i d = s) \/ (jmin < j < jmax /\ by_regime j s i d = i) \/ (jmax <= j /\ by_regime j s i d = d).
Proof.
  unfold by_regime. destruct (Rle_dec j jmin); [auto|]. destruct (Rge_dec j jmax); [right; right; split; [lra|auto]|].
  right; left. split; [lra|auto].
Qed.
Lemma jrange : jmin < jmax /\ 0 < jmin.
Proof. unfold jmin, jmax. lra. Qed.
Lemma thrust_same e : prop_thrust' e = prop_thrust e.
Proof.
  unfold prop_thrust', prop_thrust, dctdcp, prop_ct, ct1, ct2, by_regime.
  destruct (Rle_dec (e "J") jmin); [ring|]. destruct (Rge_dec (e "J") jmax); unfold Rdiv; ring.
Qed.

Lemma thrust_jac n E : (0 < n)%nat -> E "diameter" 0%nat <> 0 ->
  (forall i, (i < n)%nat -> E "J" i <> jmin /\ E "J" i <> jmax /\ E "fltcond|rho" i <> 0 /\ E "rpm" i <> 0 /\
     E "ct_over_cp" i <> 0 /\ E "eta_prop" i <> 0) ->
  jac_correct n ThrustCalc E.
Proof.
  intros Hn Hd H. apply jac_correct_lift; auto. intros i Hi. specialize (H i Hi).
  change (E "diameter" 0%nat) with (node ThrustCalc E i "diameter") in *.
  change (E "rpm" i) with (node ThrustCalc E i "rpm") in *.
  change (E "J" i) with (node ThrustCalc E i "J") in *.
  change (E "ct_over_cp" i) with (node ThrustCalc E i "ct_over_cp") in *.
  change (E "eta_prop" i) with (node ThrustCalc E i "eta_prop") in *.
  change (E "fltcond|rho" i) with (node ThrustCalc E i "fltcond|rho") in *.
  generalize dependent (node ThrustCalc E i); intros e Hd (Hj1 & Hj2 & Hrho & Hr & Hc & He).
  destruct jrange as [Jr J0].
  assert (Hw : jmax - jmin <> 0) by lra.
  split_jac ThrustCalc.
  all: unfold prop_thrust, prop_thrust', thrust_over_ct, prop_ct, dctdcp, ct1, ct2, interp1, interp2;
       cbn [upd String.eqb Ascii.eqb Bool.eqb].
  1,2,4,5,6,7: unfold by_regime; destruct (Rle_dec (e "J") jmin);
    [|destruct (Rge_dec (e "J") jmax); assert (e "J" <> 0) by lra];
    auto_derive; try tauto; field; tauto.
  destruct (Rlt_dec (e "J") jmin) as [L|L]; [|destruct (Rlt_dec jmax (e "J")) as [G|G]].
  - apply (derive_near (fun t => e "ct_over_cp" * e "cp" * e "fltcond|rho" * (e "rpm" / 60) ^ 2 * e "diameter" ^ 4) _ (fun t => t < jmin)).
    + apply (near_lt_c (fun t => t)); [apply continuous_id|exact L].
    + intros t Ht. destruct (by_regime_cases t (e "ct_over_cp" * e "cp")
        ((jmax - t) / (jmax - jmin) * (e "ct_over_cp" * e "cp") + (t - jmin) / (jmax - jmin) * (e "cp" * e "eta_prop" / t)) (e "cp" * e "eta_prop" / t))
        as [[A ->]|[[A ->]|[A ->]]]; try lra.
    + unfold by_regime. destruct (Rle_dec (e "J") jmin); [|lra]. apply derive_const.
  - apply (derive_near (fun t => e "cp" * e "eta_prop" / t * e "fltcond|rho" * (e "rpm" / 60) ^ 2 * e "diameter" ^ 4) _ (fun t => jmax < t)).
    + apply (near_gt_c (fun t => t)); [apply continuous_id|exact G].
    + intros t Ht. destruct (by_regime_cases t (e "ct_over_cp" * e "cp")
        ((jmax - t) / (jmax - jmin) * (e "ct_over_cp" * e "cp") + (t - jmin) / (jmax - jmin) * (e "cp" * e "eta_prop" / t)) (e "cp" * e "eta_prop" / t))
        as [[A ->]|[[A ->]|[A ->]]]; try lra.
    + unfold by_regime. destruct (Rle_dec (e "J") jmin); [lra|]. destruct (Rge_dec (e "J") jmax); [|lra].
      assert (e "J" <> 0) by lra. auto_derive; auto. field; tauto.
  - assert (Hm : jmin < e "J" < jmax) by lra.
    apply (derive_near (fun t => ((jmax - t) / (jmax - jmin) * (e "ct_over_cp" * e "cp") + (t - jmin) / (jmax - jmin) * (e "cp" * e "eta_prop" / t))
              * e "fltcond|rho" * (e "rpm" / 60) ^ 2 * e "diameter" ^ 4) _ (fun t => jmin < t /\ t < jmax)).
    + apply filter_and; [apply (near_gt_c (fun t => t))|apply (near_lt_c (fun t => t))]; try apply continuous_id; apply Hm.
    + intros t Ht. destruct (by_regime_cases t (e "ct_over_cp" * e "cp")
        ((jmax - t) / (jmax - jmin) * (e "ct_over_cp" * e "cp") + (t - jmin) / (jmax - jmin) * (e "cp" * e "eta_prop" / t)) (e "cp" * e "eta_prop" / t))
        as [[A ->]|[[A ->]|[A ->]]]; try lra.
    + unfold by_regime. destruct (Rle_dec (e "J") jmin); [lra|]. destruct (Rge_dec (e "J") jmax); [lra|].
      assert (e "J" <> 0) by lra. auto_derive; auto. field; tauto.
Qed.

(** Continuity in the advance ratio. *)
Lemma thrust_blend e j : 0 < j ->
  prop_thrust (upd e "J" j) =
  (let w := Rmin (Rmax (interp1 j) 0) 1 in
   w * (e "ct_over_cp" * e "cp") + (1 - w) * (e "cp" * e "eta_prop" / j)) * e "fltcond|rho" * (e "rpm" / 60) ^ 2 * e "diameter" ^ 4.
Proof.
  intro Hj. cbv zeta. unfold prop_thrust, prop_ct, ct1, ct2. cbn [upd String.eqb Ascii.eqb Bool.eqb].
  destruct (by_regime_cases j (e "ct_over_cp" * e "cp")
      (interp1 j * (e "ct_over_cp" * e "cp") + interp2 j * (e "cp" * e "eta_prop" / j)) (e "cp" * e "eta_prop" / j)) as [[A ->]|[[A ->]|[A ->]]];
  unfold interp1, interp2, jmin, jmax in *.
  - rewrite (Rmax_left _ 0), (Rmin_right _ 1) by lra. ring.
  - rewrite (Rmax_left _ 0), (Rmin_left _ 1) by lra. f_equal. f_equal. f_equal. field. lra.
  - rewrite (Rmax_right _ 0), (Rmin_left _ 1) by lra. ring.
Qed.
