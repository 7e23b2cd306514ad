(** Proofs about the phase components. *)
From Verif Require Import Base Calc Model_Phases.
Open Scope R_scope.
Open Scope string_scope.

Lemma GRAV_pos : 0 < GRAV. Proof. unfold GRAV. lra. Qed.

(** ** Groundspeeds *)
Lemma gs_fixed_derive (g : R -> R) x g' : is_derive g x g' -> g x <> 0 ->
  is_derive (fun t => sqrt (if Rlt_dec (g t) 0 then 1/100 else g t)) x
    (if Rlt_dec (g x) 0 then 0 else (1/2) / sqrt (if Rlt_dec (g x) 0 then 1/100 else g x) * g').
Proof.
  intros Hg H0.
  apply (is_derive_ext (fun t => if Rlt_dec (g t) 0 then sqrt (1/100) else sqrt (g t))).
  { intro t. destruct (Rlt_dec (g t) 0); reflexivity. }
  apply derive_if_lt; [eapply cont_of; eauto|auto| |]; intro Hs.
  - destruct (Rlt_dec (g x) 0); [|lra]. apply (is_derive_const (sqrt (1/100))).
  - destruct (Rlt_dec (g x) 0); [lra|]. 
    eapply derive_eq; [apply derive_sqrt; eauto|]. field. apply Rgt_not_eq, sqrt_lt_R0. lra.
Qed.

Lemma gs_jac n E : (0 < n)%nat ->
  (forall i, (i < n)%nat -> E "fltcond|Utrue" i <> 0 /\ (E "fltcond|Utrue" i) ^ 2 <> (E "fltcond|vs" i) ^ 2) ->
  jac_correct n Groundspeeds E.
Proof.
  intros Hn H. apply jac_correct_lift; auto. intros i Hi. specialize (H i Hi). destruct H as [HU Hv].
  change (E "fltcond|Utrue" i) with (node Groundspeeds E i "fltcond|Utrue") in *.
  change (E "fltcond|vs" i) with (node Groundspeeds E i "fltcond|vs") in *.
  generalize dependent (node Groundspeeds E i). intros e HU Hv.
  split_jac Groundspeeds; unfold gs_J_vs, gs_J_U, gs_fixed, gs_inside; names;
    set (U := e "fltcond|Utrue") in *; set (v := e "fltcond|vs") in *.
  all: assert (D1 : is_derive (fun t => U ^ 2 - t ^ 2) v (- 2 * v)) by (auto_derive; auto; ring).
  all: assert (D2 : is_derive (fun t => t ^ 2 - v ^ 2) U (2 * U)) by (auto_derive; auto; ring).
  all: assert (H0 : U ^ 2 - v ^ 2 <> 0) by lra.
  all: pose proof (gs_fixed_derive (fun t => U ^ 2 - t ^ 2) v _ D1 H0) as S1.
  all: pose proof (gs_fixed_derive (fun t => t ^ 2 - v ^ 2) U _ D2 H0) as S2.
  all: cbv beta in S1, S2.
  - replace (if Rlt_dec (U ^ 2 - v ^ 2) 0 then 0 else 1 / 2 / sqrt (if Rlt_dec (U ^ 2 - v ^ 2) 0 then 1 / 100 else U ^ 2 - v ^ 2) * -2 * v)
      with (if Rlt_dec (U ^ 2 - v ^ 2) 0 then 0 else 1 / 2 / sqrt (if Rlt_dec (U ^ 2 - v ^ 2) 0 then 1 / 100 else U ^ 2 - v ^ 2) * (-2 * v)) by (destruct (Rlt_dec (U ^ 2 - v ^ 2) 0); [auto|ring]).
    exact S1.
  - replace (if Rlt_dec (U ^ 2 - v ^ 2) 0 then 0 else 1 / 2 / sqrt (if Rlt_dec (U ^ 2 - v ^ 2) 0 then 1 / 100 else U ^ 2 - v ^ 2) * 2 * U)
      with (if Rlt_dec (U ^ 2 - v ^ 2) 0 then 0 else 1 / 2 / sqrt (if Rlt_dec (U ^ 2 - v ^ 2) 0 then 1 / 100 else U ^ 2 - v ^ 2) * (2 * U)) by (destruct (Rlt_dec (U ^ 2 - v ^ 2) 0); [auto|ring]).
    exact S2.
  - apply (derive_if_lt (fun t => U ^ 2 - t ^ 2) (fun _ => 1) (fun t => t / U) 0); [eapply cont_of; eauto|auto| |]; intro Hs;
      (destruct (Rlt_dec (U ^ 2 - v ^ 2) 0); [|]); try lra.
    + apply (is_derive_const 1).
    + auto_derive; auto.
  - apply (derive_if_lt (fun t => t ^ 2 - v ^ 2) (fun _ => 1) (fun t => v / t) 0); [eapply cont_of; eauto|auto| |]; intro Hs;
      (destruct (Rlt_dec (U ^ 2 - v ^ 2) 0); [|]); try lra.
    + apply (is_derive_const 1).
    + auto_derive; auto. field; auto.
  - set (F := fun t => sqrt (if Rlt_dec (U ^ 2 - t ^ 2) 0 then 1 / 100 else U ^ 2 - t ^ 2)) in *.
    eapply derive_eq; [eapply (derive_mulr F v); exact S1|].
    destruct (Rlt_dec (U ^ 2 - v ^ 2) 0); unfold Rdiv; ring.
  - set (F := fun t => sqrt (if Rlt_dec (t ^ 2 - v ^ 2) 0 then 1 / 100 else t ^ 2 - v ^ 2)) in *.
    change (sqrt (if Rlt_dec (U ^ 2 - v ^ 2) 0 then 1 / 100 else U ^ 2 - v ^ 2)) with (F U) in *.
    eapply derive_eq; [eapply (derive_div F (fun t => t) U); [exact S2|apply derive_id|auto]|].
    destruct (Rlt_dec (U ^ 2 - v ^ 2) 0); unfold Rdiv; ring.
Qed.

(** ** Accelerations *)
Lemma ha_jac n E : (0 < n)%nat ->
  (forall i, (i < n)%nat -> E "weight" i <> 0 /\ E "lift" i / E "weight" i <> GRAV) ->
  jac_correct n HorizontalAcceleration E.
Proof.
  intros Hn H. apply jac_correct_lift; auto. intros i Hi. specialize (H i Hi). destruct H as [Hm Hl].
  change (E "weight" i) with (node HorizontalAcceleration E i "weight") in *.
  change (E "lift" i) with (node HorizontalAcceleration E i "lift") in *.
  generalize dependent (node HorizontalAcceleration E i). intros e Hm Hl.
  split_jac HorizontalAcceleration; unfold floor_vec; names;
    set (m := e "weight") in *; set (L := e "lift") in *.
  - apply (is_derive_ext (fun t => if Rlt_dec (GRAV - L / t) 0 
       then e "thrust" / t - e "drag" / t - 0 * e "braking" * (GRAV - L / t) - GRAV * e "fltcond|singamma"
       else e "thrust" / t - e "drag" / t - 1 * e "braking" * (GRAV - L / t) - GRAV * e "fltcond|singamma")).
    { intro t. destruct (Rlt_dec (GRAV - L / t) 0); reflexivity. }
    apply (derive_if_lt (fun t => GRAV - L / t)); [|lra|intro Hs|intro Hs].
    + eapply cont_of. auto_derive; auto.
    + destruct (Rlt_dec (GRAV - L / m) 0); [|lra]. auto_derive; [tauto|field; auto].
    + destruct (Rlt_dec (GRAV - L / m) 0); [lra|]. auto_derive; [tauto|field; auto].
  - auto_derive; [try tauto|try (field; tauto)].
  - apply (is_derive_ext (fun t => if Rlt_dec (GRAV - t / m) 0 
       then e "thrust" / m - e "drag" / m - 0 * e "braking" * (GRAV - t / m) - GRAV * e "fltcond|singamma"
       else e "thrust" / m - e "drag" / m - 1 * e "braking" * (GRAV - t / m) - GRAV * e "fltcond|singamma")).
    { intro t. destruct (Rlt_dec (GRAV - t / m) 0); reflexivity. }
    apply (derive_if_lt (fun t => GRAV - t / m)); [|lra|intro Hs|intro Hs].
    + eapply cont_of. auto_derive; auto.
    + destruct (Rlt_dec (GRAV - L / m) 0); [|lra]. auto_derive; [tauto|field; auto].
    + destruct (Rlt_dec (GRAV - L / m) 0); [lra|]. auto_derive; [tauto|field; auto].
  - auto_derive; [try tauto|try (field; tauto)].
  - auto_derive; [try tauto|try (field; tauto)].
  - auto_derive; [try tauto|try (field; tauto)].
Qed.

Lemma clip_inside x lo hi : lo <= x <= hi -> clip x lo hi = x.
Proof. intro H. unfold clip. rewrite Rmax_left by lra. apply Rmin_left; lra. Qed.
Lemma clip_low x lo hi : lo <= hi -> x <= lo -> clip x lo hi = lo.
Proof. intros H1 H. unfold clip. rewrite Rmax_right by lra. apply Rmin_left; lra. Qed.
Lemma clip_high x lo hi : lo <= hi -> hi <= x -> clip x lo hi = hi.
Proof. intros H1 H. unfold clip. rewrite Rmax_left by lra. apply Rmin_right; lra. Qed.

Lemma clip_derive_in (f : R -> R) x l lo hi : is_derive f x l -> lo < f x < hi ->
  is_derive (fun t => clip (f t) lo hi) x l.
Proof.
  intros Hf H. eapply is_derive_ext_loc; [|exact Hf].
  assert (Hc : continuous f x) by (eapply cont_of; eauto).
  eapply filter_imp; [|apply filter_and; [apply (near_gt_c f x lo Hc); lra|apply (near_lt_c f x hi Hc); lra]].
  intros t [H1 H2]. symmetry. apply clip_inside. lra.
Qed.
Lemma clip_derive_out (f : R -> R) x l lo hi : lo < hi -> is_derive f x l -> f x < lo \/ hi < f x ->
  is_derive (fun t => clip (f t) lo hi) x 0.
Proof.
  intros Hlh Hf H. assert (Hc : continuous f x) by (eapply cont_of; eauto). destruct H as [H|H].
  - apply (is_derive_ext_loc (fun _ => lo)); [|apply (is_derive_const lo)].
    eapply filter_imp; [|apply (near_lt_c f x lo Hc H)]. intros t Ht. symmetry. apply clip_low; lra.
  - apply (is_derive_ext_loc (fun _ => hi)); [|apply (is_derive_const hi)].
    eapply filter_imp; [|apply (near_gt_c f x hi Hc H)]. intros t Ht. symmetry. apply clip_high; lra.
Qed.

Lemma va_jac n E : (0 < n)%nat ->
  (forall i, (i < n)%nat -> E "weight" i <> 0 /\
     - GRAV < raw_vert (fun x => E x i) < 25/10 * GRAV) ->
  jac_correct n VerticalAcceleration E.
Proof.
  intros Hn H. apply jac_correct_lift; auto. intros i Hi. specialize (H i Hi). destruct H as [Hm Hr].
  assert (Hr' : - GRAV < raw_vert (node VerticalAcceleration E i) < 25/10 * GRAV) by exact Hr. clear Hr.
  change (E "weight" i) with (node VerticalAcceleration E i "weight") in *.
  generalize dependent (node VerticalAcceleration E i). intros e Hm Hr. unfold raw_vert in Hr.
  split_jac VerticalAcceleration; unfold raw_vert; names;
  match goal with |- is_derive (fun t => clip (@?f t) _ _) _ _ => apply (clip_derive_in f) end;
  try exact Hr; auto_derive; try tauto; try (field; tauto).
Qed.

Lemma cl_jac n E : (0 < n)%nat ->
  (forall i, (i < n)%nat -> E "fltcond|q" i <> 0) -> E "ac|geom|wing|S_ref" 0%nat <> 0 ->
  jac_correct n SteadyFlightCL E.
Proof.
  intros Hn H HS. apply jac_correct_lift; auto. intros i Hi. specialize (H i Hi).
  change (E "fltcond|q" i) with (node SteadyFlightCL E i "fltcond|q") in *.
  change (E "ac|geom|wing|S_ref" 0%nat) with (node SteadyFlightCL E i "ac|geom|wing|S_ref") in *.
  generalize dependent (node SteadyFlightCL E i). intros e HS Hq.
  split_jac SteadyFlightCL. all: auto_derive; [try tauto | try (field; tauto)].
Qed.
Lemma lift_jac n E : (0 < n)%nat -> jac_correct n Lift E.
Proof.
  intros Hn. apply jac_correct_lift; auto. intros i Hi. generalize (node Lift E i). intros e.
  split_jac Lift. all: auto_derive; [try tauto | try (field; tauto)].
Qed.

(** ** Climb angle *)
Lemma asin_derive x : -1 < x < 1 -> is_derive asin x (1 / sqrt (1 - x ^ 2)).
Proof.
  intro H. apply is_derive_Reals. pose proof (derive_pt_eq_1 _ _ _ _ (derive_pt_asin x H)) as D.
  replace (1 - x ^ 2) with (1 - x²) by (unfold Rsqr; ring). exact D.
Qed.
Lemma ca_jac n E : (0 < n)%nat ->
  (forall i, (i < n)%nat -> E "weight" i <> 0 /\ -1 < (E "thrust" i - E "drag" i) / E "weight" i / GRAV < 1) ->
  jac_correct n ClimbAngleComp E.
Proof.
  intros Hn H. apply jac_correct_lift; auto. intros i Hi. specialize (H i Hi). destruct H as [Hm Hr].
  change (E "weight" i) with (node ClimbAngleComp E i "weight") in *.
  change (E "thrust" i) with (node ClimbAngleComp E i "thrust") in *.
  change (E "drag" i) with (node ClimbAngleComp E i "drag") in *.
  generalize dependent (node ClimbAngleComp E i). intros e Hm Hr. pose proof GRAV_pos as HG.
  set (q := (e "thrust" - e "drag") / e "weight" / GRAV) in *.
  assert (0 < sqrt (1 - q ^ 2)) by (apply sqrt_lt_R0; nra).
  split_jac ClimbAngleComp; fold q.
  - eapply derive_eq; [eapply (derive_comp asin (fun t => (e "thrust" - t) / e "weight" / GRAV) (e "drag"));
      [apply asin_derive; exact Hr|auto_derive; auto]|]. cbv beta. fold q. field. repeat split; auto; lra.
  - eapply derive_eq; [eapply (derive_comp asin (fun t => (e "thrust" - e "drag") / t / GRAV) (e "weight"));
      [apply asin_derive; exact Hr|auto_derive; auto]|]. cbv beta. fold q. field. repeat split; auto; lra.
  - eapply derive_eq; [eapply (derive_comp asin (fun t => (t - e "drag") / e "weight" / GRAV) (e "thrust"));
      [apply asin_derive; exact Hr|auto_derive; auto]|]. cbv beta. fold q. field. repeat split; auto; lra.
Qed.

(** ** Balanced field *)
Lemma bfl_zero dc da vr v1 :
  bfl_residual dc da vr v1 = 0 <-> (speedtol <= vr - v1 /\ dc = da) \/ (v1 = vr /\ da <= dc).
Proof.
  unfold bfl_residual, speedtol.
  destruct (Rlt_dec vr (v1 + 1/10)), (Rge_dec vr v1), (Rlt_dec (vr - v1) (1/10)), (Rgt_dec (da - dc) 0); split; intro H;
    try (destruct H as [[H1 H2]|[H1 H2]]); try lra; (left + right); lra.
Qed.

(** ** Takeoff transition *)
Section Transition.
Variables hobs lf : R.
Hypothesis Hlf : 1 < lf.

Lemma tt_R_nonneg e : 0 <= tt_R lf e.
Proof.
  unfold tt_R. pose proof GRAV_pos. pose proof (pow2_ge_0 (e "fltcond|Utrue")).
  apply Rmult_le_pos; [apply Rmult_le_pos; auto|]; apply Rlt_le, Rinv_0_lt_compat; lra.
Qed.
Lemma tt_R_pos e : e "fltcond|Utrue" <> 0 -> 0 < tt_R lf e.
Proof.
  intro H. unfold tt_R. pose proof GRAV_pos.
  assert (0 < e "fltcond|Utrue" ^ 2) by (rewrite <- Rsqr_pow2; now apply Rsqr_pos_lt).
  apply Rdiv_lt_0_compat; auto. apply Rdiv_lt_0_compat; lra.
Qed.
Lemma tt_big e : 0 < hobs -> tt_ht lf e > hobs -> 0 < tt_R lf e ^ 2 - (tt_R lf e - hobs) ^ 2.
Proof.
  intros H0 H. unfold tt_ht in H. pose proof (COS_bound (e "gamma")). pose proof (tt_R_nonneg e).
  assert (hobs < 2 * tt_R lf e) by nra. nra.
Qed.

(** Height and distance of the end of the transition, in closed form. *)
Definition tt_h (e : nenv) : R := nval (TakeoffTransition hobs lf) "h_transition" e.
Definition tt_s (e : nenv) : R := nval (TakeoffTransition hobs lf) "s_transition" e.

Lemma tt_h_min e : tt_h e = Rmin (tt_ht lf e) hobs.
Proof.
  unfold tt_h, nval. simpl. destruct (Rgt_dec (tt_ht lf e) hobs).
  - now rewrite Rmin_right by lra.
  - now rewrite Rmin_left by lra.
Qed.
Lemma tt_s_closed e : 0 < hobs -> 0 <= e "gamma" <= PI ->
  tt_s e = sqrt (tt_R lf e ^ 2 - (tt_R lf e - Rmin (tt_ht lf e) hobs) ^ 2).
Proof.
  intros H0 Hg. unfold tt_s, nval. simpl assoc. cbv iota. unfold tt_st. destruct (Rgt_dec (tt_ht lf e) hobs).
  - now rewrite Rmin_right by lra.
  - rewrite Rmin_left by lra. pose proof (tt_R_nonneg e). pose proof (sin_ge_0 (e "gamma") (proj1 Hg) (proj2 Hg)).
    unfold tt_ht. set (r := tt_R lf e) in *.
    replace (r ^ 2 - (r - r * (1 - cos (e "gamma"))) ^ 2) with ((r * sin (e "gamma"))²).
    + rewrite sqrt_Rsqr; auto. now apply Rmult_le_pos.
    + unfold Rsqr. pose proof (sin2_cos2 (e "gamma")) as S. unfold Rsqr in S.
      replace (r ^ 2 - (r - r * (1 - cos (e "gamma"))) ^ 2) with (r * r * (1 - cos (e "gamma") * cos (e "gamma"))) by ring.
      rewrite <- S. ring.
Qed.
(** The end point lies on the circle of radius R tangent to the runway. *)
Lemma tt_circle e : 0 < hobs -> tt_s e ^ 2 + (tt_R lf e - tt_h e) ^ 2 = tt_R lf e ^ 2.
Proof.
  intro H0. unfold tt_s, tt_h, nval. simpl assoc. cbv iota. unfold tt_st. destruct (Rgt_dec (tt_ht lf e) hobs).
  - pose proof (tt_big e H0 r). rewrite <- (Rsqr_pow2 (sqrt _)), Rsqr_sqrt by lra. ring.
  - unfold tt_ht. pose proof (sin2_cos2 (e "gamma")) as S. unfold Rsqr in S. set (r := tt_R lf e).
    replace ((r * sin (e "gamma")) ^ 2 + (r - r * (1 - cos (e "gamma"))) ^ 2)
      with (r * r * (sin (e "gamma") * sin (e "gamma") + cos (e "gamma") * cos (e "gamma"))) by ring.
    rewrite S. ring.
Qed.
End Transition.

Lemma tt_jac hobs lf E : 1 < lf -> 0 < hobs -> E "fltcond|Utrue" 0%nat <> 0 ->
  E "fltcond|Utrue" 0%nat ^ 2 / (lf - 1) / GRAV * (1 - cos (E "gamma" 0%nat)) <> hobs ->
  jac_correct 1 (TakeoffTransition hobs lf) E.
Proof.
  intros Hlf H0 HU Hh. apply jac_correct_lift; auto. intros i Hi. assert (i = 0)%nat by lia. subst i.
  change (tt_ht lf (node (TakeoffTransition hobs lf) E 0) <> hobs) in Hh.
  change (E "fltcond|Utrue" 0%nat) with (node (TakeoffTransition hobs lf) E 0 "fltcond|Utrue") in *.
  generalize dependent (node (TakeoffTransition hobs lf) E 0). intros e HU Hh.
  pose proof GRAV_pos as HG. pose proof (tt_big hobs lf Hlf e H0) as HB. pose proof (tt_R_pos lf Hlf e HU) as HR.
  assert (DU : forall t : R, is_derive (fun u => u ^ 2 / (lf - 1) / GRAV) t (2 * t / (lf - 1) / GRAV)).
  { intro t. auto_derive; auto. field. lra. }
  assert (SU : is_derive (fun t => tt_st hobs lf (upd e "fltcond|Utrue" t)) (e "fltcond|Utrue") (tt_dst_U hobs lf e)).
  { unfold tt_st, tt_dst_U. apply (derive_if_gt (fun t => tt_ht lf (upd e "fltcond|Utrue" t))).
    - unfold tt_ht, tt_R, upd; names. eapply cont_of. auto_derive; auto.
    - unfold tt_ht, tt_R, upd in *; names. exact Hh.
    - intro Hs. unfold tt_ht, tt_R, tt_dR, upd in *; names.
      change (e "fltcond|Utrue" ^ 2 / (lf - 1) / GRAV * (1 - cos (e "gamma")) > hobs) in Hs.
      set (U := e "fltcond|Utrue") in *. specialize (HB Hs). destruct (Rgt_dec (U ^ 2 / (lf - 1) / GRAV * (1 - cos (e "gamma"))) hobs); [|lra].
      assert (HS : 0 < sqrt ((U ^ 2 / (lf - 1) / GRAV) ^ 2 - (U ^ 2 / (lf - 1) / GRAV - hobs) ^ 2)) by (now apply sqrt_lt_R0).
      eapply derive_eq; [apply (derive_sqrt (fun u => (u ^ 2 / (lf - 1) / GRAV) ^ 2 - (u ^ 2 / (lf - 1) / GRAV - hobs) ^ 2) U
        (2 * (U ^ 2 / (lf - 1) / GRAV) * (2 * U / (lf - 1) / GRAV) - 2 * (U ^ 2 / (lf - 1) / GRAV - hobs) * (2 * U / (lf - 1) / GRAV)))|].
      + auto_derive; auto. field. lra.
      + exact HB.
      + field. repeat split; lra.
    - intro Hs. unfold tt_ht, tt_R, tt_dR, upd in *; names.
      change (e "fltcond|Utrue" ^ 2 / (lf - 1) / GRAV * (1 - cos (e "gamma")) < hobs) in Hs.
      destruct (Rgt_dec (e "fltcond|Utrue" ^ 2 / (lf - 1) / GRAV * (1 - cos (e "gamma"))) hobs); [lra|].
      apply derive_mulr. apply DU. }
  assert (SG : is_derive (fun t => tt_st hobs lf (upd e "gamma" t)) (e "gamma") (tt_dst_g hobs lf e)).
  { unfold tt_st, tt_dst_g. apply (derive_if_gt (fun t => tt_ht lf (upd e "gamma" t))).
    - unfold tt_ht, tt_R, upd; names. eapply cont_of. auto_derive; auto.
    - unfold tt_ht, tt_R, upd in *; names. exact Hh.
    - intro Hs. unfold tt_ht, tt_R, tt_dR, upd in *; names.
      change (e "fltcond|Utrue" ^ 2 / (lf - 1) / GRAV * (1 - cos (e "gamma")) > hobs) in Hs.
      destruct (Rgt_dec (e "fltcond|Utrue" ^ 2 / (lf - 1) / GRAV * (1 - cos (e "gamma"))) hobs); [|lra].
      apply derive_const.
    - intro Hs. unfold tt_ht, tt_R, tt_dR, upd in *; names.
      change (e "fltcond|Utrue" ^ 2 / (lf - 1) / GRAV * (1 - cos (e "gamma")) < hobs) in Hs.
      destruct (Rgt_dec (e "fltcond|Utrue" ^ 2 / (lf - 1) / GRAV * (1 - cos (e "gamma"))) hobs); [lra|].
      apply derive_mull. auto_derive; auto. ring. }
  split_jac TakeoffTransition.
  - exact SU.
  - exact SG.
  - unfold tt_ht, tt_R, tt_dR; names. apply (derive_if_gt (fun t => t ^ 2 / (lf - 1) / GRAV * (1 - cos (e "gamma")))).
    + eapply cont_of. auto_derive; auto.
    + exact Hh.
    + intro Hs. destruct (Rgt_dec (e "fltcond|Utrue" ^ 2 / (lf - 1) / GRAV * (1 - cos (e "gamma"))) hobs); [|lra]. apply derive_const.
    + intro Hs. destruct (Rgt_dec (e "fltcond|Utrue" ^ 2 / (lf - 1) / GRAV * (1 - cos (e "gamma"))) hobs); [lra|]. apply derive_mulr, DU.
  - unfold tt_ht, tt_R, tt_dR; names. apply (derive_if_gt (fun t => e "fltcond|Utrue" ^ 2 / (lf - 1) / GRAV * (1 - cos t))).
    + eapply cont_of. auto_derive; auto.
    + exact Hh.
    + intro Hs. destruct (Rgt_dec (e "fltcond|Utrue" ^ 2 / (lf - 1) / GRAV * (1 - cos (e "gamma"))) hobs); [|lra]. apply derive_const.
    + intro Hs. destruct (Rgt_dec (e "fltcond|Utrue" ^ 2 / (lf - 1) / GRAV * (1 - cos (e "gamma"))) hobs); [lra|]. apply derive_mull. auto_derive; auto. ring.
  - eapply derive_eq; [eapply (derive_div _ (fun t => t)); [exact SU|apply derive_id|auto]|]. cbv beta.
    match goal with |- (_ * _ - tt_st _ _ ?x * _) / _ = _ => replace x with e end.
    + rewrite Rmult_1_r. reflexivity.
    + apply FunctionalExtensionality.functional_extensionality. intro y. change (e y = upd e "fltcond|Utrue" (e "fltcond|Utrue") y). unfold upd. destruct (String.eqb_spec "fltcond|Utrue" y); congruence.
  - apply derive_mulr. exact SG.
Qed.

(** ** Takeoff climb *)
Lemma tc_jac hobs E : cos (E "gamma" 0%nat) <> 0 -> sin (E "gamma" 0%nat) <> 0 -> E "fltcond|Utrue" 0%nat <> 0 ->
  jac_correct 1 (TakeoffClimb hobs) E.
Proof.
  intros Hc Hs HU. apply jac_correct_lift; auto. intros i Hi. assert (i = 0)%nat by lia. subst i.
  change (E "fltcond|Utrue" 0%nat) with (node (TakeoffClimb hobs) E 0 "fltcond|Utrue") in *.
  change (E "gamma" 0%nat) with (node (TakeoffClimb hobs) E 0 "gamma") in *.
  generalize dependent (node (TakeoffClimb hobs) E 0). intros e Hc Hs HU.
  assert (Ht : sin (e "gamma") / cos (e "gamma") <> 0).
  { intro H. apply Hs. apply (Rmult_eq_reg_r (/ cos (e "gamma"))); [|now apply Rinv_neq_0_compat]. unfold Rdiv in H. lra. }
  split_jac TakeoffClimb; unfold tc_s, tc_s_g, tan; names.
  all: auto_derive; try tauto; try (field; tauto).
  all: try (field_simplify; [|tauto..]).
  all: try (pose proof (sin2_cos2 (e "gamma")) as S; unfold Rsqr in S; set (s := sin (e "gamma")) in *; set (c := cos (e "gamma")) in *).
  all: f_equal; replace (c ^ 2) with (1 - s ^ 2) by (simpl; lra); ring.
Qed.

(** Continuity across the switch. *)
Lemma continuous_min (f g : R -> R) x : continuous f x -> continuous g x -> continuous (fun t => Rmin (f t) (g t)) x.
Proof.
  intros Hf Hg. apply (continuous_ext (fun t => (f t + g t - Rabs (f t - g t)) / 2)).
  - intro t. unfold Rmin, Rabs. destruct (Rle_dec (f t) (g t)), (Rcase_abs (f t - g t)); lra.
  - apply (continuous_mult (fun t => f t + g t - Rabs (f t - g t)) (fun _ => / 2)); [|apply continuous_const].
    apply (continuous_minus (fun t => f t + g t)); [now apply (continuous_plus f g)|].
    apply continuous_comp; [now apply (continuous_minus f g)|apply continuous_Rabs].
Qed.
Lemma continuous_sqrt_pos (f : R -> R) x : continuous f x -> 0 <= f x -> continuous (fun t => sqrt (f t)) x.
Proof.
  intros Hf H. apply (continuous_comp f sqrt); auto. apply continuity_pt_filterlim. now apply continuity_pt_sqrt.
Qed.

Lemma tt_arg_nonneg r h : 0 <= h <= 2 * r -> 0 <= r ^ 2 - (r - h) ^ 2.
Proof. intro H. nra. Qed.

Lemma tt_cont_gamma hobs lf e : 1 < lf -> 0 < hobs -> 0 < e "gamma" < PI ->
  continuous (fun t => tt_s hobs lf (upd e "gamma" t)) (e "gamma").
Proof.
  intros Hlf H0 Hg. pose proof (tt_R_nonneg lf Hlf e) as HR.
  apply (continuous_ext_loc _ (fun t => sqrt (tt_R lf e ^ 2 - (tt_R lf e - Rmin (tt_R lf e * (1 - cos t)) hobs) ^ 2))).
  - eapply filter_imp; [|apply filter_and; [apply (open_lt PI (e "gamma")); apply Hg|apply (open_gt 0 (e "gamma")); apply Hg]].
    intros t [H1 H2]. simpl in H1, H2. rewrite tt_s_closed by (auto; unfold upd; simpl; lra). reflexivity.
  - pose proof (COS_bound (e "gamma")). apply continuous_sqrt_pos.
    + apply (continuous_minus (fun _ => tt_R lf e ^ 2)); [apply continuous_const|].
      apply (continuous_ext (fun t => (tt_R lf e - Rmin (tt_R lf e * (1 - cos t)) hobs) * (tt_R lf e - Rmin (tt_R lf e * (1 - cos t)) hobs))).
      { intro t. simpl. now rewrite Rmult_1_r. }
      assert (C : continuous (fun t => tt_R lf e - Rmin (tt_R lf e * (1 - cos t)) hobs) (e "gamma")).
      { apply (continuous_minus (fun _ => tt_R lf e)); [apply continuous_const|].
        apply (continuous_min (fun t => tt_R lf e * (1 - cos t)) (fun _ => hobs)); [|apply continuous_const].
        eapply cont_of. auto_derive; auto. }
      apply (continuous_mult _ _ _ C C).
    + apply tt_arg_nonneg. split.
      * apply Rmin_glb; [apply Rmult_le_pos; lra|lra].
      * eapply Rle_trans; [apply Rmin_l|nra].
Qed.

Lemma tt_cont_U hobs lf e : 1 < lf -> 0 < hobs -> 0 <= e "gamma" <= PI ->
  continuous (fun t => tt_s hobs lf (upd e "fltcond|Utrue" t)) (e "fltcond|Utrue").
Proof.
  intros Hlf H0 Hg. pose proof GRAV_pos as HG.
  set (r := fun t : R => t ^ 2 / (lf - 1) / GRAV).
  apply (continuous_ext (fun t => sqrt (r t ^ 2 - (r t - Rmin (r t * (1 - cos (e "gamma"))) hobs) ^ 2))).
  - intro t. rewrite tt_s_closed by (auto; unfold upd; simpl; lra). reflexivity.
  - pose proof (COS_bound (e "gamma")).
    assert (Hr : 0 <= r (e "fltcond|Utrue")) by (apply (tt_R_nonneg lf Hlf e)).
    assert (Cr : continuous r (e "fltcond|Utrue")) by (unfold r; eapply cont_of; auto_derive; auto).
    apply continuous_sqrt_pos.
    + assert (C : continuous (fun t => r t - Rmin (r t * (1 - cos (e "gamma"))) hobs) (e "fltcond|Utrue")).
      { apply (continuous_minus r); auto.
        apply (continuous_min (fun t => r t * (1 - cos (e "gamma"))) (fun _ => hobs)); [|apply continuous_const].
        apply (continuous_mult r (fun _ => 1 - cos (e "gamma"))); auto. apply continuous_const. }
      apply (continuous_ext (fun t => r t * r t - (r t - Rmin (r t * (1 - cos (e "gamma"))) hobs) * (r t - Rmin (r t * (1 - cos (e "gamma"))) hobs))).
      { intro t. simpl. now rewrite !Rmult_1_r. }
      apply (continuous_minus (fun t => r t * r t)); [apply (continuous_mult _ _ _ Cr Cr)|apply (continuous_mult _ _ _ C C)].
    + apply tt_arg_nonneg. split.
      * apply Rmin_glb; [apply Rmult_le_pos; lra|lra].
      * eapply Rle_trans; [apply Rmin_l|nra].
Qed.
