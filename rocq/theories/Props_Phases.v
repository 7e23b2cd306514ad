(** The theorems about the mission-phase components (C24 - C28, C54). *)
From Verif Require Import Base Calc Model_Phases Proofs_Phases.
Open Scope R_scope.
Open Scope string_scope.

Definition out (C : pcomp) (E : env) (o : string) (i : nat) : R := vcompute C E o i.

(** ** C24 *)
Theorem C24_decomposition E i :
  0 < E "fltcond|Utrue" i -> Rabs (E "fltcond|vs" i) <= E "fltcond|Utrue" i ->
  let gs := out Groundspeeds E "fltcond|groundspeed" i in
  let sg := out Groundspeeds E "fltcond|singamma" i in
  let cg := out Groundspeeds E "fltcond|cosgamma" i in
  0 <= gs /\ gs ^ 2 + E "fltcond|vs" i ^ 2 = E "fltcond|Utrue" i ^ 2 /\
  sg * E "fltcond|Utrue" i = E "fltcond|vs" i /\ cg * E "fltcond|Utrue" i = gs /\ cg ^ 2 + sg ^ 2 = 1.
Proof.
  intros HU Hv. cbv zeta. unfold out, vcompute, nval. cbn [assoc Groundspeeds pc_outs]. 
  simpl (if String.eqb _ _ then _ else _). unfold gs_fixed, gs_inside.
  change (node Groundspeeds E i "fltcond|Utrue") with (E "fltcond|Utrue" i).
  change (node Groundspeeds E i "fltcond|vs") with (E "fltcond|vs" i).
  set (U := E "fltcond|Utrue" i) in *. set (v := E "fltcond|vs" i) in *.
  assert (H : 0 <= U ^ 2 - v ^ 2).
  { apply Rabs_le_between in Hv. nra. }
  destruct (Rlt_dec (U ^ 2 - v ^ 2) 0); [lra|].
  assert (S : sqrt (U ^ 2 - v ^ 2) ^ 2 = U ^ 2 - v ^ 2) by (rewrite <- Rsqr_pow2; now apply Rsqr_sqrt).
  split; [apply sqrt_pos|]. split; [rewrite S; ring|]. split; [field; lra|]. split; [field; lra|].
  unfold Rdiv. rewrite !Rpow_mult_distr, S. field. lra.
Qed.
Print Assumptions C24_decomposition.

Theorem C24_partials n E : (0 < n)%nat ->
  (forall i, (i < n)%nat -> E "fltcond|Utrue" i <> 0 /\ (E "fltcond|Utrue" i) ^ 2 <> (E "fltcond|vs" i) ^ 2) ->
  jac_correct n Groundspeeds E.
Proof. exact (gs_jac n E). Qed.
Print Assumptions C24_partials.
Example C24_met : exists E : env, 0 < E "fltcond|Utrue" 0%nat /\ Rabs (E "fltcond|vs" 0%nat) <= E "fltcond|Utrue" 0%nat /\
  (E "fltcond|Utrue" 0%nat) ^ 2 <> (E "fltcond|vs" 0%nat) ^ 2.
Proof.
  exists (fun x _ => if String.eqb x "fltcond|vs" then -5 else 100). simpl. rewrite Rabs_left by lra. lra.
Qed.

(** When the vertical speed exceeds the airspeed the components no longer
    decompose the airspeed: groundspeed is 0.1 m/s, and a descent is reported
    as a vertical climb. *)
Theorem C24_clipped_refuted E i :
  0 < E "fltcond|Utrue" i -> E "fltcond|vs" i < - E "fltcond|Utrue" i ->
  out Groundspeeds E "fltcond|groundspeed" i = 1/10 /\
  out Groundspeeds E "fltcond|singamma" i = 1 /\
  out Groundspeeds E "fltcond|cosgamma" i ^ 2 + out Groundspeeds E "fltcond|singamma" i ^ 2 > 1.
Proof.
  intros HU Hv. unfold out, vcompute, nval. cbn [assoc Groundspeeds pc_outs]. 
  simpl (if String.eqb _ _ then _ else _). unfold gs_fixed, gs_inside.
  change (node Groundspeeds E i "fltcond|Utrue") with (E "fltcond|Utrue" i).
  change (node Groundspeeds E i "fltcond|vs") with (E "fltcond|vs" i).
  set (U := E "fltcond|Utrue" i) in *. set (v := E "fltcond|vs" i) in *.
  destruct (Rlt_dec (U ^ 2 - v ^ 2) 0); [|nra].
  assert (S : sqrt (1/100) = 1/10).
  { replace (1/100) with ((1/10) * (1/10)) by lra. apply sqrt_square. lra. }
  rewrite S. split; [auto|]. split; [auto|].
  assert (0 < (1 / 10 / U) ^ 2) by (apply pow_lt, Rdiv_lt_0_compat; lra). lra.
Qed.

(** ** C25 *)
Theorem C25_lift_balances_weight E E' i :
  E "fltcond|q" i <> 0 -> E "ac|geom|wing|S_ref" 0%nat <> 0 ->
  (* the Lift component is fed the computed CL and the same q, S *)
  E' "fltcond|CL" i = out SteadyFlightCL E "fltcond|CL" i ->
  E' "fltcond|q" i = E "fltcond|q" i -> E' "ac|geom|wing|S_ref" 0%nat = E "ac|geom|wing|S_ref" 0%nat ->
  out Lift E' "lift" i = E "weight" i * (980665/100000) * E "fltcond|cosgamma" i.
Proof.
  intros Hq HS H1 H2 H3. unfold out in *.
  change (vcompute Lift E' "lift" i) with (E' "fltcond|q" i * E' "ac|geom|wing|S_ref" 0%nat * E' "fltcond|CL" i).
  rewrite H1, H2, H3. unfold vcompute, nval, node; simpl. unfold GRAV. field. auto.
Qed.
Print Assumptions C25_lift_balances_weight.

(** Trimmed steady flight: when the throttle balance has driven the horizontal
    acceleration to zero with the brakes off, thrust carries drag and the
    weight component along the path. *)
Theorem C25_trim E i : 0 < E "weight" i -> E "braking" i = 0 ->
  (out HorizontalAcceleration E "accel_horiz" i = 0 <->
   E "thrust" i = E "drag" i + E "weight" i * (980665/100000) * E "fltcond|singamma" i).
Proof.
  intros Hm Hb. unfold out, vcompute, nval, node; simpl. rewrite Hb. unfold GRAV. split; intro H.
  - apply (Rmult_eq_compat_r (E "weight" i)) in H. field_simplify in H; [|lra]. lra.
  - rewrite H. field. lra.
Qed.
Theorem C25_partials n E : (0 < n)%nat ->
  (forall i, (i < n)%nat -> E "fltcond|q" i <> 0) -> E "ac|geom|wing|S_ref" 0%nat <> 0 ->
  jac_correct n SteadyFlightCL E /\ jac_correct n Lift E.
Proof. intros Hn Hq HS. split; [now apply cl_jac|now apply lift_jac]. Qed.
Print Assumptions C25_partials.
Example C25_met : exists E : env, (forall i, (i < 5)%nat -> E "fltcond|q" i <> 0) /\ E "ac|geom|wing|S_ref" 0%nat <> 0 /\
  out SteadyFlightCL E "fltcond|CL" 3%nat <> 0.
Proof.
  exists (fun _ _ => 2). split; [intros; lra|split; [lra|]]. unfold out, vcompute, nval, node; simpl. unfold GRAV.
  apply Rgt_not_eq. unfold Rdiv. lra.
Qed.

(** ** C26 *)

(** Newton's law on the runway: braking acts on the load carried by the wheels,
    which is zero once lift exceeds weight. *)
Theorem C26_horizontal E i : 0 < E "weight" i ->
  E "weight" i * out HorizontalAcceleration E "accel_horiz" i =
    E "thrust" i - E "drag" i - E "braking" i * Rmax 0 (E "weight" i * (980665/100000) - E "lift" i)
    - E "weight" i * (980665/100000) * E "fltcond|singamma" i.
Proof.
  intro Hm. unfold out, vcompute, nval; simpl. unfold floor_vec.
  change (node HorizontalAcceleration E i "lift") with (E "lift" i).
  change (node HorizontalAcceleration E i "weight") with (E "weight" i).
  unfold node; simpl. fold GRAV. set (m := E "weight" i) in *. set (L := E "lift" i).
  assert (EQ : m * GRAV - L = m * (GRAV - L / m)) by (field; lra).
  destruct (Rlt_dec (GRAV - L / m) 0).
  - rewrite Rmax_left by (rewrite EQ; nra). field. lra.
  - rewrite Rmax_right by (rewrite EQ; nra). field. lra.
Qed.
Print Assumptions C26_horizontal.
Theorem C26_horizontal_partials n E : (0 < n)%nat ->
  (forall i, (i < n)%nat -> E "weight" i <> 0 /\ E "lift" i / E "weight" i <> 980665/100000) ->
  jac_correct n HorizontalAcceleration E.
Proof. exact (ha_jac n E). Qed.
Print Assumptions C26_horizontal_partials.

Definition vert_load (E : env) i : R :=
  E "lift" i * E "fltcond|cosgamma" i + (E "thrust" i - E "drag" i) * E "fltcond|singamma" i - E "weight" i * (980665/100000).
Theorem C26_vertical E i : 0 < E "weight" i ->
  let a := out VerticalAcceleration E "accel_vert" i in
  let g := 980665/100000 in
  - g <= a <= 25/10 * g /\
  (- g * E "weight" i <= vert_load E i <= 25/10 * g * E "weight" i -> E "weight" i * a = vert_load E i) /\
  (vert_load E i < - g * E "weight" i -> a = - g) /\ (25/10 * g * E "weight" i < vert_load E i -> a = 25/10 * g).
Proof.
  intros Hm. cbv zeta. unfold out, vcompute, nval; simpl. change (980665/100000) with GRAV in *.
  assert (ER : raw_vert (node VerticalAcceleration E i) = vert_load E i / E "weight" i).
  { unfold raw_vert, vert_load, node; simpl. fold GRAV. field. lra. }
  rewrite ER. pose proof GRAV_pos. set (m := E "weight" i) in *. set (F := vert_load E i).
  assert (HF : F = m * (F / m)) by (field; lra). set (a := F / m) in *.
  split.
  - unfold clip. split; [apply Rmin_glb; [apply Rmax_r|lra]|apply Rmin_r].
  - rewrite HF. split; [|split]; intro H1.
    + rewrite clip_inside; auto. nra.
    + apply clip_low; nra.
    + apply clip_high; nra.
Qed.
Print Assumptions C26_vertical.
Theorem C26_vertical_partials_partial n E : (0 < n)%nat ->
  (forall i, (i < n)%nat -> 0 < E "weight" i /\
     - (980665/100000) * E "weight" i < vert_load E i < 25/10 * (980665/100000) * E "weight" i) ->
  jac_correct n VerticalAcceleration E.
Proof.
  intros Hn H. apply va_jac; auto. intros i Hi. destruct (H i Hi) as [Hm Hr]. split; [lra|].
  change (980665/100000) with GRAV in *. 
  replace (raw_vert (fun x => E x i)) with (vert_load E i / E "weight" i)
    by (unfold raw_vert, vert_load; fold GRAV; field; lra).
  set (m := E "weight" i) in *. set (F := vert_load E i) in *.
  assert (HF : F = m * (F / m)) by (field; lra). set (a := F / m) in *. rewrite HF in Hr. split; nra.
Qed.
Print Assumptions C26_vertical_partials_partial.

(** In the clipped region the output is constant but the partials are not zero. *)
Theorem C26_vertical_partials_refuted E i : 0 < E "weight" i ->
  25/10 * (980665/100000) * E "weight" i < vert_load E i -> E "fltcond|cosgamma" i <> 0 ->
  ~ is_derive (fun t => out VerticalAcceleration (updE E "lift" i t) "accel_vert" i) (E "lift" i)
      (vjac VerticalAcceleration E "accel_vert" i "lift" i).
Proof.
  intros Hm Hv Hc HD. change (980665/100000) with GRAV in *. pose proof GRAV_pos.
  set (f := fun t => (t * E "fltcond|cosgamma" i + (E "thrust" i - E "drag" i) * E "fltcond|singamma" i - GRAV * E "weight" i) / E "weight" i).
  assert (D0 : is_derive (fun t => clip (f t) (- GRAV) (25/10 * GRAV)) (E "lift" i) 0).
  { apply (clip_derive_out f _ (E "fltcond|cosgamma" i / E "weight" i)); [lra| |right].
    - unfold f. auto_derive; [lra|field; lra].
    - unfold f. unfold vert_load in Hv. fold GRAV in Hv. apply (Rmult_lt_reg_r (E "weight" i)); auto. 
      match goal with |- _ < ?x => replace x with (E "lift" i * E "fltcond|cosgamma" i + (E "thrust" i - E "drag" i) * E "fltcond|singamma" i - GRAV * E "weight" i) by (field; lra) end. lra. }
  assert (D1 : is_derive (fun t => clip (f t) (- GRAV) (25/10 * GRAV)) (E "lift" i) (E "fltcond|cosgamma" i / E "weight" i)).
  { assert (HJ : vjac VerticalAcceleration E "accel_vert" i "lift" i = E "fltcond|cosgamma" i / E "weight" i).
    { unfold vjac, njac, node; simpl. now rewrite Nat.eqb_refl. }
    rewrite HJ in HD. eapply is_derive_ext; [|exact HD]. intro t. unfold out, vcompute, nval; simpl. unfold f, raw_vert, node, updE; simpl.
    now rewrite Nat.eqb_refl. }
  pose proof (is_derive_unique _ _ _ D0) as U0. pose proof (is_derive_unique _ _ _ D1) as U1. rewrite U0 in U1.
  apply Hc. symmetry in U1. apply (Rmult_eq_reg_r (/ E "weight" i)); [|apply Rinv_neq_0_compat; lra]. unfold Rdiv in U1. lra.
Qed.
Print Assumptions C26_vertical_partials_refuted.
Example C26_met : exists E : env, 0 < E "weight" 0%nat /\
  25/10 * (980665/100000) * E "weight" 0%nat < vert_load E 0%nat /\ E "fltcond|cosgamma" 0%nat <> 0.
Proof.
  exists (fun x _ => if String.eqb x "lift" then 100 else if String.eqb x "fltcond|singamma" then 0 else 1).
  unfold vert_load. simpl. lra.
Qed.

(** ** C27 *)
(** Distances [dc] (continue) and [da] (abort), speeds [vr], [v1]. *)
Theorem C27_zero_iff dc da vr v1 :
  bfl_residual dc da vr v1 = 0 <-> (1/10 <= vr - v1 /\ dc = da) \/ (v1 = vr /\ da <= dc).
Proof. exact (bfl_zero dc da vr v1). Qed.
Theorem C27_balanced_partial dc da vr v1 : bfl_residual dc da vr v1 = 0 ->
  (dc = da \/ (v1 = vr /\ da <= dc)) /\ v1 <= vr.
Proof. intro H. apply bfl_zero in H. unfold speedtol in H. split; [tauto|lra]. Qed.
Print Assumptions C27_balanced_partial.
(** The documented converse fails within 0.1 m/s of the rotation speed: equal
    distances, nonzero residual. *)
Theorem C27_documented_zero_refuted : exists dc da vr v1, dc = da /\ v1 < vr /\ bfl_residual dc da vr v1 <> 0.
Proof.
  exists 1000, 1000, 50, (50 - 5/100). split; auto. split; [lra|]. intro H. apply bfl_zero in H. unfold speedtol in H. lra.
Qed.
(** Off the switching surfaces [linearize] is the derivative of the residual. *)
Theorem C27_linearize dc da vr v1 : vr - v1 <> 1/10 -> vr <> v1 -> da <> dc ->
  let J := bfl_linearize dc da vr v1 in
  is_derive (fun t => bfl_residual t da vr v1) dc (b_cont J) /\
  is_derive (fun t => bfl_residual dc t vr v1) da (b_abort J) /\
  is_derive (fun t => bfl_residual dc da t v1) vr (b_vr J) /\
  is_derive (fun t => bfl_residual dc da vr t) v1 (b_v1 J).
Proof.
  intros H1 H2 H3. cbv zeta.
  assert (C1 : forall x c : R, x < c -> locally x (fun t => t < c)) by (intros x c H; apply (open_lt c x H)).
  assert (C2 : forall x c : R, c < x -> locally x (fun t => c < t)) by (intros x c H; apply (open_gt c x H)).
  unfold bfl_linearize, speedtol.
  destruct (Rlt_dec vr (v1 + 1/10)) as [A|A], (Rge_dec vr v1) as [B|B], (Rlt_dec (vr - v1) (1/10)) as [C|C],
    (Rgt_dec (da - dc) 0) as [D|D]; try lra; cbn [b_cont b_abort b_vr b_v1].
  all: split; [|split; [|split]].
  all: match goal with
    | |- is_derive (fun t => bfl_residual t ?da ?vr ?v1) ?dc 0 =>
        apply (derive_near (fun t => vr - v1) _ (fun t => (da < dc -> da < t) /\ (dc < da -> t < da)))
    | |- is_derive (fun t => bfl_residual t ?da ?vr ?v1) ?dc 1 =>
        apply (derive_near (fun t => t - da) _ (fun t => (da < dc -> da < t) /\ (dc < da -> t < da)))
    | |- is_derive (fun t => bfl_residual ?dc t ?vr ?v1) ?da 0 =>
        apply (derive_near (fun t => vr - v1) _ (fun t => (dc < da -> dc < t) /\ (da < dc -> t < dc)))
    | |- is_derive (fun t => bfl_residual ?dc t ?vr ?v1) ?da _ =>
        apply (derive_near (fun t => dc - t) _ (fun t => (dc < da -> dc < t) /\ (da < dc -> t < dc)))
    | |- is_derive (fun t => bfl_residual ?dc ?da t ?v1) ?vr 0 =>
        apply (derive_near (fun t => dc - da) _ (fun t => ((v1 < vr -> v1 < t) /\ (vr < v1 -> t < v1)) /\ ((v1 + 1/10 < vr -> v1 + 1/10 < t) /\ (vr < v1 + 1/10 -> t < v1 + 1/10))))
    | |- is_derive (fun t => bfl_residual ?dc ?da t ?v1) ?vr 1 =>
        apply (derive_near (fun t => t - v1) _ (fun t => ((v1 < vr -> v1 < t) /\ (vr < v1 -> t < v1)) /\ ((v1 + 1/10 < vr -> v1 + 1/10 < t) /\ (vr < v1 + 1/10 -> t < v1 + 1/10))))
    | |- is_derive (fun t => bfl_residual ?dc ?da ?vr t) ?v1 0 =>
        apply (derive_near (fun t => dc - da) _ (fun t => ((vr < v1 -> vr < t) /\ (v1 < vr -> t < vr)) /\ ((vr - 1/10 < v1 -> vr - 1/10 < t) /\ (v1 < vr - 1/10 -> t < vr - 1/10))))
    | |- is_derive (fun t => bfl_residual ?dc ?da ?vr t) ?v1 _ =>
        apply (derive_near (fun t => vr - t) _ (fun t => ((vr < v1 -> vr < t) /\ (v1 < vr -> t < vr)) /\ ((vr - 1/10 < v1 -> vr - 1/10 < t) /\ (v1 < vr - 1/10 -> t < vr - 1/10))))
    end.
  all: try (auto_derive; [auto|ring]).
  all: try (repeat apply filter_and;
    match goal with |- locally ?x (fun t => ?P -> _) =>
      first [ assert (HP : P) by lra; eapply filter_imp; [|first [apply (C1 _ _ HP)|apply (C2 _ _ HP)]]; intros; assumption
            | assert (HP : ~ P) by lra; apply filter_forall; intros ? HQ; contradiction ] end).
  all: intros t Ht; unfold bfl_residual, speedtol;
    repeat match goal with |- context [if ?d then _ else _] => destruct d end; lra.
Qed.
Print Assumptions C27_linearize.

(** ** C28 *)
Definition radius (lf : R) (E : env) : R := E "fltcond|Utrue" 0%nat ^ 2 / (lf - 1) / (980665/100000).

(** The end of the transition is on the circular arc of the documented radius,
    never above the obstacle; below the obstacle the full arc of angle gamma is
    flown; above it the arc is cut exactly at the obstacle. *)
Theorem C28_transition hobs lf E : 1 < lf -> 0 < hobs ->
  let s := out (TakeoffTransition hobs lf) E "s_transition" 0 in
  let h := out (TakeoffTransition hobs lf) E "h_transition" 0 in
  let g := E "gamma" 0%nat in let r := radius lf E in
  h <= hobs /\ s ^ 2 + (r - h) ^ 2 = r ^ 2 /\
  h = Rmin (r * (1 - cos g)) hobs /\
  (r * (1 - cos g) <= hobs -> s = r * sin g) /\ (r * (1 - cos g) > hobs -> 0 <= s) /\
  out (TakeoffTransition hobs lf) E "t_transition" 0 = s / E "fltcond|Utrue" 0%nat.
Proof.
  intros Hlf H0. cbv zeta. set (e := node (TakeoffTransition hobs lf) E 0).
  change (out (TakeoffTransition hobs lf) E "s_transition" 0) with (tt_s hobs lf e).
  change (out (TakeoffTransition hobs lf) E "h_transition" 0) with (tt_h hobs lf e).
  change (radius lf E * (1 - cos (E "gamma" 0%nat))) with (tt_ht lf e).
  change (radius lf E) with (tt_R lf e).
  rewrite tt_circle by auto. rewrite tt_h_min.
  split; [apply Rmin_r|]. split; [reflexivity|]. split; [reflexivity|].
  unfold tt_s, nval; simpl. unfold tt_st. split; [|split].
  - intro H. destruct (Rgt_dec (tt_ht lf e) hobs); [lra|]. reflexivity.
  - intro H. destruct (Rgt_dec (tt_ht lf e) hobs); [|lra]. apply sqrt_pos.
  - reflexivity.
Qed.
Print Assumptions C28_transition.

(** No jump when the obstacle moves into the arc. *)
Theorem C28_continuous hobs lf E : 1 < lf -> 0 < hobs -> 0 < E "gamma" 0%nat < PI ->
  continuous (fun t => out (TakeoffTransition hobs lf) (updE E "gamma" 0 t) "s_transition" 0) (E "gamma" 0%nat) /\
  continuous (fun t => out (TakeoffTransition hobs lf) (updE E "fltcond|Utrue" 0 t) "s_transition" 0) (E "fltcond|Utrue" 0%nat).
Proof.
  intros Hlf H0 Hg. set (e := node (TakeoffTransition hobs lf) E 0).
  split.
  - eapply continuous_ext; [|apply (tt_cont_gamma hobs lf e Hlf H0 Hg)]. intro t. unfold tt_s, out, vcompute.
    rewrite (node_updE_hit _ _ _ _ _ _ Sca); auto; discriminate.
  - eapply continuous_ext; [|apply (tt_cont_U hobs lf e Hlf H0)]. 
    + intro t. unfold tt_s, out, vcompute. rewrite (node_updE_hit _ _ _ _ _ _ Sca); auto; discriminate.
    + change (e "gamma") with (E "gamma" 0%nat). lra.
Qed.
Print Assumptions C28_continuous.

Theorem C28_transition_partials hobs lf E : 1 < lf -> 0 < hobs -> E "fltcond|Utrue" 0%nat <> 0 ->
  radius lf E * (1 - cos (E "gamma" 0%nat)) <> hobs ->
  jac_correct 1 (TakeoffTransition hobs lf) E.
Proof. exact (tt_jac hobs lf E). Qed.
Print Assumptions C28_transition_partials.

(** From the transition height, the straight climb of distance s_climb at angle
    gamma ends at the obstacle height. *)
Theorem C28_climb_reaches_obstacle hobs E : cos (E "gamma" 0%nat) <> 0 -> sin (E "gamma" 0%nat) <> 0 ->
  E "h_transition" 0%nat + out (TakeoffClimb hobs) E "s_climb" 0 * tan (E "gamma" 0%nat) = hobs /\
  out (TakeoffClimb hobs) E "t_climb" 0 = out (TakeoffClimb hobs) E "s_climb" 0 / E "fltcond|Utrue" 0%nat.
Proof.
  intros Hc Hs. split; [|reflexivity].
  change (out (TakeoffClimb hobs) E "s_climb" 0) with ((hobs - E "h_transition" 0%nat) / tan (E "gamma" 0%nat)).
  field. unfold tan. intro H. apply Hs. apply (Rmult_eq_reg_r (/ cos (E "gamma" 0%nat))); [|now apply Rinv_neq_0_compat].
  unfold Rdiv in H. lra.
Qed.
Theorem C28_climb_partials hobs E : cos (E "gamma" 0%nat) <> 0 -> sin (E "gamma" 0%nat) <> 0 -> E "fltcond|Utrue" 0%nat <> 0 ->
  jac_correct 1 (TakeoffClimb hobs) E.
Proof. exact (tc_jac hobs E). Qed.
Print Assumptions C28_climb_partials.

(** The climb angle: thrust minus drag is the weight component along the path. *)
Theorem C28_climb_angle E i : E "weight" i <> 0 -> -1 <= (E "thrust" i - E "drag" i) / E "weight" i / (980665/100000) <= 1 ->
  let g := out ClimbAngleComp E "gamma" i in
  E "weight" i * (980665/100000) * sin g = E "thrust" i - E "drag" i /\ - (PI / 2) <= g <= PI / 2.
Proof.
  intros Hm H. cbv zeta.
  change (out ClimbAngleComp E "gamma" i) with (asin ((E "thrust" i - E "drag" i) / E "weight" i / (980665/100000))).
  split; [rewrite sin_asin by auto; field; auto|]. apply asin_bound.
Qed.
Theorem C28_climb_angle_partials n E : (0 < n)%nat ->
  (forall i, (i < n)%nat -> E "weight" i <> 0 /\ -1 < (E "thrust" i - E "drag" i) / E "weight" i / (980665/100000) < 1) ->
  jac_correct n ClimbAngleComp E.
Proof. exact (ca_jac n E). Qed.
Print Assumptions C28_climb_angle_partials.

Lemma sin_1_pos : 0 < sin 1. Proof. apply sin_gt_0; [lra|]. pose proof PI2_1. lra. Qed.
Lemma cos_1_pos : 0 < cos 1. Proof. apply cos_gt_0; [|apply PI2_1]. pose proof PI2_1. lra. Qed.
Example C28_met : exists E : env, E "fltcond|Utrue" 0%nat <> 0 /\ 0 < E "gamma" 0%nat < PI /\
  cos (E "gamma" 0%nat) <> 0 /\ sin (E "gamma" 0%nat) <> 0.
Proof.
  exists (fun _ _ => 1). pose proof sin_1_pos. pose proof cos_1_pos. pose proof PI2_1. split; [lra|]. split; [lra|]. split; lra.
Qed.

(** ** C54: the h_obstacle option of the rotation phase *)
(** What the phase does: its flight path reaches 10.66 m, whatever the option. *)
Theorem C54_reaches_default_obstacle_partial hopt n U g r0 : cos (g (n - 1)%nat) <> 0 -> sin (g (n - 1)%nat) <> 0 ->
  exists s_tr h_tr, s_tr ^ 2 + (U 0%nat ^ 2 / (12/10 - 1) / (980665/100000) - h_tr) ^ 2 = (U 0%nat ^ 2 / (12/10 - 1) / (980665/100000)) ^ 2 /\
    h_tr + (ro_range_final (rotation_phase hopt n U g r0) - r0 - s_tr) * tan (g (n - 1)%nat) = 1066/100.
Proof.
  intros Hc Hs.
  set (e0 := (fun x => if String.eqb x "fltcond|Utrue" then U 0%nat else g 0%nat) : nenv).
  exists (tt_s (1066/100) (12/10) e0), (tt_h (1066/100) (12/10) e0). split.
  - change (U 0%nat ^ 2 / (12/10 - 1) / (980665/100000)) with (tt_R (12/10) e0). apply tt_circle; lra.
  - unfold rotation_phase; cbn [ro_range_final]. fold e0. 
    change (nval (TakeoffTransition (1066/100) (12/10)) "s_transition" e0) with (tt_s (1066/100) (12/10) e0).
    change (nval (TakeoffTransition (1066/100) (12/10)) "h_transition" e0) with (tt_h (1066/100) (12/10) e0).
    match goal with |- context [nval (TakeoffClimb _) "s_climb" ?e1] =>
      change (nval (TakeoffClimb (1066/100)) "s_climb" e1) with ((1066/100 - tt_h (1066/100) (12/10) e0) / tan (g (n - 1)%nat)) end.
    field. unfold tan. intro H. apply Hs. apply (Rmult_eq_reg_r (/ cos (g (n - 1)%nat))); [|now apply Rinv_neq_0_compat].
    unfold Rdiv in H. lra.
Qed.
Print Assumptions C54_reaches_default_obstacle_partial.
(** The option changes nothing, and the reported final height is another number. *)
Theorem C54_option_ignored_refuted h1 h2 n U g r0 :
  rotation_phase h1 n U g r0 = rotation_phase h2 n U g r0 /\
  ro_h_final (rotation_phase h1 n U g r0) = 35 * (3048/10000) /\ ro_h_final (rotation_phase h1 n U g r0) <> 1066/100.
Proof. split; [reflexivity|]. unfold rotation_phase; cbn [ro_h_final]. unfold ft. split; lra. Qed.
