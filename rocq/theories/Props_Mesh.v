(** C75: the trapezoidal mesh has the geometry asked for, and exact partials. *)
From Coq Require Import Reals List Bool PeanoNat Lia Lra.
From Coquelicot Require Import Coquelicot.
From Verif Require Import RSum Py Model_Algebra Model_Vectors Model_Aero Model_Mesh Spec_Mesh Proofs_Mesh Proofs_Deriv.
Import ListNotations.
Open Scope R_scope.

(** ** C75: trapezoidal wing *)
Definition proper_trapezoid (t : trapezoid) : Prop := 0 < tz_S t /\ 0 < tz_AR t /\ 0 <= tz_taper t /\ cos (deg2rad (tz_sweep t)) <> 0.
Lemma half_span_pos t : proper_trapezoid t -> 0 < half_span t /\ half_span t ^ 2 = tz_AR t * tz_S t / 4.
Proof.
  intros (HS & HA & _ & _). unfold half_span. assert (P : 0 < tz_AR t * tz_S t) by (now apply Rmult_lt_0_compat). pose proof (sqrt_lt_R0 _ P). split; [lra|].
  pose proof (sqrt_sqrt _ (Rlt_le _ _ P)) as Q. set (q := sqrt (tz_AR t * tz_S t)) in *. rewrite <- Q. field.
Qed.
Lemma trapezoid_chord nx ny t j : (1 < nx)%nat -> (1 < ny)%nat -> (j < ny)%nat -> chord (trapezoid_mesh nx ny t) nx j = c_root t * (tz_taper t + (1 - tz_taper t) * (INR j / INR (ny - 1))).
Proof. intros Hx Hy Hj. unfold chord, px, trapezoid_mesh. rewrite lin_0, lin_1 by assumption. rewrite !(lin_at _ _ ny) by lia. ring. Qed.
Lemma trapezoid_y nx ny t ix j : (1 < ny)%nat -> (j < ny)%nat -> py (trapezoid_mesh nx ny t) ix j = - half_span t * (1 - INR j / INR (ny - 1)).
Proof. intros Hy Hj. unfold py, trapezoid_mesh. rewrite lin_at by lia. ring. Qed.

(** Area, aspect ratio, taper and sweep are those asked for, for any resolution. *)
Theorem C75_area nx ny t : (1 < nx)%nat -> (1 < ny)%nat -> proper_trapezoid t -> planform (trapezoid_mesh nx ny t) nx ny = tz_S t.
Proof.
  intros Hx Hy P. destruct (half_span_pos t P) as [B _]. destruct P as (HS & HA & HT & HC). unfold planform. set (N := INR (ny - 1)). assert (HN : 0 < N) by (apply lt_0_INR; lia).
  assert (G : forall k, (k <= ny - 1)%nat -> rsum k (fun j => (py (trapezoid_mesh nx ny t) 0 (S j) - py (trapezoid_mesh nx ny t) 0 j) * (chord (trapezoid_mesh nx ny t) nx j + chord (trapezoid_mesh nx ny t) nx (S j)) / 2)
    = half_span t * c_root t * (tz_taper t * (INR k / N) + (1 - tz_taper t) / 2 * (INR k / N) ^ 2)).
  { induction k as [|k IH]; intro Hk; [cbn; unfold Rdiv; ring|]. cbn [rsum]. rewrite IH by lia. rewrite !trapezoid_chord, !trapezoid_y by lia. fold N. rewrite S_INR. field. lra. }
  rewrite G by lia. fold N. unfold c_root. field. lra.
Qed.
Print Assumptions C75_area.
Theorem C75_shape nx ny t : (1 < nx)%nat -> (1 < ny)%nat -> proper_trapezoid t ->
  let m := trapezoid_mesh nx ny t in
  streamwise_columns m nx ny /\
  (let span := 2 * (py m 0 (ny - 1) - py m 0 0) in py m 0 (ny - 1) = 0 /\ 0 < span /\ span ^ 2 / planform m nx ny = tz_AR t) /\
  (0 < chord m nx (ny - 1) /\ chord m nx 0 / chord m nx (ny - 1) = tz_taper t) /\
  (forall j, (j < ny)%nat -> quarter m nx j = tan (tz_sweep t * PI / 180) * - py m 0 j).
Proof.
  intros Hx Hy P m. destruct (half_span_pos t P) as [B B2]. assert (P0 := P). destruct P0 as (HS & HA & HT & HC). assert (HN : 0 < INR (ny - 1)) by (apply lt_0_INR; lia).
  assert (HR : 0 < c_root t). { unfold c_root. apply Rdiv_lt_0_compat; [assumption|]. apply Rmult_lt_0_compat; lra. }
  split; [|split; [|split]].
  - intros ix j Hi Hj. split; [reflexivity|]. unfold m. now rewrite !trapezoid_y.
  - cbv zeta. unfold m. rewrite C75_area, !trapezoid_y by (assumption || lia). replace (INR (ny - 1) / INR (ny - 1)) with 1 by (field; lra). cbn [INR].
    replace (2 * (- half_span t * (1 - 1) - - half_span t * (1 - 0 / INR (ny - 1)))) with (2 * half_span t) by (field; lra). split; [ring|]. split; [lra|].
    replace ((2 * half_span t) ^ 2) with (4 * half_span t ^ 2) by ring. rewrite B2. field. lra.
  - unfold m. rewrite !trapezoid_chord by lia. replace (INR (ny - 1) / INR (ny - 1)) with 1 by (field; lra). cbn [INR]. replace (c_root t * (tz_taper t + (1 - tz_taper t) * 1)) with (c_root t) by ring. split; [assumption|]. field. split; lra.
  - intros j Hj. unfold quarter, m. rewrite trapezoid_chord, trapezoid_y by assumption. unfold px, trapezoid_mesh. rewrite lin_0 by assumption. rewrite !lin_at by lia. unfold deg2rad. field. lra.
Qed.
Print Assumptions C75_shape.
(** Points are evenly spaced along the chord and the span. *)
Theorem C75_even_spacing nx ny t ix j : (1 < nx)%nat -> (1 < ny)%nat -> (ix < nx)%nat -> (j < ny)%nat ->
  let m := trapezoid_mesh nx ny t in
  px m ix j = px m 0 j + INR ix / INR (nx - 1) * chord m nx j /\ py m ix j = py m ix 0 * (1 - INR j / INR (ny - 1)) /\
  chord m nx j = chord m nx 0 + (chord m nx (ny - 1) - chord m nx 0) * (INR j / INR (ny - 1)).
Proof.
  intros Hx Hy Hi Hj m. assert (HN : 0 < INR (ny - 1)) by (apply lt_0_INR; lia). unfold m. split; [|split].
  - rewrite trapezoid_chord by assumption. unfold px, trapezoid_mesh. rewrite !(lin_at _ _ nx) by lia. rewrite !(lin_at _ _ ny) by lia. cbn [INR]. unfold Rdiv. ring.
  - rewrite !trapezoid_y by lia. cbn [INR]. unfold Rdiv. ring.
  - rewrite !trapezoid_chord by lia. cbn [INR]. field. lra.
Qed.
Print Assumptions C75_even_spacing.

(** The Jacobian's columns, in the order of the flattened mesh, are the derivatives. *)
Lemma lin_D f f' g g' n k t df dg : (1 < n)%nat -> (k <= n - 1)%nat -> is_derive f t df -> is_derive g t dg -> f' = df -> g' = dg ->
  is_derive (fun v => linspace (f v) (g v) n k) t (linspace f' g' n k).
Proof.
  intros Hn Hk Df Dg -> ->. apply (is_derive_ext (fun v => f v + (g v - f v) * (INR k / INR (n - 1)))); [intro v; symmetry; now apply lin_at|]. rewrite lin_at by assumption.
  eapply D_eq; [apply D_plus; [exact Df|apply D_cmult, D_minus; [exact Dg|exact Df]]|]. ring.
Qed.
Lemma span_D t x : proper_trapezoid t -> is_derive (fun v => half_span (tz_set t x v)) (tz_get t x) match x with In_S => db_dS t | In_AR => db_dAR t | _ => 0 end.
Proof.
  intros (HS & HA & _ & _). assert (P : 0 < tz_AR t * tz_S t) by (now apply Rmult_lt_0_compat). pose proof (sqrt_lt_R0 _ P). unfold half_span, db_dS, db_dAR.
  destruct x; cbn [tz_set tz_get tz_S tz_AR]; auto_derive; auto; field; lra.
Qed.
Lemma root_D t x : proper_trapezoid t -> is_derive (fun v => c_root (tz_set t x v)) (tz_get t x) match x with In_S => dcroot_dS t | In_AR => dcroot_dAR t | In_taper => dcroot_dtaper t | In_sweep => 0 end.
Proof.
  intros P. destruct (half_span_pos t P) as [B _]. pose proof (span_D t x P) as D. destruct P as (HS & HA & HT & HC).
  assert (E : tz_set t x (tz_get t x) = t) by (destruct t, x; reflexivity). assert (N : half_span t * (1 + tz_taper t) <> 0) by (apply Rmult_integral_contrapositive_currified; lra).
  unfold c_root. destruct x; cbn [tz_get] in *.
  - change (fun v => tz_S (tz_set t In_S v) / (half_span (tz_set t In_S v) * (1 + tz_taper (tz_set t In_S v)))) with (fun v => v / (half_span (tz_set t In_S v) * (1 + tz_taper t))).
    eapply D_eq; [apply D_div; [apply D_id|apply D_cmult; exact D|cbv beta; rewrite E; exact N]|]. cbv beta; rewrite E. unfold dcroot_dS. field. lra.
  - change (fun v => tz_S (tz_set t In_AR v) / (half_span (tz_set t In_AR v) * (1 + tz_taper (tz_set t In_AR v)))) with (fun v => tz_S t / (half_span (tz_set t In_AR v) * (1 + tz_taper t))).
    eapply D_eq; [apply D_div; [apply D_const|apply D_cmult; exact D|cbv beta; rewrite E; exact N]|]. cbv beta; rewrite E. unfold dcroot_dAR. field. lra.
  - change (fun v => tz_S (tz_set t In_taper v) / (half_span (tz_set t In_taper v) * (1 + tz_taper (tz_set t In_taper v)))) with (fun v => tz_S t / (half_span t * (1 + v))).
    unfold dcroot_dtaper. auto_derive; [exact N|]. field. lra.
  - exact (D_const (c_root t) _).
Qed.
Theorem C75_partials nx ny t x ix j d : (1 < nx)%nat -> (1 < ny)%nat -> (ix < nx)%nat -> (j < ny)%nat -> (d < 3)%nat -> proper_trapezoid t ->
  is_derive (fun v => trapezoid_mesh nx ny (tz_set t x v) ix j d) (tz_get t x) (trapezoid_jac nx ny t x (3 * (ix * ny + j) + d)).
Proof.
  intros Hx Hy Hi Hj Hd P. assert (HN : 0 < INR (ny - 1)) by (apply lt_0_INR; lia). unfold trapezoid_jac. change (3 * (ix * ny + j) + d)%nat with (flat ny ix j d). rewrite flatten_at by assumption.
  pose proof (span_D t x P) as DB. pose proof (root_D t x P) as DR. destruct P as (HS & HA & HT & HC).
  assert (E : tz_set t x (tz_get t x) = t) by (destruct t, x; reflexivity).
  destruct d as [|[|[|]]]; [| | |lia].
  - cbn [trapezoid_mesh]. set (xi := linspace 0 1 nx ix).
    assert (DT : is_derive (fun v => tz_taper (tz_set t x v)) (tz_get t x) match x with In_taper => 1 | _ => 0 end).
    { destruct x; cbn [tz_set tz_taper tz_get]; try apply D_const. apply D_id. }
    assert (DTan : is_derive (fun v => tan (deg2rad (tz_sweep (tz_set t x v)))) (tz_get t x) match x with In_sweep => PI / 180 / cos (deg2rad (tz_sweep t)) ^ 2 | _ => 0 end).
    { destruct x; cbn [tz_set tz_sweep tz_get]; try apply D_const.
      unfold deg2rad, tan in *. auto_derive; [exact HC|]. unfold Rdiv in *. replace (tz_sweep t * (PI * / 180)) with (tz_sweep t * PI * / 180) in * by ring. pose proof (sin2_cos2 (tz_sweep t * PI * / 180)) as SC. unfold Rsqr in SC.
      set (c := cos _) in *. set (s := sin _) in *. replace (PI * / 180 * / c ^ 2) with (PI * / 180 * (s * s + c * c) * / c ^ 2) by (rewrite SC; ring). field. lra. }
    eapply D_eq.
    + apply D_plus; [apply D_minus|].
      * apply D_mult; [apply D_multc; exact DR|]. apply lin_D with (df := match x with In_taper => 1 | _ => 0 end) (dg := 0); [assumption|lia|exact DT|apply D_const|reflexivity|reflexivity].
      * apply (D_cdiv (fun v => linspace (c_root (tz_set t x v) * tz_taper (tz_set t x v)) (c_root (tz_set t x v)) ny j)).
        eapply lin_D; [assumption|lia|apply D_mult; [exact DR|exact DT]|exact DR|reflexivity|reflexivity].
      * apply D_mult; [|exact DTan]. eapply lin_D; [assumption|lia|exact DB|apply D_const|reflexivity|reflexivity].
    + rewrite !E. fold xi. rewrite !lin_at by lia. destruct x; cbn [trapezoid_partials]; fold xi; rewrite ?lin_at by lia; field; repeat split; lra.
  - cbn [trapezoid_mesh]. eapply D_eq; [apply D_multc; exact DB|]. destruct x; cbn [trapezoid_partials]; ring.
  - cbn [trapezoid_mesh]. eapply D_eq; [apply D_const|]. destruct x; reflexivity.
Qed.
Print Assumptions C75_partials.
Definition swept_wing : trapezoid := {| tz_S := 100; tz_AR := 9; tz_taper := 3/10; tz_sweep := 30 |}.
Example swept_wing_ok : proper_trapezoid swept_wing.
Proof. unfold proper_trapezoid, swept_wing, deg2rad; cbn. replace (30 * PI / 180) with (PI / 6) by field. rewrite cos_PI6. pose proof (sqrt_lt_R0 3 ltac:(lra)). lra. Qed.
