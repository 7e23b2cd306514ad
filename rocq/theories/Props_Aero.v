(** Theorems about aerodynamics, geometry, tail sizing and costs (C43 - C46, C55 - C57). *)
From Coq Require Import Reals List Bool PeanoNat String Lra Lia.
From Verif Require Import Base Py RSum Calc Model_Phases Proofs_Phases Model_Aero Spec_Aero Proofs_Aero.
Import ListNotations.
Open Scope R_scope.
Open Scope string_scope.

Ltac outs C := unfold vcompute, nval; cbn [assoc C pc_outs String.eqb Ascii.eqb Bool.eqb];
  unfold node; cbn [assoc C pc_ins String.eqb Ascii.eqb Bool.eqb].

(** ** C43 *)
Theorem C43_drag_polar (v : bool) E i : E "e" 0%nat <> 0 -> E "ac|geom|wing|AR" 0%nat <> 0 ->
  let CD0 := E "CD0" (if v then i else 0%nat) in
  vcompute (PolarDrag v) E "drag" i =
  E "fltcond|q" i * E "ac|geom|wing|S_ref" 0%nat *
    (CD0 + E "fltcond|CL" i ^ 2 / (PI * E "e" 0%nat * E "ac|geom|wing|AR" 0%nat)).
Proof.
  intros He HA CD0. assert (HP : PI <> 0) by (pose proof PI_RGT_0; lra). unfold CD0.
  destruct v; outs PolarDrag; field; auto.
Qed.
Print Assumptions C43_drag_polar.

Theorem C43_drag_partials v n E : (0 < n)%nat -> E "e" 0%nat <> 0 -> E "ac|geom|wing|AR" 0%nat <> 0 ->
  jac_correct n (PolarDrag v) E.
Proof. exact (polar_jac v n E). Qed.
Print Assumptions C43_drag_partials.

(** For a given lift L = q S CL, the polar's drag is least exactly when the
    induced drag equals the zero-lift drag, and is then 2 L sqrt(CD0 / (pi e AR)). *)
Theorem C43_least_drag (v : bool) E i : 0 < E "e" 0%nat -> 0 < E "ac|geom|wing|AR" 0%nat ->
  let CD0 := E "CD0" (if v then i else 0%nat) in
  let K := PI * E "e" 0%nat * E "ac|geom|wing|AR" 0%nat in
  let L := E "fltcond|q" i * E "ac|geom|wing|S_ref" 0%nat * E "fltcond|CL" i in
  0 < CD0 -> 0 < E "fltcond|q" i -> 0 < E "ac|geom|wing|S_ref" 0%nat -> 0 < E "fltcond|CL" i ->
  2 * L * sqrt (CD0 / K) <= vcompute (PolarDrag v) E "drag" i /\
  (vcompute (PolarDrag v) E "drag" i = 2 * L * sqrt (CD0 / K) <-> CD0 = E "fltcond|CL" i ^ 2 / K).
Proof.
  intros He HA CD0 K L H0 Hq HS HC.
  assert (He0 : E "e" 0%nat <> 0) by lra. assert (HA0 : E "ac|geom|wing|AR" 0%nat <> 0) by lra.
  pose proof (C43_drag_polar v E i He0 HA0) as D. cbv zeta in D. fold CD0 K in D. rewrite D. clear D.
  assert (HK : 0 < K) by (unfold K; apply Rmult_lt_0_compat; [apply Rmult_lt_0_compat; [exact PI_RGT_0|exact He]|exact HA]).
  assert (Hx : 0 < CD0 / K) by (unfold Rdiv; apply Rmult_lt_0_compat; auto; apply Rinv_0_lt_compat; auto).
  set (r := sqrt (CD0 / K)). assert (Hr : r * r = CD0 / K) by (apply sqrt_sqrt; lra).
  assert (E0 : CD0 = K * (r * r)) by (rewrite Hr; field; lra).
  set (m := E "fltcond|q" i * E "ac|geom|wing|S_ref" 0%nat) in *.
  assert (Hm : 0 < m) by (apply Rmult_lt_0_compat; auto).
  set (c := E "fltcond|CL" i) in *.
  assert (Q : m * (CD0 + c ^ 2 / K) - 2 * L * r = m * (K * (c / K - r) ^ 2)).
  { unfold L. rewrite E0. field. lra. }
  assert (P2 : 0 <= m * (K * (c / K - r) ^ 2)).
  { apply Rmult_le_pos; [lra|]. apply Rmult_le_pos; [lra|]. apply pow2_ge_0. }
  split; [lra|].
  assert (C2 : c ^ 2 / K - CD0 = K * ((c / K) ^ 2 - r ^ 2)) by (rewrite E0; field; lra).
  assert (Hr0 : 0 < r) by (apply sqrt_lt_R0; auto).
  assert (Hc0 : 0 < c / K) by (unfold Rdiv; apply Rmult_lt_0_compat; auto; apply Rinv_0_lt_compat; auto).
  split; intro H.
  - assert (Z : m * (K * (c / K - r) ^ 2) = 0) by lra.
    apply Rmult_integral in Z. destruct Z as [Z|Z]; [lra|]. apply Rmult_integral in Z. destruct Z as [Z|Z]; [lra|].
    assert (c / K = r). { destruct (Req_dec (c / K - r) 0); [lra|]. exfalso. apply (pow_nonzero (c / K - r) 2 H1 Z). }
    rewrite H1 in C2. lra.
  - assert (Z : K * ((c / K) ^ 2 - r ^ 2) = 0) by lra. apply Rmult_integral in Z. destruct Z as [Z|Z]; [lra|].
    assert (c / K = r). { replace ((c / K) ^ 2 - r ^ 2) with ((c / K - r) * (c / K + r)) in Z by ring. apply Rmult_integral in Z. lra. }
    rewrite H1 in Q. replace (r - r) with 0 in Q by ring. lra.
Qed.
Print Assumptions C43_least_drag.

(** At the stall speed (equivalent airspeed, sea-level density 1.225) the lift at
    CLmax carries the weight. *)
Theorem C43_stall_lift_is_weight E : 0 < E "weight" 0%nat -> 0 < E "ac|geom|wing|S_ref" 0%nat -> 0 < E "CLmax" 0%nat ->
  let V := vcompute StallSpeed E "Vstall_eas" 0 in
  0 < V /\ 1/2 * (1225/1000) * V ^ 2 * E "ac|geom|wing|S_ref" 0%nat * E "CLmax" 0%nat = E "weight" 0%nat * (980665/100000).
Proof.
  intros HW HS HC V. unfold V. outs StallSpeed. pose proof GRAV_pos.
  match goal with |- context [sqrt ?a] => assert (Ha : 0 < a);
    [unfold Rdiv; repeat apply Rmult_lt_0_compat; try apply Rinv_0_lt_compat; lra|];
    split; [now apply sqrt_lt_R0|]; replace (sqrt a ^ 2) with a by (simpl; rewrite Rmult_1_r; symmetry; apply sqrt_sqrt; lra) end.
  unfold GRAV. field. lra.
Qed.
Print Assumptions C43_stall_lift_is_weight.
Theorem C43_stall_partials n E : (0 < n)%nat -> 0 < E "weight" 0%nat -> 0 < E "ac|geom|wing|S_ref" 0%nat -> 0 < E "CLmax" 0%nat ->
  jac_correct n StallSpeed E.
Proof. exact (stall_jac n E). Qed.
Print Assumptions C43_stall_partials.
Example C43_met : exists E : env, 0 < E "weight" 0%nat /\ 0 < E "ac|geom|wing|S_ref" 0%nat /\ 0 < E "CLmax" 0%nat /\
  E "e" 0%nat <> 0 /\ E "ac|geom|wing|AR" 0%nat <> 0 /\ vcompute (PolarDrag false) E "drag" 5 = 2 * 2 * (2 + 2 ^ 2 / PI / 2 / 2).
Proof. exists (fun _ _ => 2). repeat split; try lra. Qed.

(** ** C44 *)
  Lemma area_is_int s start idx ch :
    let np := n_panels s start idx in let y0 := full_y s start in let y1 := full_y s (start + np)%nat in lofted s (sec_c s) ch start (start + np) ->
    is_RInt ch y0 y1 (half_area start idx s).
  Proof.
    intros np y0 y1 H. apply (int_panels ch (full_y s)). intros k Hk. destruct (H (start + k)%nat ltac:(fold np in Hk; lia)) as [Hy Hl].
    cbv zeta. replace (5/10 * _ * _) with ((sec_c s (start + k) + sec_c s (start + k + 1)) / 2 *
       (full_y s (start + k + 1) - full_y s (start + k))) by field.
    apply int_line1; auto.
  Qed.
  Lemma chord2_is_int s start idx ch :
    let np := n_panels s start idx in let y0 := full_y s start in let y1 := full_y s (start + np)%nat in half_area start idx s <> 0 -> lofted s (sec_c s) ch start (start + np) ->
    is_RInt (fun t => ch t * ch t) y0 y1 (half_area start idx s * sections_MAC start idx s).
  Proof.
    intros np y0 y1 HA H. unfold sections_MAC. fold np. rewrite <- rsum_scal. apply (int_panels _ (full_y s)). intros k Hk.
    destruct (H (start + k)%nat ltac:(lia)) as [Hy Hl]. cbv zeta.
    replace (half_area start idx s * _) with ((full_y s (start + k + 1) - full_y s (start + k)) *
      (2 * sec_c s (start + k) * sec_c s (start + k) + sec_c s (start + k) * sec_c s (start + k + 1)
       + sec_c s (start + k + 1) * sec_c s (start + k) + 2 * sec_c s (start + k + 1) * sec_c s (start + k + 1)) / 6)
      by (field; auto).
    apply int_line2; auto.
  Qed.
  Lemma x_is_int s start idx ch xl :
    let np := n_panels s start idx in let y0 := full_y s start in let y1 := full_y s (start + np)%nat in half_area start idx s <> 0 -> lofted s (sec_c s) ch start (start + np) -> lofted s (sec_x s) xl start (start + np) ->
    is_RInt (fun t => ch t * (xl t + ch t / 4)) y0 y1 (half_area start idx s * sections_x_c4MAC start idx s).
  Proof.
    intros np y0 y1 HA H HX. unfold sections_x_c4MAC. fold np. rewrite <- rsum_scal. apply (int_panels _ (full_y s)). intros k Hk.
    destruct (H (start + k)%nat ltac:(lia)) as [Hy Hl]. destruct (HX (start + k)%nat ltac:(lia)) as [_ Hx]. cbv zeta.
    set (c1 := sec_c s (start + k)) in *. set (c2 := sec_c s (start + k + 1)) in *.
    set (x1 := sec_x s (start + k)) in *. set (x2 := sec_x s (start + k + 1)) in *.
    replace (half_area start idx s * _) with ((full_y s (start + k + 1) - full_y s (start + k)) *
      (2 * c1 * (x1 + c1 / 4) + c1 * (x2 + c2 / 4) + c2 * (x1 + c1 / 4) + 2 * c2 * (x2 + c2 / 4)) / 6) by (field; auto).
    apply (int_line2 ch (fun t => xl t + ch t / 4)); auto.
    intros t Ht. rewrite Hl, Hx by auto. unfold line. field. lra.
  Qed.

(** For any number of sections and any accepted index range: the area is twice the
    integral of the chord, the mean aerodynamic chord is the integral of chord
    squared over that area, and x_c4MAC is the chord-weighted mean position of the
    quarter chord. *)
Theorem C44_planform_integrals s start idx ch xl fs fe :
  let np := n_panels s start idx in let a := full_y s start in let b := full_y s (start + np)%nat in
  lofted s (sec_c s) ch start (start + np) -> lofted s (sec_x s) xl start (start + np) -> RInt ch a b <> 0 ->
  sections_area fs fe start idx s = 2 * ((fe - fs) * RInt ch a b) /\
  sections_MAC start idx s = RInt (fun t => ch t * ch t) a b / RInt ch a b /\
  sections_x_c4MAC start idx s = RInt (fun t => ch t * (xl t + ch t / 4)) a b / RInt ch a b.
Proof.
  intros np a b Hc Hx HA.
  pose proof (is_RInt_unique _ _ _ _ (area_is_int s start idx ch Hc)) as I1. fold np a b in I1. rewrite I1 in *.
  pose proof (is_RInt_unique _ _ _ _ (chord2_is_int s start idx ch HA Hc)) as I2. fold np a b in I2. rewrite I2.
  pose proof (is_RInt_unique _ _ _ _ (x_is_int s start idx ch xl HA Hc Hx)) as I3. fold np a b in I3. rewrite I3.
  split; [|split; field; auto].
  unfold sections_area, half_area. fold np. f_equal. rewrite <- rsum_scal. apply rsum_ext. intros k _. cbv zeta. ring.
Qed.
Print Assumptions C44_planform_integrals.

(** The whole wing: the panels reach from the tip to the root at y = 0. *)
Theorem C44_whole_wing_range s : (2 <= sec_n s)%nat ->
  n_panels s 0 None = (sec_n s - 1)%nat /\ full_y s 0 = sec_y s 0%nat /\ full_y s (0 + n_panels s 0 None)%nat = 0.
Proof.
  intro H. unfold n_panels, i_end. rewrite Nat.min_id, Nat.sub_0_r. split; [reflexivity|]. unfold full_y.
  split; [destruct (Nat.ltb_spec 0 (sec_n s - 1)); auto; lia|]. destruct (Nat.ltb_spec (0 + (sec_n s - 1)) (sec_n s - 1)); auto; lia.
Qed.
Print Assumptions C44_whole_wing_range.
(** A part of the wing: the panels reach from section [first] to section [last], both
    included; a [last] beyond the root means the root. *)
Theorem C44_partial_wing_range s first last : (first < sec_n s)%nat -> (first <= last)%nat ->
  (first + n_panels s first (Some last))%nat = Nat.min last (sec_n s - 1).
Proof. intros H1 H2. unfold n_panels, i_end. lia. Qed.
Print Assumptions C44_partial_wing_range.

Lemma ins_lo j v f i : (i <= j)%nat -> insert_after j v f i = f i.
Proof. intro H. unfold insert_after. destruct (Nat.leb_spec i j); auto; lia. Qed.
Lemma ins_mid j v f : insert_after j v f (j + 1) = v.
Proof. unfold insert_after. destruct (Nat.leb_spec (j + 1) j); [lia|]. now rewrite Nat.eqb_refl. Qed.
Lemma ins_hi j v f i : (j + 1 <= i)%nat -> insert_after j v f (i + 1) = f i.
Proof.
  intro H. unfold insert_after. destruct (Nat.leb_spec (i + 1) j); [lia|]. destruct (Nat.eqb_spec (i + 1) (j + 1)); [lia|].
  f_equal. lia.
Qed.
Lemma full_y_add j l s i : (j + 1 < sec_n s)%nat -> (i <= sec_n s)%nat ->
  full_y (add_section j l s) i = insert_after j ((1 - l) * full_y s j + l * full_y s (j + 1)%nat) (full_y s) i.
Proof.
  intros Hj Hi. unfold full_y at 1. unfold add_section; cbn [sec_n sec_y].
  destruct (Nat.ltb_spec i (S (sec_n s) - 1)); [reflexivity|].
  assert (i = sec_n s - 1 + 1)%nat by lia. subst i. rewrite ins_hi by lia. unfold full_y.
  destruct (Nat.ltb_spec (sec_n s - 1) (sec_n s - 1)); [lia|reflexivity].
Qed.

(** An additional section on a straight panel changes nothing. *)
Theorem C44_extra_section_is_neutral s j l fs fe : (j + 1 < sec_n s)%nat -> 0 < l < 1 ->
  full_y s (j + 1)%nat - full_y s j <> 0 ->
  let s' := add_section j l s in
  sections_area fs fe 0 None s' = sections_area fs fe 0 None s /\
  sections_MAC 0 None s' = sections_MAC 0 None s /\ sections_x_c4MAC 0 None s' = sections_x_c4MAC 0 None s /\
  sections_sweep 0 None s' = sections_sweep 0 None s.
Proof.
  intros Hj Hl Hw s'. set (n := (sec_n s - 1)%nat).
  assert (N : n_panels s 0 None = n) by (unfold n_panels, i_end, n; rewrite Nat.min_id; lia).
  assert (N' : n_panels s' 0 None = S n) by (unfold n_panels, i_end, n, s'; cbn [add_section sec_n]; rewrite Nat.min_id; lia).
  set (yj := (1 - l) * full_y s j + l * full_y s (j + 1)%nat).
  assert (Ylo : forall i, (i <= j)%nat -> full_y s' i = full_y s i) by (intros; unfold s'; rewrite full_y_add by lia; now apply ins_lo).
  assert (Ymid : full_y s' (j + 1)%nat = yj) by (unfold s'; rewrite full_y_add by lia; apply ins_mid).
  assert (Yhi : forall i, (j + 1 <= i < sec_n s)%nat -> full_y s' (i + 1)%nat = full_y s i) by (intros; unfold s'; rewrite full_y_add by lia; now apply ins_hi).
  assert (Clo : forall i, (i <= j)%nat -> sec_c s' i = sec_c s i) by (intros; now apply ins_lo).
  assert (Cmid : sec_c s' (j + 1)%nat = (1 - l) * sec_c s j + l * sec_c s (j + 1)%nat) by (apply ins_mid).
  assert (Chi : forall i, (j + 1 <= i)%nat -> sec_c s' (i + 1)%nat = sec_c s i) by (intros; now apply ins_hi).
  assert (Xlo : forall i, (i <= j)%nat -> sec_x s' i = sec_x s i) by (intros; now apply ins_lo).
  assert (Xmid : sec_x s' (j + 1)%nat = (1 - l) * sec_x s j + l * sec_x s (j + 1)%nat) by (apply ins_mid).
  assert (Xhi : forall i, (j + 1 <= i)%nat -> sec_x s' (i + 1)%nat = sec_x s i) by (intros; now apply ins_hi).
  clearbody s'.
  assert (Y2 : full_y s' (j + 1 + 1)%nat = full_y s (j + 1)%nat) by (apply Yhi; lia).
  assert (C2 : sec_c s' (j + 1 + 1)%nat = sec_c s (j + 1)%nat) by (apply Chi; lia).
  assert (X2 : sec_x s' (j + 1 + 1)%nat = sec_x s (j + 1)%nat) by (apply Xhi; lia).
  (* the two halves of the split panel, any panel quantity [Q c1 c2 x1 x2 y1 y2] *)
  assert (Gen : forall Q : R -> R -> R -> R -> R -> R -> R,
     (forall c1 c2 x1 x2 y1 y2, y2 - y1 <> 0 ->
        let m a b := (1 - l) * a + l * b in
        Q c1 (m c1 c2) x1 (m x1 x2) y1 (m y1 y2) + Q (m c1 c2) c2 (m x1 x2) x2 (m y1 y2) y2 = Q c1 c2 x1 x2 y1 y2) ->
     rsum (S n) (fun k => Q (sec_c s' k) (sec_c s' (k + 1)%nat) (sec_x s' k) (sec_x s' (k + 1)%nat) (full_y s' k) (full_y s' (k + 1)%nat)) =
     rsum n (fun k => Q (sec_c s k) (sec_c s (k + 1)%nat) (sec_x s k) (sec_x s (k + 1)%nat) (full_y s k) (full_y s (k + 1)%nat))).
  { intros Q HQ. apply (rsum_split_panel n j); [unfold n; lia| | |].
    - intros k Hk. rewrite !Clo, !Xlo, !Ylo by lia. reflexivity.
    - rewrite Y2, C2, X2, Ymid, Cmid, Xmid, (Clo j), (Xlo j), (Ylo j) by lia. apply HQ. exact Hw.
    - intros k Hk. assert ((k < sec_n s)%nat /\ (k + 1 < sec_n s)%nat) as [K1 K2] by (unfold n in Hk; lia).
      rewrite !Chi, !Xhi, !Yhi by lia. reflexivity. }
  assert (HA : half_area 0 None s' = half_area 0 None s).
  { unfold half_area. rewrite N, N'.
    apply (Gen (fun c1 c2 x1 x2 y1 y2 => 5/10 * (c1 + c2) * (y2 - y1))). intros c1 c2 x1 x2 y1 y2 Hy m. unfold m. field. }
  split; [|split; [|split]].
  - unfold sections_area. rewrite N, N'. f_equal.
    apply (Gen (fun c1 c2 x1 x2 y1 y2 => 5/10 * (c1 + c2) * (fe - fs) * (y2 - y1))). intros c1 c2 x1 x2 y1 y2 Hy m. unfold m. field.
  - unfold sections_MAC. rewrite N, N', HA. generalize (half_area 0 None s); intro h.
    apply (Gen (fun c1 c2 x1 x2 y1 y2 => (y2 - y1) * (c1 ^ 2 + c1 * c2 + c2 ^ 2) / (3 * h))). intros c1 c2 x1 x2 y1 y2 Hy m. unfold m, Rdiv. ring.
  - unfold sections_x_c4MAC. rewrite N, N', HA. generalize (half_area 0 None s); intro h.
    apply (Gen (fun c1 c2 x1 x2 y1 y2 => (y2 - y1) *
       (c1 * c2 + 4 * c1 * x1 + 2 * c1 * x2 + 2 * c2 * x1 + 4 * c2 * x2 + c1 ^ 2 + c2 ^ 2) / (12 * h))). intros c1 c2 x1 x2 y1 y2 Hy m. unfold m, Rdiv. ring.
  - unfold sections_sweep. rewrite N, N'. f_equal. f_equal. f_equal.
    + apply (Gen (fun c1 c2 x1 x2 y1 y2 =>
        cos (atan ((x1 + c1 * (25/100) - (x2 + c2 * (25/100))) / (y2 - y1)) / to_rad * to_rad) * (5/10 * (c1 + c2) * (y2 - y1)))).
      intros c1 c2 x1 x2 y1 y2 Hy m. unfold m. clear - Hl Hy.
      assert (N1 : (1 - l) * y1 + l * y2 - y1 <> 0) by
        (replace ((1 - l) * y1 + l * y2 - y1) with (l * (y2 - y1)) by ring; apply Rmult_integral_contrapositive_currified; lra).
      assert (N2 : y2 - ((1 - l) * y1 + l * y2) <> 0) by
        (replace (y2 - ((1 - l) * y1 + l * y2)) with ((1 - l) * (y2 - y1)) by ring; apply Rmult_integral_contrapositive_currified; lra).
      assert (R1 : (x1 + c1 * (25/100) - ((1 - l) * x1 + l * x2 + ((1 - l) * c1 + l * c2) * (25/100))) / ((1 - l) * y1 + l * y2 - y1)
        = (x1 + c1 * (25/100) - (x2 + c2 * (25/100))) / (y2 - y1)).
      { replace ((1 - l) * y1 + l * y2 - y1) with (l * (y2 - y1)) by ring. field. split; lra. }
      assert (R2 : ((1 - l) * x1 + l * x2 + ((1 - l) * c1 + l * c2) * (25/100) - (x2 + c2 * (25/100))) / (y2 - ((1 - l) * y1 + l * y2))
        = (x1 + c1 * (25/100) - (x2 + c2 * (25/100))) / (y2 - y1)).
      { replace (y2 - ((1 - l) * y1 + l * y2)) with ((1 - l) * (y2 - y1)) by ring. field. split; lra. }
      rewrite R1, R2.
      ring.
    + apply (Gen (fun c1 c2 x1 x2 y1 y2 => 5/10 * (c1 + c2) * (y2 - y1))). intros c1 c2 x1 x2 y1 y2 Hy m. unfold m. field.
Qed.
Print Assumptions C44_extra_section_is_neutral.

(** Two sections describing the trapezoidal wing of given area, aspect ratio and
    taper: span from WingSpan, same area, same mean chord as WingMACTrapezoidal. *)
Theorem C44_two_sections_agree_with_trapezoid E x : 0 < E "S_ref" 0%nat -> 0 < E "AR" 0%nat -> 0 <= E "taper" 0%nat ->
  let b := vcompute WingSpan E "span" 0 in
  let cr := 2 * E "S_ref" 0%nat / (b * (1 + E "taper" 0%nat)) in
  let s := {| sec_n := 2; sec_x := x; sec_y := fun _ => - (b / 2); sec_c := fun i => if Nat.eqb i 0 then E "taper" 0%nat * cr else cr |} in
  sections_area 0 1 0 None s = E "S_ref" 0%nat /\ sections_MAC 0 None s = vcompute WingMACTrapezoidal E "MAC" 0.
Proof.
  intros HS HA HT b cr s.
  assert (Hb : b = sqrt (E "S_ref" 0%nat) * sqrt (E "AR" 0%nat)).
  { unfold b. outs WingSpan. now rewrite !Rpower_half. }
  assert (M : vcompute WingMACTrapezoidal E "MAC" 0 =
     mac_of (sqrt (E "S_ref" 0%nat) / sqrt (E "AR" 0%nat) * 2 / (1 + E "taper" 0%nat)) (E "taper" 0%nat * (sqrt (E "S_ref" 0%nat) / sqrt (E "AR" 0%nat) * 2 / (1 + E "taper" 0%nat)))).
  { outs WingMACTrapezoidal. rewrite sqrt_div by lra. reflexivity. }
  rewrite M. clear M.
  pose proof (sqrt_lt_R0 _ HA) as HQ. pose proof (sqrt_lt_R0 _ HS) as HR.
  pose proof (sqrt_sqrt _ (Rlt_le _ _ HS)) as SS. 
  unfold s, sections_area, sections_MAC, half_area, n_panels, i_end, full_y, mac_of; simpl. unfold cr. rewrite Hb. clearbody b. clear s cr Hb.
  set (a := sqrt (E "AR" 0%nat)) in *. set (r := sqrt (E "S_ref" 0%nat)) in *. set (t := E "taper" 0%nat) in *. set (S := E "S_ref" 0%nat) in *.
  clearbody a r t S. rewrite <- SS.
  assert (Hd : 0 < 1 + t + t * t) by nra.
  split; field; repeat split; try lra; try nra.
Qed.
Print Assumptions C44_two_sections_agree_with_trapezoid.
Definition ex_wing : sections :=
  {| sec_n := 3; sec_x := fun i => 4 - 2 * INR i; sec_y := fun i => -(8) + 4 * INR i; sec_c := fun i => 1 + INR i |}.
Example C44_met : n_panels ex_wing 0 None = 2%nat /\
  lofted ex_wing (sec_c ex_wing) (fun t => 3 + t / 4) 0 (0 + n_panels ex_wing 0 None) /\
  lofted ex_wing (sec_x ex_wing) (fun t => - t / 2) 0 (0 + n_panels ex_wing 0 None) /\
  sections_area 0 1 0 None ex_wing = 32 /\ full_y ex_wing 2 - full_y ex_wing 1 <> 0.
Proof.
  split; [reflexivity|]. split; [|split; [|split]].
  - intros [|[|a]] Ha; [| |cbn in Ha; lia]; unfold full_y; simpl; (split; [lra|]; intros t Ht; field).
  - intros [|[|a]] Ha; [| |cbn in Ha; lia]; unfold full_y; simpl; (split; [lra|]; intros t Ht; field).
  - unfold sections_area, n_panels, i_end, full_y; simpl. lra.
  - unfold full_y; simpl. lra.
Qed.

(** ** C45 *)
Theorem C45_volume_coefficients E C_ht C_vt : 0 < E "ac|geom|wing|S_ref" 0%nat -> 0 < E "ac|geom|wing|AR" 0%nat ->
  E "ac|geom|wing|MAC" 0%nat <> 0 -> E "ac|geom|hstab|c4_to_wing_c4" 0%nat <> 0 -> E "ac|geom|vstab|c4_to_wing_c4" 0%nat <> 0 ->
  let Sw := E "ac|geom|wing|S_ref" 0%nat in
  let span := vcompute WingSpan (fun x _ => if String.eqb x "AR" then E "ac|geom|wing|AR" 0%nat else Sw) "span" 0 in
  let Sh := vcompute (HStabSizing C_ht) E "ac|geom|hstab|S_ref" 0 in
  let Sv := vcompute (VStabSizing C_vt) E "ac|geom|vstab|S_ref" 0 in
  Sh * E "ac|geom|hstab|c4_to_wing_c4" 0%nat / (E "ac|geom|wing|MAC" 0%nat * Sw) = C_ht /\
  Sv * E "ac|geom|vstab|c4_to_wing_c4" 0%nat / (span * Sw) = C_vt.
Proof.
  intros HS HA HM HL HL' Sw span Sh Sv. unfold span, Sh, Sv, Sw.
  outs HStabSizing. outs VStabSizing. outs WingSpan. rewrite !Rpower_half, Rpower_15 by auto.
  pose proof (sqrt_lt_R0 _ HA). pose proof (sqrt_lt_R0 _ HS). split; field; repeat split; lra.
Qed.
Print Assumptions C45_volume_coefficients.
Theorem C45_partials n E C_ht C_vt : (0 < n)%nat -> 0 < E "ac|geom|wing|S_ref" 0%nat -> 0 < E "ac|geom|wing|AR" 0%nat ->
  E "ac|geom|hstab|c4_to_wing_c4" 0%nat <> 0 -> E "ac|geom|vstab|c4_to_wing_c4" 0%nat <> 0 ->
  jac_correct n (HStabSizing C_ht) E /\ jac_correct n (VStabSizing C_vt) E.
Proof. intros. split; [now apply hstab_jac|now apply vstab_jac]. Qed.
Print Assumptions C45_partials.
Example C45_met : exists E : env, 0 < E "ac|geom|wing|S_ref" 0%nat /\ 0 < E "ac|geom|wing|AR" 0%nat /\
  E "ac|geom|wing|MAC" 0%nat <> 0 /\ E "ac|geom|hstab|c4_to_wing_c4" 0%nat <> 0 /\ E "ac|geom|vstab|c4_to_wing_c4" 0%nat <> 0.
Proof. exists (fun _ _ => 9). repeat split; lra. Qed.

(** ** C46 *)
(** The totals are the sums of their parts, for any number of components and batteries. *)
Theorem C46_totals o e : daily_cycles o <> 0 -> life_years o <> 0 -> batt_cycles o <> 0 ->
  let m := match n_batteries o with Some m => m | None => 0%nat end in
  cost_compute o e TotalNR = premium o *
     (af_cost_kg o * (e OEW - rsum (n_components o) (fun i => e (CompWeight i))) + rsum (n_components o) (fun i => e (CompCost i))) /\
  cost_compute o e AirframeNR = premium o * af_cost_kg o * (e OEW - rsum (n_components o) (fun i => e (CompWeight i))) /\
  cost_compute o e TripEnergy = fuel_cost_per_kg o * e FuelBurn + elec_cost_per_MJ o * rsum m (fun i => e (BattEnergy i)) /\
  cost_compute o e TripDOC = cost_compute o e TripEnergy + cost_compute o e TotalNR / (daily_cycles o * 365 * life_years o)
                             + rsum m (fun i => e (BattCost i)) / batt_cycles o.
Proof.
  intros Hd Hl Hb m. unfold cost_compute, m. destruct (n_batteries o) as [k|]; rewrite ?adj_oew_rsum, ?sum_in_rsum; simpl;
  repeat split; try ring; field; auto.
Qed.
Print Assumptions C46_totals.

Lemma rsum_delta n (f : nat -> R) k (t : R) : (k < n)%nat ->
  rsum n (fun i => if Nat.eqb i k then t else f i) = rsum n f + (t - f k).
Proof.
  intro H. rewrite (rsum_ext n _ (fun i => f i + (if Nat.eqb i k then t - f k else 0))).
  - rewrite rsum_plus. f_equal. rewrite (rsum_one n _ k); auto.
    + now rewrite Nat.eqb_refl.
    + intros j _ Hj. destruct (Nat.eqb_spec j k); congruence.
  - intros i _. destruct (Nat.eqb_spec i k); subst; ring.
Qed.
(** One input replaced. *)
Definition upd_cost (e : cost_in -> R) (x : cost_in) (t : R) : cost_in -> R := fun y =>
  match x, y with
  | CompWeight i, CompWeight j | CompCost i, CompCost j | BattCost i, BattCost j | BattEnergy i, BattEnergy j =>
      if Nat.eqb j i then t else e y
  | FuelBurn, FuelBurn | OEW, OEW => t
  | _, _ => e y
  end.
(** The constants declared as partials are the derivatives, for every output and
    input that exists and any number of components and batteries. *)
Theorem C46_constant_partials o e x y : cost_has_in o x = true -> cost_has_out o y = true ->
  is_derive (fun t => cost_compute o (upd_cost e x t) y) (e x) (cost_jac o y x).
Proof.
  intros Hx Hy. unfold cost_jac. rewrite Hx. cbn [negb].
  set (k := match x, y with
  | CompWeight _, (AirframeNR | TotalNR) => - af_cost_kg o * premium o
  | CompWeight _, TripDOC => - af_cost_kg o * premium o / daily_cycles o / 365 / life_years o
  | CompCost _, TotalNR => premium o
  | CompCost _, TripDOC => premium o / daily_cycles o / 365 / life_years o
  | BattEnergy _, (Electricity | TripEnergy | TripDOC) => elec_cost_per_MJ o
  | BattCost _, (TripBattery | TripDOC) => 1 / batt_cycles o
  | OEW, (AirframeNR | TotalNR) => af_cost_kg o * premium o
  | OEW, TripDOC => af_cost_kg o * premium o / daily_cycles o / 365 / life_years o
  | FuelBurn, (FuelCost | TripEnergy | TripDOC) => fuel_cost_per_kg o
  | _, _ => 0
  end).
  apply (is_derive_ext (fun t => cost_compute o e y + k * (t - e x))).
  2: { auto_derive; auto. ring. }
  intro t. match goal with |- ?a = ?b => change (@eq R a b) end. unfold cost_compute. rewrite !adj_oew_rsum, !sum_in_rsum.
  destruct x as [i|i|i|i| |]; cbn [upd_cost];
  cbn [cost_has_in] in Hx; try (destruct (n_batteries o) as [m|] eqn:Hm; [|discriminate]); try apply Nat.ltb_lt in Hx;
  rewrite ?(rsum_delta (n_components o) (fun j => e (CompWeight j)) i t), ?(rsum_delta (n_components o) (fun j => e (CompCost j)) i t) by auto;
  try rewrite ?(rsum_delta m (fun j => e (BattCost j)) i t), ?(rsum_delta m (fun j => e (BattEnergy j)) i t) by auto;
  destruct y; unfold k; try discriminate; try ring; try (unfold Rdiv; ring);
  try (destruct (n_batteries o) as [m|]; unfold Rdiv; ring).
Qed.
Print Assumptions C46_constant_partials.
Example C46_met : exists o e, cost_has_in o (BattCost 1) = true /\ cost_has_out o TripDOC = true /\ daily_cycles o <> 0 /\ life_years o <> 0 /\
  batt_cycles o <> 0 /\ cost_compute o e TripEnergy = 70.
Proof.
  exists {| n_components := 3; n_batteries := Some 2%nat; af_cost_kg := 266; fuel_cost_per_kg := 1/2; elec_cost_per_MJ := 1/100;
            life_years := 15; daily_cycles := 5; batt_cycles := 1500; premium := 11/10 |}.
  exists (fun x => match x with BattEnergy _ => 1000 | FuelBurn => 100 | _ => 7 end). simpl. unfold cost_compute; simpl; repeat split; lra.
Qed.

(** ** C55 *)
Lemma rsum_pos n f : (0 < n)%nat -> (forall k, (k < n)%nat -> 0 < f k) -> 0 < rsum n f.
Proof.
  intros Hn H. destruct n; [lia|]. simpl. pose proof (rsum_nonneg n f ltac:(intros; apply Rlt_le, H; lia)).
  pose proof (H n ltac:(lia)). lra.
Qed.
(** The average sweep lies between the smallest and largest panel sweep (without
    sign); in particular it is the common value when all panels agree. *)
Theorem C55_sweep_is_a_mean s start idx lo hi : (0 < n_panels s start idx)%nat -> 0 <= lo -> hi <= 90 ->
  (forall k, (k < n_panels s start idx)%nat -> 0 < panel_area s (start + k) /\ lo <= Rabs (panel_sweep s (start + k)) <= hi) ->
  lo <= sections_sweep start idx s <= hi.
Proof.
  intros Hn Hlo Hhi H. unfold sections_sweep. cbv zeta. set (n := n_panels s start idx) in *.
  set (A := rsum n (fun k => panel_area s (start + k))).
  set (B := rsum n _).
  assert (HA : 0 < A) by (apply rsum_pos; auto; intros; now apply H).
  assert (Hr : 0 < to_rad) by (unfold to_rad; pose proof PI_RGT_0; lra).
  assert (HR : 90 * to_rad = PI / 2) by (unfold to_rad; field).
  assert (lo <= hi) by (destruct (H 0%nat Hn); lra).
  assert (Hlo' : 0 <= lo * to_rad) by (apply Rmult_le_pos; lra).
  assert (Hhi' : hi * to_rad <= PI / 2) by (rewrite <- HR; apply Rmult_le_compat_r; lra).
  assert (Hlh : lo * to_rad <= hi * to_rad) by (apply Rmult_le_compat_r; lra).
  pose proof PI_RGT_0 as HP.
  assert (Bd : cos (hi * to_rad) * A <= B <= cos (lo * to_rad) * A).
  { unfold A, B. rewrite <- !rsum_scal. split; apply rsum_le; intros k Hk; destruct (H k Hk) as [Ha [Hl Hu]];
    apply Rmult_le_compat_r; try lra.
    - replace (cos (panel_sweep s (start + k) * to_rad)) with (cos (Rabs (panel_sweep s (start + k)) * to_rad)).
      + apply cos_decr_1; try lra; try (apply Rmult_le_compat_r; lra).
        * apply Rmult_le_pos; [apply Rabs_pos|lra].
        * apply Rle_trans with (hi * to_rad); [apply Rmult_le_compat_r; lra|lra].
      + unfold Rabs. destruct (Rcase_abs (panel_sweep s (start + k))); [|reflexivity].
        rewrite <- (cos_neg (panel_sweep s (start + k) * to_rad)). f_equal. ring.
    - replace (cos (panel_sweep s (start + k) * to_rad)) with (cos (Rabs (panel_sweep s (start + k)) * to_rad)).
      + apply cos_decr_1; try lra; try (apply Rmult_le_compat_r; lra).
        * apply Rmult_le_pos; [apply Rabs_pos|lra].
        * apply Rle_trans with (hi * to_rad); [apply Rmult_le_compat_r; lra|lra].
      + unfold Rabs. destruct (Rcase_abs (panel_sweep s (start + k))); [|reflexivity].
        rewrite <- (cos_neg (panel_sweep s (start + k) * to_rad)). f_equal. ring. }
  set (v := B / A).
  assert (Hv : cos (hi * to_rad) <= v <= cos (lo * to_rad)).
  { unfold v. split; apply (Rmult_le_reg_r A); auto; replace (B / A * A) with B by (field; lra); apply Bd. }
  assert (Hv1 : -1 <= v <= 1).
  { pose proof (COS_bound (lo * to_rad)). pose proof (COS_bound (hi * to_rad)). lra. }
  pose proof (acos_bound v) as [Ha0 Ha1].
  assert (Hc : cos (acos v) = v) by (apply cos_acos; auto).
  split.
  - apply (Rmult_le_reg_r to_rad); auto. replace (acos v / to_rad * to_rad) with (acos v) by (field; lra).
    destruct (Rle_lt_dec (lo * to_rad) (acos v)); auto. exfalso.
    pose proof (cos_decreasing_1 (acos v) (lo * to_rad) ltac:(lra) ltac:(lra) ltac:(lra) ltac:(lra) r). lra.
  - apply (Rmult_le_reg_r to_rad); auto. replace (acos v / to_rad * to_rad) with (acos v) by (field; lra).
    destruct (Rle_lt_dec (acos v) (hi * to_rad)); auto. exfalso.
    pose proof (cos_decreasing_1 (hi * to_rad) (acos v) ltac:(lra) ltac:(lra) ltac:(lra) ltac:(lra) r). lra.
Qed.
Print Assumptions C55_sweep_is_a_mean.
(** The sweep of one panel is the angle whose tangent is the setback of the
    quarter-chord line over the panel's width. *)
Theorem C55_panel_sweep s a : full_y s (a + 1)%nat - full_y s a <> 0 ->
  let c4 i := sec_x s i + sec_c s i / 4 in
  tan (panel_sweep s a * (PI / 180)) * (full_y s (a + 1)%nat - full_y s a) = c4 a - c4 (a + 1)%nat /\ -90 < panel_sweep s a < 90.
Proof.
  intros Hy c4. pose proof PI_RGT_0. unfold panel_sweep. cbv zeta. set (q := _ / (full_y s (a + 1) - full_y s a)).
  assert (Ht : 0 < to_rad) by (unfold to_rad; lra).
  replace (atan q / to_rad * (PI / 180)) with (atan q) by (unfold to_rad; field; lra).
  rewrite tan_atan. split; [unfold q, c4; field; auto|].
  pose proof (atan_bound q). assert (PI / 2 = 90 * to_rad) by (unfold to_rad; field).
  split; apply (Rmult_lt_reg_r to_rad); auto; replace (atan q / to_rad * to_rad) with (atan q) by (field; lra); lra.
Qed.
Print Assumptions C55_panel_sweep.
Example C55_met : (0 < n_panels ex_wing 0 None)%nat /\
  (forall k, (k < n_panels ex_wing 0 None)%nat -> 0 < panel_area ex_wing (0 + k) /\
     Rabs (panel_sweep ex_wing 0) <= Rabs (panel_sweep ex_wing (0 + k)) <= Rabs (panel_sweep ex_wing 0)).
Proof.
  split; [cbn; lia|]. intros [|[|k]] Hk; [| |cbn in Hk; lia].
  - split; [unfold panel_area, full_y; simpl; lra|simpl; lra].
  - split; [unfold panel_area, full_y; simpl; lra|].
    assert (E1 : panel_sweep ex_wing (0 + 1) = panel_sweep ex_wing 0); [|rewrite E1; lra].
    unfold panel_sweep, full_y; simpl. f_equal. f_equal. field.
Qed.

(** ** C56 *)
Theorem C56_span_and_aspect_ratio E : 0 < E "S_ref" 0%nat -> 0 < E "AR" 0%nat ->
  let b := vcompute WingSpan E "span" 0 in
  0 < b /\ b ^ 2 = E "S_ref" 0%nat * E "AR" 0%nat /\
  vcompute WingAspectRatio (updE E "span" 0 b) "AR" 0 = E "AR" 0%nat.
Proof.
  intros HS HA b. assert (Hb : b = sqrt (E "S_ref" 0%nat) * sqrt (E "AR" 0%nat)) by (unfold b; outs WingSpan; now rewrite !Rpower_half).
  pose proof (sqrt_lt_R0 _ HA) as HQ. pose proof (sqrt_lt_R0 _ HS) as HR.
  pose proof (sqrt_sqrt _ (Rlt_le _ _ HS)) as SS. pose proof (sqrt_sqrt _ (Rlt_le _ _ HA)) as AA.
  assert (H2 : b ^ 2 = E "S_ref" 0%nat * E "AR" 0%nat).
  { rewrite Hb. rewrite <- SS at 2. rewrite <- AA at 2. ring. }
  split; [rewrite Hb; now apply Rmult_lt_0_compat|]. split; [exact H2|].
  outs WingAspectRatio. unfold updE; simpl Nat.eqb; cbn [String.eqb Ascii.eqb Bool.eqb]. rewrite H2. field. lra.
Qed.
Print Assumptions C56_span_and_aspect_ratio.
(** Mean aerodynamic chord of the trapezoid: between half-sums, i.e. at least the
    geometric mean chord S/b, with equality for a rectangular wing, at most the
    root or tip chord. *)
Theorem C56_mean_chord E : 0 < E "S_ref" 0%nat -> 0 < E "AR" 0%nat -> 0 <= E "taper" 0%nat ->
  let b := vcompute WingSpan E "span" 0 in let M := vcompute WingMACTrapezoidal E "MAC" 0 in
  E "S_ref" 0%nat / b <= M /\ (M = E "S_ref" 0%nat / b <-> E "taper" 0%nat = 1) /\ 3 * M <= 4 * (E "S_ref" 0%nat / b).
Proof.
  intros HS HA HT b M. assert (Hb : b = sqrt (E "S_ref" 0%nat) * sqrt (E "AR" 0%nat)) by (unfold b; outs WingSpan; now rewrite !Rpower_half).
  pose proof (sqrt_lt_R0 _ HA) as HQ. pose proof (sqrt_lt_R0 _ HS) as HR. pose proof (sqrt_sqrt _ (Rlt_le _ _ HS)) as SS.
  set (g := E "S_ref" 0%nat / b). set (t := E "taper" 0%nat) in *.
  assert (Hg : g = sqrt (E "S_ref" 0%nat) / sqrt (E "AR" 0%nat)).
  { unfold g. rewrite Hb. rewrite <- SS at 1. field. lra. }
  assert (g0 : 0 < g) by (rewrite Hg; unfold Rdiv; apply Rmult_lt_0_compat; auto; apply Rinv_0_lt_compat; auto).
  assert (HM : M = g * (1 + (1 - t) ^ 2 / (3 * (1 + t) ^ 2))).
  { unfold M. outs WingMACTrapezoidal. fold t. rewrite sqrt_div by lra. rewrite <- Hg. unfold mac_of. field. repeat split; nra. }
  assert (Hq : 0 <= (1 - t) ^ 2 / (3 * (1 + t) ^ 2)).
  { unfold Rdiv. apply Rmult_le_pos; [apply pow2_ge_0|]. apply Rlt_le, Rinv_0_lt_compat. nra. }
  assert (Hq1 : (1 - t) ^ 2 / (3 * (1 + t) ^ 2) <= 1 / 3).
  { apply (Rmult_le_reg_r (3 * (1 + t) ^ 2)); [nra|]. replace ((1 - t) ^ 2 / (3 * (1 + t) ^ 2) * (3 * (1 + t) ^ 2)) with ((1 - t) ^ 2) by (field; lra). nra. }
  set (q := (1 - t) ^ 2 / (3 * (1 + t) ^ 2)) in *. rewrite HM. split; [nra|]. split; [|nra].
  split; intro H.
  - assert (q = 0) by nra. assert ((1 - t) ^ 2 = 0).
    { replace ((1 - t) ^ 2) with (q * (3 * (1 + t) ^ 2)) by (unfold q; field; lra). rewrite H0. ring. }
    nra.
  - unfold q. rewrite H. field.
Qed.
Print Assumptions C56_mean_chord.
Theorem C56_partials n E : (0 < n)%nat -> 0 < E "S_ref" 0%nat -> 0 < E "AR" 0%nat -> 1 + E "taper" 0%nat <> 0 ->
  jac_correct n WingMACTrapezoidal E /\ jac_correct n WingSpan E /\ jac_correct n WingAspectRatio E /\ jac_correct n CylinderSurfaceArea E.
Proof.
  intros. split; [now apply trap_jac|]. split; [now apply span_jac|]. split; [apply aspect_jac; auto; lra|now apply cyl_jac].
Qed.
Print Assumptions C56_partials.
Example C56_met : exists E : env, 0 < E "S_ref" 0%nat /\ 0 < E "AR" 0%nat /\ 0 <= E "taper" 0%nat /\ 1 + E "taper" 0%nat <> 0.
Proof. exists (fun _ _ => 3). repeat split; lra. Qed.

(** ** C57 *)
Theorem C57_partials n E fudge a b c d f : (0 < n)%nat -> 0 < cos (E "ac|geom|wing|c4sweep" 0%nat) ->
  jac_correct n (CleanCLmax fudge) E /\ jac_correct n (FlapCLmax a b c d f) E.
Proof. intros. split; [now apply clean_jac|now apply flap_jac]. Qed.
Print Assumptions C57_partials.
(** Flaps and slats add to the clean value; without slats (slat chord 0) the slat
    span does not matter; the slat increment does not depend on the flaps. *)
Theorem C57_increments E a b c d f :
  let out a b c d := vcompute (FlapCLmax a b c d f) E "CL_max_flap" 0 in
  out 0 b 0 d = f * E "CL_max_clean" 0%nat /\ out a b 0 d = out a b 0 1 /\
  out a b c d - out a b 0 d = f * (711/100 * c * d ^ 2 * cos (E "ac|geom|wing|c4sweep" 0%nat) ^ 2).
Proof. cbv zeta. outs FlapCLmax. repeat split; ring. Qed.
Print Assumptions C57_increments.
(** Sweep only lowers the clean maximum lift, by its cosine. *)
Theorem C57_clean E f : 
  vcompute (CleanCLmax f) E "CL_max_clean" 0 = f * (9/10 * E "ac|aero|airfoil_Cl_max" 0%nat * cos (E "ac|geom|wing|c4sweep" 0%nat)) /\
  (0 <= f -> 0 <= E "ac|aero|airfoil_Cl_max" 0%nat -> vcompute (CleanCLmax f) E "CL_max_clean" 0 <= f * (9/10) * E "ac|aero|airfoil_Cl_max" 0%nat).
Proof.
  outs CleanCLmax. split; [ring|]. intros Hf Hc. pose proof (COS_bound (E "ac|geom|wing|c4sweep" 0%nat)).
  rewrite <- (Rmult_1_r (f * (9/10) * E "ac|aero|airfoil_Cl_max" 0%nat)) at 2. apply Rmult_le_compat_l; [|lra].
  repeat apply Rmult_le_pos; lra.
Qed.
Print Assumptions C57_clean.
Example C57_met : exists E : env, 0 < cos (E "ac|geom|wing|c4sweep" 0%nat).
Proof. exists (fun _ _ => 0). rewrite cos_0. lra. Qed.
