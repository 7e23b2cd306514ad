(** Theorems about the liquid hydrogen tank (C41, C42). *)
From Coq Require Import Reals List Bool PeanoNat String Lra Lia.
From Verif Require Import Base Py RSum Calc Model_Algebra Spec_Algebra Proofs_Algebra Model_Atmos Model_Integrals
  Spec_Integrals Proofs_Integrals Proofs_IntegMore Props_Integrals Model_Tank Proofs_Tank.
Import ListNotations.
Open Scope R_scope.
Open Scope string_scope.

Ltac outs C := unfold vcompute, nval; cbn [assoc C pc_outs String.eqb Ascii.eqb Bool.eqb];
  unfold node; cbn [assoc C pc_ins String.eqb Ascii.eqb Bool.eqb].

(** ** C41 *)
(** Liquid left plus liquid consumed is the initial fill; the fill level is the
    volume of the liquid over the volume of a capped cylinder. *)
Theorem C41_mass_accounting fill0 rho E i : let r := E "radius" 0%nat in let L := E "length" 0%nat in
  let V := 4 / 3 * PI * r ^ 3 + PI * r ^ 2 * L in
  let m := vcompute (InitialLH2Mass fill0 rho) E "m_liq" i in let f := vcompute (InitialLH2Mass fill0 rho) E "fill_level" i in
  m + E "delta_m_liq" i = fill0 * rho * V /\ (rho * V <> 0 -> f * (rho * V) = m) /\
  (0 < rho * V -> 0 <= fill0 <= 1 -> 0 <= E "delta_m_liq" i <= fill0 * (rho * V) -> 0 <= f <= fill0 /\ 0 <= m).
Proof.
  cbv zeta. set (V := 4 / 3 * PI * _ + _).
  assert (Hm : vcompute (InitialLH2Mass fill0 rho) E "m_liq" i = V * fill0 * rho - E "delta_m_liq" i) by (outs InitialLH2Mass; reflexivity).
  assert (Hf : vcompute (InitialLH2Mass fill0 rho) E "fill_level" i = (V * fill0 * rho - E "delta_m_liq" i) / (rho * V)) by (outs InitialLH2Mass; reflexivity).
  rewrite Hm, Hf. clearbody V. split; [ring|]. split.
  - intro H. unfold Rdiv. rewrite Rmult_assoc, Rinv_l, Rmult_1_r; auto.
  - intros HV Hf0 [Hd0 Hd1]. split; [|lra]. set (q := _ / (rho * V)).
    assert (Q : q * (rho * V) = V * fill0 * rho - E "delta_m_liq" i) by (unfold q; field; split; nra).
    split; apply (Rmult_le_reg_r (rho * V)); auto; rewrite ?Q; lra.
Qed.
Print Assumptions C41_mass_accounting.

Lemma tank_sum_value nn E i : (0 < nn)%nat -> (i < nn)%nat ->
  add_compute (tank_sum nn) E i = Ok (E "m_liq" i + E "tank_weight" 0%nat).
Proof.
  intros Hn Hi.
  assert (W : add_wf (tank_sum nn)).
  { split; [|exact I]. unfold sizes_wf. simpl. split; [discriminate|]. split; [reflexivity|].
    intros k [<-|[<-|[]]]; [right; lia|now left]. }
  assert (Rw : row_of nn i = i). { unfold row_of. destruct (Nat.eqb_spec nn 1); lia. }
  pose proof (add_value _ E i 0 W ltac:(simpl; lia)) as V1.
  change (as_len (tank_sum nn)) with 1%nat in V1. replace (i * 1 + 0)%nat with i in V1 by lia.
  rewrite V1. f_equal. cbn [as_ins tank_sum List.length rsum nth in_size as_vec]. unfold entry, factor. cbn [as_sf tank_sum].
  rewrite Rw. unfold row_of. simpl Nat.eqb. cbv iota. cbn [Nat.mul Nat.add]. rewrite Nat.mul_1_r, Nat.add_0_r. ring.
Qed.
(** In the whole tank model, for a fuel flow that is a polynomial of degree two in
    time (the quadrature is then exact), the liquid at each node is the initial
    fill minus what earlier phases and this phase have drawn, and the total weight
    is that of the liquid plus the tank's. *)
Theorem C41_tank_drains nn X fill0 rho o dt delta0 E c0 c1 c2 tw :
  method_size Simpson nn -> is_inverse (nn - 1) simpson_a X -> tank_weight o E = Ok tw ->
  (forall i, (i < nn)%nat -> E "m_dot_liq" i = poly3 c0 c1 c2 0 (INR i * dt)) ->
  exists E', lh2_tank nn (method_tri Simpson nn X) fill0 rho o (INR (nn - 1) * dt) delta0 E = Ok E' /\
  forall i, (i < nn)%nat ->
    E' "m_liq" i = fill0 * rho * (4 / 3 * PI * E "radius" 0%nat ^ 3 + PI * E "radius" 0%nat ^ 2 * E "length" 0%nat)
                   - (delta0 + RInt (poly3 c0 c1 c2 0) 0 (INR i * dt)) /\
    E' "total_weight" i = E' "m_liq" i + tw.
Proof.
  intros MS HX HT Hflow. assert (H3 : (3 <= nn)%nat) by apply MS. unfold lh2_tank. rewrite HT. cbn [res_bind].
  set (E3 := run_comp _ _). rewrite (tank_sum_value nn E3 0) by lia. cbn [res_bind]. eexists. split; [reflexivity|].
  intros i Hi. unfold put at 1 2. cbn [String.eqb Ascii.eqb Bool.eqb]. rewrite (tank_sum_value nn E3 i) by lia.
  split; [|reflexivity].
  change (E3 "m_liq" i) with (tank_volume (E "radius" 0%nat) (E "length" 0%nat) * fill0 * rho
    - integ_q nn (method_tri Simpson nn X) (TDuration (INR (nn - 1) * dt)) false delta0 (E "m_dot_liq") i).
  rewrite (proj1 (C03_time_modes_interchangeable nn _ dt 0 false delta0 _ i ltac:(lia))).
  rewrite (C01_simpson_quadratic_exact nn X c0 c1 c2 0 dt false delta0 _ MS HX (fun j Hj => eq_trans (Hflow j Hj) (f_equal _ (eq_sym (Rplus_0_l _)))) i Hi).
  rewrite Rplus_0_l. unfold tank_volume. ring.
Qed.
Print Assumptions C41_tank_drains.
(** For every flow history the consumption at the end of the phase is the
    composite Simpson sum of the flow. *)
Theorem C41_end_of_phase m X fill0 rho o dt delta0 E tw :
  (0 < m)%nat -> is_inverse (2 * m) simpson_a X -> tank_weight o E = Ok tw -> let F := E "m_dot_liq" in
  exists E', lh2_tank (2 * m + 1) (method_tri Simpson (2 * m + 1) X) fill0 rho o (INR (2 * m) * dt) delta0 E = Ok E' /\
    E' "m_liq" (2 * m)%nat = fill0 * rho * (4 / 3 * PI * E "radius" 0%nat ^ 3 + PI * E "radius" 0%nat ^ 2 * E "length" 0%nat)
       - (delta0 + dt / 3 * rsum m (fun k => F (2 * k)%nat + 4 * F (2 * k + 1)%nat + F (2 * k + 2)%nat)).
Proof.
  intros Hm HX HT F. unfold lh2_tank. rewrite HT. cbn [res_bind].
  set (E3 := run_comp _ _). rewrite (tank_sum_value (2 * m + 1) E3 0) by lia. cbn [res_bind]. eexists. split; [reflexivity|].
  unfold put at 1. cbn [String.eqb Ascii.eqb Bool.eqb].
  change (E3 "m_liq" (2 * m)%nat) with (tank_volume (E "radius" 0%nat) (E "length" 0%nat) * fill0 * rho
    - integ_q (2 * m + 1) (method_tri Simpson (2 * m + 1) X) (TDuration (INR (2 * m) * dt)) false delta0 (E "m_dot_liq") (2 * m)%nat).
  pose proof (C03_time_modes_interchangeable (2 * m + 1) (method_tri Simpson (2 * m + 1) X) dt 0 false delta0
    (E "m_dot_liq") (2 * m) ltac:(lia)) as [T _].
  replace (2 * m + 1 - 1)%nat with (2 * m)%nat in T by lia. rewrite T.
  pose proof (C01_simpson_final_is_composite_rule m X dt false delta0 (E "m_dot_liq") Hm HX) as G.
  unfold integ_q_final in G. replace (2 * m + 1 - 1)%nat with (2 * m)%nat in G by lia. rewrite G.
  unfold tank_volume, F. ring.
Qed.
Print Assumptions C41_end_of_phase.
Theorem C41_partials n E fill0 rho : (0 < n)%nat -> rho <> 0 ->
  4 / 3 * PI * E "radius" 0%nat ^ 3 + PI * E "radius" 0%nat ^ 2 * E "length" 0%nat <> 0 -> jac_correct n (InitialLH2Mass fill0 rho) E.
Proof. exact (lh2_jac n E fill0 rho). Qed.
Print Assumptions C41_partials.

(** ** C42 *)
(** Inner wall: the hoop stress p r / t is the yield stress divided by the safety
    factor. *)
Theorem C42_inner_wall_stress SF sigma d E : 0 < SF -> 0 < sigma ->
  0 < E "design_pressure_differential" 0%nat -> 0 < E "radius" 0%nat ->
  let t := vcompute (PressureVesselWall SF sigma d) E "thickness" 0 in
  0 < t /\ E "design_pressure_differential" 0%nat * E "radius" 0%nat / t = sigma / SF.
Proof.
  intros HS Hs Hp Hr t. assert (Ht : t = E "design_pressure_differential" 0%nat * E "radius" 0%nat * SF / sigma) by (unfold t; outs PressureVesselWall; reflexivity).
  assert (0 < t). { rewrite Ht. unfold Rdiv. repeat apply Rmult_lt_0_compat; auto. now apply Rinv_0_lt_compat. }
  split; auto. rewrite Ht. field. lra.
Qed.
Print Assumptions C42_inner_wall_stress.

(** Outer wall: before the credit for stiffeners the wall withstands SF times the
    pressure both as a long cylinder and as a sphere (Roark's critical pressures),
    and it is no thicker than needed: one of the limits is met exactly. *)
Definition cylinder_limit (Y t r L : R) : R := 92/100 * Y * upow t (25/10) / (L * upow r (15/10)).
Definition sphere_limit (Y t r : R) : R := 365/1000 * Y * t ^ 2 / r ^ 2.
Theorem C42_outer_wall_buckling SF stiff Y d E : 0 < SF -> 0 < Y -> stiff <> 0 ->
  let p := E "design_pressure_differential" 0%nat in let r := E "radius" 0%nat in let L := E "length" 0%nat in
  0 < p -> 0 < r -> 0 < L ->
  let t := vcompute (VacuumWall SF stiff Y d) E "thickness" 0 / stiff in
  0 < t /\ SF * p <= cylinder_limit Y t r L /\ SF * p <= sphere_limit Y t r /\
  (SF * p = cylinder_limit Y t r L \/ SF * p = sphere_limit Y t r).
Proof.
  intros HS HY Hst p r L Hp Hr HL t.
  assert (Ht : t = Rmax (t_cyl SF Y p r L) (t_sph SF Y p r)) by (unfold t; outs VacuumWall; fold p r L; field; auto).
  clearbody t p r L.
  pose proof (t_cyl_pos SF Y p r L HS HY Hp Hr HL) as Pc. pose proof (t_sph_pos SF Y p r HS HY Hp Hr) as Ps.
  pose proof (cyl_base_pos SF Y p r L HS HY Hp Hr HL) as Bc. pose proof (sph_base_pos SF Y p HS HY Hp) as Bs.
  pose proof (upow_gt0 r (15/10) Hr) as Hu.
  assert (Lc : forall x, t_cyl SF Y p r L <= x -> SF * p <= cylinder_limit Y x r L).
  { intros x Hx. unfold cylinder_limit.
    assert (M : upow (t_cyl SF Y p r L) (25/10) <= upow x (25/10)) by (apply upow_mono; lra).
    unfold t_cyl in M. rewrite upow_inv in M by lra.
    apply (Rmult_le_reg_r (L * upow r (15/10))); [nra|]. replace (92/100 * Y * upow x (25/10) / (L * upow r (15/10)) * (L * upow r (15/10)))
      with (92/100 * Y * upow x (25/10)) by (field; lra).
    replace (SF * p * (L * upow r (15/10))) with (92/100 * Y * (p * SF * L * upow r (15/10) / (92/100 * Y))) by (field; lra).
    apply Rmult_le_compat_l; lra. }
  assert (Ec : SF * p = cylinder_limit Y (t_cyl SF Y p r L) r L).
  { unfold cylinder_limit, t_cyl. rewrite upow_inv by lra. field. lra. }
  assert (Sq : t_sph SF Y p r ^ 2 = r ^ 2 * (p * SF / (365/1000 * Y))).
  { unfold t_sph. rewrite Rpow_mult_distr. rewrite <- Rsqr_pow2 with (x := sqrt _). rewrite Rsqr_sqrt by lra. reflexivity. }
  assert (Es : SF * p = sphere_limit Y (t_sph SF Y p r) r).
  { unfold sphere_limit. rewrite Sq. field. lra. }
  assert (Ls : forall x, t_sph SF Y p r <= x -> SF * p <= sphere_limit Y x r).
  { intros x Hx. rewrite Es. unfold sphere_limit, Rdiv. apply Rmult_le_compat_r; [apply Rlt_le, Rinv_0_lt_compat; nra|].
    apply Rmult_le_compat_l; [lra|]. nra. }
  rewrite Ht. split; [apply Rlt_le_trans with (2 := Rmax_l _ _); auto|].
  split; [apply Lc, Rmax_l|]. split; [apply Ls, Rmax_r|].
  unfold Rmax. destruct (Rle_dec (t_cyl SF Y p r L) (t_sph SF Y p r)); [right; exact Es|left; exact Ec].
Qed.
Print Assumptions C42_outer_wall_buckling.
(** A tank without cylindrical part (length 0) is sized as a sphere. *)
Theorem C42_spherical_tank SF stiff Y d E : 0 < SF -> 0 < Y -> stiff <> 0 -> E "length" 0%nat = 0 ->
  let p := E "design_pressure_differential" 0%nat in let r := E "radius" 0%nat in 0 < p -> 0 < r ->
  let t := vcompute (VacuumWall SF stiff Y d) E "thickness" 0 / stiff in
  SF * p = sphere_limit Y t r /\ vcompute (VacuumWall SF stiff Y d) E "weight" 0 = 4 * PI * r ^ 2 * (stiff * t) * d.
Proof.
  intros HS HY Hst HL p r Hp Hr t.
  assert (Hc : t_cyl SF Y p r (E "length" 0%nat) = 0).
  { unfold t_cyl. rewrite HL. replace (p * SF * 0 * upow r (15/10) / (92/100 * Y)) with 0 by (field; lra). apply upow_zero. }
  pose proof (t_sph_pos SF Y p r HS HY Hp Hr) as Ps. pose proof (sph_base_pos SF Y p HS HY Hp) as Bs.
  assert (HT : vcompute (VacuumWall SF stiff Y d) E "thickness" 0 = stiff * t_sph SF Y p r).
  { outs VacuumWall. fold p r. rewrite Hc. rewrite Rmax_right by lra. reflexivity. }
  assert (Ht : t = t_sph SF Y p r) by (unfold t; rewrite HT; field; auto).
  split.
  - rewrite Ht. unfold sphere_limit, t_sph. rewrite Rpow_mult_distr. rewrite <- Rsqr_pow2 with (x := sqrt _).
    rewrite Rsqr_sqrt by lra. field. lra.
  - replace (stiff * t) with (vcompute (VacuumWall SF stiff Y d) E "thickness" 0) by (rewrite HT, Ht; reflexivity).
    outs VacuumWall. unfold shell_area. rewrite HL. unfold r. ring.
Qed.
Print Assumptions C42_spherical_tank.

(** The tank's weight: the walls' area times thickness times density, the outer
    wall having the radius enlarged by the gap, plus the insulation, all times the
    fudge factor; non-negative for non-negative sizes. *)
Theorem C42_tank_weight o E :
  let r := E "radius" 0%nat in let L := E "length" 0%nat in
  let area r := 4 * PI * r ^ 2 + 2 * PI * r * L in
  let t_in := vcompute (PressureVesselWall (inner_SF o) (inner_yield o) (inner_density o))
                (put E "design_pressure_differential" (E "max_expected_operating_pressure")) "thickness" 0 in
  let ro := r + E "vacuum_gap" 0%nat in
  let t_out := vcompute (VacuumWall (outer_SF o) (stiffening o) (outer_Y o) (outer_density o))
                (put (put E "design_pressure_differential" (E "environment_design_pressure")) "radius" (fun _ => ro)) "thickness" 0 in
  tank_weight o E = Ok (fudge o * (area r * t_in * inner_density o + area ro * t_out * outer_density o
                                   + (18/1000 + 12/1000) * E "N_layers" 0%nat * area r)).
Proof.
  intros r L area t_in ro t_out. unfold tank_weight, vacuum_tank.
  assert (Hr : add_compute outer_radius_comp E 0 = Ok ro).
  { unfold add_compute, add_resolve; cbn. f_equal. unfold ro, r. ring. }
  rewrite Hr. cbn [res_bind]. set (wi := vcompute _ _ "weight"). set (wo := vcompute (VacuumWall _ _ _ _) _ "weight").
  set (wm := vcompute (MLIWeight _ _) _ "weight").
  assert (Hi : wi 0%nat = area r * t_in * inner_density o) by (unfold wi, t_in; outs PressureVesselWall; reflexivity).
  assert (Ho : wo 0%nat = area ro * t_out * outer_density o) by (unfold wo, t_out; outs VacuumWall; reflexivity).
  assert (Hm : wm 0%nat = (18/1000 + 12/1000) * E "N_layers" 0%nat * area r) by (unfold wm; outs MLIWeight; reflexivity).
  clearbody wi wo wm t_in t_out ro area. unfold add_compute, add_resolve; cbn. f_equal. rewrite Hi, Ho, Hm. ring.
Qed.
Print Assumptions C42_tank_weight.
Theorem C42_weight_is_positive o E w : tank_weight o E = Ok w ->
  0 < fudge o -> 0 < stiffening o -> 0 < inner_SF o -> 0 < inner_yield o -> 0 < inner_density o ->
  0 < outer_SF o -> 0 < outer_Y o -> 0 < outer_density o ->
  0 < E "max_expected_operating_pressure" 0%nat -> 0 < E "environment_design_pressure" 0%nat ->
  0 < E "radius" 0%nat -> 0 <= E "length" 0%nat -> 0 <= E "vacuum_gap" 0%nat -> 0 <= E "N_layers" 0%nat -> 0 < w.
Proof.
  intros HW Hf Hst H1 H2 H3 H4 H5 H6 Hp Hq Hr HL Hg HN. rewrite C42_tank_weight in HW. injection HW as <-.
  set (area := fun r => 4 * PI * r ^ 2 + 2 * PI * r * E "length" 0%nat).
  assert (PA : forall r, 0 < r -> 0 < area r).
  { intros x Hx. unfold area. pose proof PI_RGT_0 as HP. assert (0 < PI * x ^ 2) by (apply Rmult_lt_0_compat; [exact HP|nra]).
    assert (0 <= PI * x * E "length" 0%nat) by (apply Rmult_le_pos; [apply Rmult_le_pos; lra|exact HL]). lra. }
  set (ti := vcompute (PressureVesselWall _ _ _) _ _ _). set (to := vcompute (VacuumWall _ _ _ _) _ _ _).
  assert (Pi : 0 < ti).
  { unfold ti. outs PressureVesselWall. unfold put; cbn [String.eqb Ascii.eqb Bool.eqb]. unfold Rdiv.
    repeat apply Rmult_lt_0_compat; auto. now apply Rinv_0_lt_compat. }
  assert (Po : 0 < to).
  { unfold to. outs VacuumWall. apply Rmult_lt_0_compat; auto. apply Rlt_le_trans with (2 := Rmax_r _ _).
    unfold put; cbn [String.eqb Ascii.eqb Bool.eqb]. apply t_sph_pos; auto. lra. }
  change (0 < fudge o * (area (E "radius" 0%nat) * ti * inner_density o
    + area (E "radius" 0%nat + E "vacuum_gap" 0%nat) * to * outer_density o + (18/1000 + 12/1000) * E "N_layers" 0%nat * area (E "radius" 0%nat))).
  clearbody ti to.
  pose proof (PA (E "radius" 0%nat) Hr) as A1. pose proof (PA (E "radius" 0%nat + E "vacuum_gap" 0%nat) ltac:(lra)) as A2.
  set (a1 := area (E "radius" 0%nat)) in *. set (a2 := area _) in A2 |- *. clearbody a1 a2.
  apply Rmult_lt_0_compat; auto.
  assert (0 < a1 * ti * inner_density o) by (repeat apply Rmult_lt_0_compat; auto).
  assert (0 < a2 * to * outer_density o) by (repeat apply Rmult_lt_0_compat; auto).
  assert (0 <= (18/1000 + 12/1000) * E "N_layers" 0%nat * a1) by (apply Rmult_le_pos; [apply Rmult_le_pos|]; lra).
  lra.
Qed.
Print Assumptions C42_weight_is_positive.

(** Declared partials: everywhere for the inner wall and insulation; for the outer
    wall wherever the two criteria are not tied (there the thickness has a kink),
    provided the cylinder is at least a micrometre long when it governs (below
    that the code reports 0). *)
Theorem C42_partials n E SF stiff sigma Y d a b : (0 < n)%nat -> 0 < SF -> 0 < Y -> sigma <> 0 ->
  let p := E "design_pressure_differential" 0%nat in let r := E "radius" 0%nat in let L := E "length" 0%nat in
  0 < p -> 0 < r -> 0 <= L -> t_cyl SF Y p r L <> t_sph SF Y p r -> (t_sph SF Y p r < t_cyl SF Y p r L -> 1/1000000 <= L) ->
  jac_correct n (PressureVesselWall SF sigma d) E /\ jac_correct n (VacuumWall SF stiff Y d) E /\ jac_correct n (MLIWeight a b) E.
Proof.
  intros. split; [now apply pressure_jac|]. split; [|now apply mli_jac]. apply vacuum_jac; auto. unfold vac_ok. tauto.
Qed.
Print Assumptions C42_partials.

(** A tank of the default materials. *)
Definition ex_tank : env := fun x _ =>
  if String.eqb x "length" then 0 else if String.eqb x "max_expected_operating_pressure" then 250000 else
  if String.eqb x "environment_design_pressure" then 101325 else if String.eqb x "N_layers" then 20 else
  if String.eqb x "vacuum_gap" then 1/20 else if String.eqb x "design_pressure_differential" then 101325 else 1.
Example C42_met : (exists w, tank_weight default_tank ex_tank = Ok w /\ 0 < w) /\
  t_cyl 2 80000000000 101325 1 0 <> t_sph 2 80000000000 101325 1.
Proof.
  split.
  - eexists. split; [apply C42_tank_weight|]. eapply C42_weight_is_positive; [apply C42_tank_weight|..]; unfold ex_tank; simpl; lra.
  - unfold t_cyl. replace (101325 * 2 * 0 * upow 1 (15/10) / (92/100 * 80000000000)) with 0 by (unfold Rdiv; ring).
    rewrite upow_zero. pose proof (t_sph_pos 2 80000000000 101325 1 ltac:(lra) ltac:(lra) ltac:(lra) ltac:(lra)). lra.
Qed.
Example C41_met : 0 < 70 * (4 / 3 * PI * ex_tank "radius" 0%nat ^ 3 + PI * ex_tank "radius" 0%nat ^ 2 * ex_tank "length" 0%nat).
Proof. unfold ex_tank; simpl. pose proof PI_RGT_0. lra. Qed.
