(** Theorems about the coolant components (C47, C58), flow splitting (C48) and the
    heat pump (C49). *)
From Coq Require Import Reals List Bool PeanoNat String Lra Lia.
From Verif Require Import Base Py RSum Calc Model_Integrals Spec_Integrals Proofs_Integrals Props_Integrals
  Model_Vectors Model_Net Proofs_Net Model_Thermal Proofs_Thermal.
Import ListNotations.
Open Scope R_scope.
Open Scope string_scope.

Ltac outs C := unfold vcompute, nval; cbn [assoc C pc_outs String.eqb Ascii.eqb Bool.eqb];
  unfold node; cbn [assoc C pc_ins String.eqb Ascii.eqb Bool.eqb].

(** ** C47 *)
(** Zero-resistance heat transfer: the coolant's enthalpy rises by the heat added. *)
Theorem C47_perfect_heat_transfer c E i : c <> 0 -> E "mdot_coolant" i <> 0 ->
  let T_out := vcompute (PerfectHeatTransferComp c) E "T_out" i in
  E "mdot_coolant" i * c * (T_out - E "T_in" i) = E "q" i /\
  vcompute (PerfectHeatTransferComp c) E "T_average" i = (E "T_in" i + T_out) / 2.
Proof. intros Hc Hm. cbv zeta. outs PerfectHeatTransferComp. split; field; auto. Qed.
Print Assumptions C47_perfect_heat_transfer.

(** A lump of mass: heat in minus heat out is stored. *)
Theorem C47_thermal_mass c E i : c <> 0 -> E "mass" 0%nat <> 0 ->
  E "mass" 0%nat * c * vcompute (ThermalComponentWithMass c) E "dTdt" i = E "q_in" i - E "q_out" i.
Proof. intros Hc Hm. outs ThermalComponentWithMass. field; auto. Qed.
Print Assumptions C47_thermal_mass.

(** Coolant flowing along a wall of uniform temperature: over the whole wetted area
    the temperature difference decays by exp (-h A / (mdot c)); so the outlet lies
    strictly between the inlet and the wall. *)
Definition wall_cooling (mdot c hA T_in T_wall T_out q : R) : Prop :=
  mdot * c * (T_out - T_in) = q /\
  T_wall - T_out = (T_wall - T_in) * exp (- (hA / (mdot * c))) /\
  (T_in < T_wall -> T_in < T_out < T_wall /\ 0 < q) /\
  (T_wall < T_in -> T_wall < T_out < T_in /\ q < 0) /\
  (T_wall = T_in -> T_out = T_in /\ q = 0).

Lemma wall_cooling_intro mdot c hA Ti Tw To q : 0 < mdot -> 0 < c -> 0 < hA ->
  q = (1 - exp (- (hA / (mdot * c)))) * (mdot * c) * (Tw - Ti) -> To = Ti + q / mdot / c ->
  wall_cooling mdot c hA Ti Tw To q.
Proof.
  intros Hm Hc HA -> ->. unfold wall_cooling. assert (H : 0 < hA / (mdot * c)) by (apply div_pos; auto; nra).
  pose proof (one_minus_exp_pos _ H) as P. pose proof (exp_pos (- (hA / (mdot * c)))) as X.
  set (x := exp _) in *. clearbody x. assert (Hmc : 0 < mdot * c) by nra.
  replace (Ti + (1 - x) * (mdot * c) * (Tw - Ti) / mdot / c) with (Ti + (1 - x) * (Tw - Ti)) by (field; lra).
  split; [ring|]. split; [ring|]. repeat split; try nra.
  - apply Rmult_lt_0_compat; [nra|lra].
  - replace ((1 - x) * (mdot * c) * (Tw - Ti)) with (- ((1 - x) * (mdot * c) * (Ti - Tw))) by ring.
    assert (0 < (1 - x) * (mdot * c)) by nra. nra.
Qed.

(** Cold plate: rectangular channels, hydraulic diameter 4 area / perimeter. *)
Theorem C47_cold_plate k Nu c E i : let w := E "channel_width" 0%nat in let h := E "channel_height" 0%nat in
  let l := E "channel_length" 0%nat in let n := E "n_parallel" 0%nat in
  0 < k -> 0 < Nu -> 0 < c -> 0 < w -> 0 < h -> 0 < l -> 0 < n -> 0 < E "mdot_coolant" i ->
  let area := n * (2 * (w + h)) * l in let diameter := 4 * (w * h) / (2 * (w + h)) in
  wall_cooling (E "mdot_coolant" i) c (Nu * k / diameter * area) (E "T_in" i) (E "T_surface" i)
    (vcompute (ColdPlate k Nu c) E "T_out" i) (vcompute (ColdPlate k Nu c) E "q" i).
Proof.
  intros w h l n Hk HN Hc Hw Hh Hl Hn Hm area dia.
  assert (Hd : 0 < dia) by (unfold dia; apply div_pos; nra).
  assert (Ha : 0 < area). { unfold area. apply Rmult_lt_0_compat; auto. apply Rmult_lt_0_compat; auto. lra. }
  assert (U : plate_UA k Nu w h l n = Nu * k / dia * area) by (unfold plate_UA, dia, area; field; repeat split; lra).
  apply wall_cooling_intro; auto.
  - apply Rmult_lt_0_compat; auto. apply div_pos; auto. nra.
  - rewrite <- U. outs ColdPlate. fold w h l n. ring.
Qed.
Print Assumptions C47_cold_plate.

(** Motor cooling jacket: the same law with hA = (h / (case area per rated power)) * rated power; what
    is not carried away heats the motor. *)
Theorem C47_motor_jacket c cm hw E i : 0 < c -> 0 < cm -> 0 < hw -> 0 < E "power_rating" 0%nat ->
  0 < E "motor_weight" 0%nat -> 0 < E "mdot_coolant" i ->
  let C := MotorCoolingJacket c cm hw in
  wall_cooling (E "mdot_coolant" i) c (hw * E "power_rating" 0%nat) (E "T_in" i) (E "T" i)
    (vcompute C E "T_out" i) (vcompute C E "q" i) /\
  E "motor_weight" 0%nat * cm * vcompute C E "dTdt" i = E "q_in" i - vcompute C E "q" i.
Proof.
  intros Hc Hcm Hh HP HW Hm C. split.
  - apply wall_cooling_intro; auto.
    + nra.
    + unfold C. outs MotorCoolingJacket. replace (hw * E "power_rating" 0%nat / E "mdot_coolant" i / c) with
        (hw * E "power_rating" 0%nat / (E "mdot_coolant" i * c)) by (field; lra). ring.
  - assert (D : vcompute C E "dTdt" i = (E "q_in" i - vcompute C E "q" i) / E "motor_weight" 0%nat / cm) by (unfold C; outs MotorCoolingJacket; reflexivity).
    rewrite D. field. lra.
Qed.
Print Assumptions C47_motor_jacket.

(** Battery: the heat leaving the cells through their radius equals the heat taken
    up by the coolant, the rest heats the cells; when the cells are warmer than the
    coolant the temperatures are ordered inlet < outlet < surface < mean < core. *)
Theorem C47_battery o E i : cell_pos o -> 0 < E "battery_weight" 0%nat -> 0 < E "n_cpb" 0%nat -> 0 < E "t_channel" 0%nat ->
  0 < E "mdot_coolant" i ->
  let C := Bandolier o in let q := vcompute C E "q" i in let T_out := vcompute C E "T_out" i in
  let T_surface := vcompute C E "T_surface" i in let T_core := vcompute C E "T_core" i in
  let cell_mass := E "battery_weight" 0%nat * wfrac o in let cells := cell_mass / mc o in
  E "mdot_coolant" i * cpf o * (T_out - E "T_in" i) = q /\
  cell_mass * cpc o * vcompute C E "dTdt" i = E "q_in" i - q /\
  cells * (8 * PI * krc o * Hc o) * (E "T_battery" i - T_surface) = q /\
  E "T_battery" i = (T_surface + T_core) / 2 /\
  (let film := nus o * fk o / (2 * E "t_channel" 0%nat) in let area := cells * (Hc o * Dc o) in
   wall_cooling (E "mdot_coolant" i) (cpf o) (film * area) (E "T_in" i) T_surface T_out q) /\
  (E "T_in" i < E "T_battery" i -> E "T_in" i < T_out < T_surface /\ T_surface < E "T_battery" i < T_core /\ 0 < q) /\
  (E "T_battery" i = E "T_in" i -> q = 0 /\ T_surface = E "T_in" i /\ T_core = E "T_in" i).
Proof.
  intros P HW Hn Ht Hm C q T_out Ts Tcore M N.
  assert (WC : wall_cooling (E "mdot_coolant" i) (cpf o) (nus o * fk o / (2 * E "t_channel" 0%nat) * (N * (Hc o * Dc o))) (E "T_in" i) Ts T_out q).
  { assert (HN : 0 < N) by (exact (n_cells_pos o _ P HW)). destruct P as (P1&P2&P3&P4&P5&P6&P7&P8&P9).
    apply wall_cooling_intro; auto.
    - apply Rmult_lt_0_compat; [apply div_pos; nra|]. apply Rmult_lt_0_compat; [exact HN|nra].
    - assert (Eq : q = (Ts - E "T_in" i) * k_cell o (E "battery_weight" 0%nat) (E "n_cpb" 0%nat) (E "t_channel" 0%nat) (E "mdot_coolant" i) * N)
        by (unfold q, Ts, C; outs Bandolier; reflexivity).
      rewrite Eq. unfold k_cell. change (n_cells o (E "battery_weight" 0%nat)) with N. clearbody q T_out Ts Tcore M N. cbv zeta.
      match goal with |- context [exp (- ?a)] => replace a with (nus o * fk o / (2 * E "t_channel" 0%nat) * (N * (Hc o * Dc o)) / (E "mdot_coolant" i * cpf o)) by (field; repeat split; lra) end.
      field. repeat split; lra. }
  pose proof (n_cells_pos o _ P HW) as HN. pose proof (k_cyl_pos o P) as HK.
  pose proof (k_cell_pos o _ _ _ _ P HW Hn Ht Hm) as HKc.
  assert (KB : k_cell o (E "battery_weight" 0%nat) (E "n_cpb" 0%nat) (E "t_channel" 0%nat) (E "mdot_coolant" i) * n_cells o (E "battery_weight" 0%nat)
               < E "mdot_coolant" i * cpf o).
  { unfold k_cell. set (N1 := n_cells o _) in *. clearbody N1. destruct P as (P1&_).
    set (x := exp _). assert (0 < x) by apply exp_pos. clearbody x.
    replace (_ * N1) with (E "mdot_coolant" i * cpf o * (1 - x)) by (field; repeat split; lra).
    assert (0 < E "mdot_coolant" i * cpf o) by nra. nra. }
  assert (Eq : q = (Ts - E "T_in" i) * k_cell o (E "battery_weight" 0%nat) (E "n_cpb" 0%nat) (E "t_channel" 0%nat) (E "mdot_coolant" i) * N)
    by (unfold q, Ts, C; outs Bandolier; reflexivity).
  assert (Et : T_out = E "T_in" i + q / E "mdot_coolant" i / cpf o) by (unfold T_out, q, C; outs Bandolier; reflexivity).
  assert (Ec : Tcore = (E "T_battery" i - Ts) + E "T_battery" i) by (unfold Tcore, Ts, C; outs Bandolier; reflexivity).
  assert (Es : Ts = (k_cyl o * E "T_battery" i + k_cell o (E "battery_weight" 0%nat) (E "n_cpb" 0%nat) (E "t_channel" 0%nat) (E "mdot_coolant" i) * E "T_in" i) /
     (k_cyl o + k_cell o (E "battery_weight" 0%nat) (E "n_cpb" 0%nat) (E "t_channel" 0%nat) (E "mdot_coolant" i))) by (unfold Ts, C; outs Bandolier; reflexivity).
  assert (Ed : vcompute C E "dTdt" i = (E "q_in" i / N - (Ts - E "T_in" i) * k_cell o (E "battery_weight" 0%nat) (E "n_cpb" 0%nat) (E "t_channel" 0%nat) (E "mdot_coolant" i)) / mc o / cpc o)
    by (unfold Ts, C; outs Bandolier; reflexivity).
  change (n_cells o (E "battery_weight" 0%nat)) with N in *.
  set (K := k_cell _ _ _ _ _) in *. clearbody K.
  assert (KC : 8 * PI * krc o * Hc o = k_cyl o) by (unfold k_cyl; ring). rewrite KC.
  assert (MN : M = N * mc o). { unfold N. destruct P as (_&_&_&_&_&_&?&_). field. lra. }
  destruct P as (P1&P2&P3&P4&P5&P6&P7&P8&P9). set (kc := k_cyl o) in *. rewrite Ed, MN. clear Ed MN KC.
  clearbody q T_out Ts Tcore M N kc. clear M.
  set (T := E "T_battery" i) in *. set (Ti := E "T_in" i) in *. set (m := E "mdot_coolant" i) in *. clearbody T Ti m.
  assert (B : kc * (T - Ts) = K * (Ts - Ti)) by (rewrite Es; field; lra).
  split; [rewrite Et; field; lra|]. split; [rewrite Eq; field; lra|].
  split; [rewrite Eq; replace (N * kc * (T - Ts)) with (N * (kc * (T - Ts))) by ring; rewrite B; ring|].
  split; [rewrite Ec; field|]. split; [exact WC|]. clear WC. split.
  - intro HT. assert (S1 : 0 < Ts - Ti). { assert ((kc + K) * (Ts - Ti) = kc * (T - Ti)) by lra. assert (0 < kc * (T - Ti)) by nra. nra. }
    assert (S2 : Ts < T) by nra. assert (Q : 0 < q). { rewrite Eq. apply Rmult_lt_0_compat; auto. nra. }
    assert (mc0 : 0 < m * cpf o) by nra.
    assert (TO : (T_out - Ti) * (m * cpf o) = q) by (rewrite Et; field; lra).
    repeat split; try lra; try nra.
  - intros ->. assert (S : Ts = Ti). { rewrite Es. field. lra. } rewrite Eq, Ec, S. repeat split; ring.
Qed.
Print Assumptions C47_battery.

(** *** Groups: any converged state conserves energy *)
(** Simpson's rule over the 2 m intervals of length dt of a phase. *)
Definition simpson_sum (m : nat) (dt : R) (f : nat -> R) : R :=
  dt / 3 * rsum m (fun k => f (2 * k)%nat + 4 * f (2 * k + 1)%nat + f (2 * k + 2)%nat).

(** Over a phase the heat stored in the body is the (Simpson) integral of the heat
    put in minus the heat carried off by the coolant. *)
Definition stored_heat (m : nat) (dt mc c : R) (V : env) : Prop :=
  mc * (V "T_final" 0%nat - V "T_initial" 0%nat) =
  simpson_sum m dt (fun i => V "q_in" i - V "mdot_coolant" i * c * (V "T_out" i - V "T_in" i)) /\
  V "T" 0%nat = V "T_initial" 0%nat /\ V "T" (2 * m)%nat = V "T_final" 0%nat.

Lemma size_odd m : (0 < m)%nat -> method_size Simpson (2 * m + 1).
Proof. intro H. split; [|lia]. rewrite Nat.odd_add, Nat.odd_mul. reflexivity. Qed.

Lemma stored_heat_intro m X dt mc c V : (0 < m)%nat -> is_inverse (2 * m) simpson_a X -> mc <> 0 ->
  let tri := method_tri Simpson (2 * m + 1) X in
  let rate := fun i => (V "q_in" i - V "mdot_coolant" i * c * (V "T_out" i - V "T_in" i)) / mc in
  forall r, (forall i, (i < 2 * m + 1)%nat -> r i = rate i) ->
  (forall i, (i < 2 * m + 1)%nat -> V "T" i = integ_q (2 * m + 1) tri (TDuration (INR (2 * m) * dt)) false (V "T_initial" 0%nat) r i) ->
  V "T_final" 0%nat = integ_q_final (2 * m + 1) tri (TDuration (INR (2 * m) * dt)) false (V "T_initial" 0%nat) r ->
  stored_heat m dt mc c V.
Proof.
  intros Hm HX Hmc tri rate r Hr HT HF. split; [|split].
  - rewrite HF. unfold tri. rewrite (integ_energy m X dt _ r Hm HX).
    set (g := fun i => V "q_in" i - V "mdot_coolant" i * c * (V "T_out" i - V "T_in" i)). unfold simpson_sum.
    rewrite (simpson_scale m (/ mc) r g). { field; auto. }
    intros i Hi. rewrite Hr by auto. unfold rate, g. field; auto.
  - rewrite HT by lia. apply (C04_first_entry_is_start_value Simpson).
    + now apply size_odd.
    + replace (2 * m + 1 - 1)%nat with (2 * m)%nat by lia. exact HX.
  - rewrite HT, HF by lia. unfold integ_q_final. f_equal. lia.
Qed.

Theorem C47_cooled_component_energy m X c_obj c_cool dt V :
  (0 < m)%nat -> is_inverse (2 * m) simpson_a X -> c_obj <> 0 -> c_cool <> 0 -> V "mass" 0%nat <> 0 ->
  (forall i, (i < 2 * m + 1)%nat -> V "mdot_coolant" i <> 0) -> V "duration" 0%nat = INR (2 * m) * dt ->
  solution (LiquidCooledComp (2 * m + 1) (method_tri Simpson (2 * m + 1) X) false c_obj c_cool) V ->
  stored_heat m dt (V "mass" 0%nat * c_obj) c_cool V.
Proof.
  intros Hm HX Hco Hcc HM Hd Hdur S. set (G := LiquidCooledComp _ _ _ _ _) in *.
  assert (HMc : V "mass" 0%nat * c_obj <> 0) by (apply Rmult_integral_contrapositive; auto).
  apply (stored_heat_intro m X dt _ c_cool V Hm HX HMc (V "base.dTdt")).
  - intros i Hi.
    pose proof (sol_comp G V _ _ _ _ _ "dTdt" _ _ i S ltac:(left; reflexivity) eq_refl Hi) as B.
    change (V "base.dTdt" i = (V "q_in" i - V "hex.q" i) / V "mass" 0%nat / c_obj) in B.
    pose proof (sol_comp G V _ _ _ _ _ "T_out" _ _ i S ltac:(right; right; left; reflexivity) eq_refl Hi) as T.
    pose proof (sol_comp G V _ _ _ _ _ "q" _ _ i S ltac:(right; right; left; reflexivity) eq_refl Hi) as Q.
    change (V "hex.q" i = vcompute (ColdPlate default_k default_Nu c_cool) (fun x => V (source G (gname "hex" [P "T_in"; As "T_surface" "T"; P "n_parallel"; P "channel*"; P "mdot_coolant"] x))) "q" i) in Q.
    change (V "T_out" i = V "T_in" i + vcompute (ColdPlate default_k default_Nu c_cool) (fun x => V (source G (gname "hex" [P "T_in"; As "T_surface" "T"; P "n_parallel"; P "channel*"; P "mdot_coolant"] x))) "q" i / V "mdot_coolant" i / c_cool) in T.
    rewrite <- Q in T. rewrite B, T. specialize (Hd i Hi). field. auto.
  - intros i Hi. pose proof (sol_rel G V _ S ltac:(right; left; reflexivity)) as [I _]. rewrite <- Hdur. exact (I i Hi).
  - pose proof (sol_rel G V _ S ltac:(right; left; reflexivity)) as [_ I]. rewrite <- Hdur. exact I.
Qed.
Print Assumptions C47_cooled_component_energy.

Theorem C47_motor_energy m X c cm hw dt V :
  (0 < m)%nat -> is_inverse (2 * m) simpson_a X -> c <> 0 -> cm <> 0 -> V "motor_weight" 0%nat <> 0 ->
  (forall i, (i < 2 * m + 1)%nat -> V "mdot_coolant" i <> 0) -> V "duration" 0%nat = INR (2 * m) * dt ->
  solution (LiquidCooledMotor (2 * m + 1) (method_tri Simpson (2 * m + 1) X) false c cm hw) V ->
  stored_heat m dt (V "motor_weight" 0%nat * cm) c V.
Proof.
  intros Hm HX Hc Hcm HM Hd Hdur S. set (G := LiquidCooledMotor _ _ _ _ _ _) in *.
  assert (HMc : V "motor_weight" 0%nat * cm <> 0) by (apply Rmult_integral_contrapositive; auto).
  apply (stored_heat_intro m X dt _ c V Hm HX HMc (V "dTdt")).
  - intros i Hi. specialize (Hd i Hi).
    pose proof (sol_comp G V _ _ _ _ _ "dTdt" _ _ i S ltac:(left; reflexivity) eq_refl Hi) as B.
    pose proof (sol_comp G V _ _ _ _ _ "T_out" _ _ i S ltac:(left; reflexivity) eq_refl Hi) as T.
    pose proof (sol_comp G V _ _ _ _ _ "q" _ _ i S ltac:(left; reflexivity) eq_refl Hi) as Q.
    change (V "hex.q" i = vcompute (MotorCoolingJacket c cm hw) (fun x => V (source G (gname "hex" [P "q_in"; P "T_in"; P "T"; P "power_rating"; P "mdot_coolant"; P "motor_weight"] x))) "q" i) in Q.
    change (V "dTdt" i = (V "q_in" i - vcompute (MotorCoolingJacket c cm hw) (fun x => V (source G (gname "hex" [P "q_in"; P "T_in"; P "T"; P "power_rating"; P "mdot_coolant"; P "motor_weight"] x))) "q" i) / V "motor_weight" 0%nat / cm) in B.
    change (V "T_out" i = V "T_in" i + vcompute (MotorCoolingJacket c cm hw) (fun x => V (source G (gname "hex" [P "q_in"; P "T_in"; P "T"; P "power_rating"; P "mdot_coolant"; P "motor_weight"] x))) "q" i / V "mdot_coolant" i / c) in T.
    rewrite <- Q in T, B. rewrite B, T. field. auto.
  - intros i Hi. pose proof (sol_rel G V _ S ltac:(right; left; reflexivity)) as [I _]. rewrite <- Hdur. exact (I i Hi).
  - pose proof (sol_rel G V _ S ltac:(right; left; reflexivity)) as [_ I]. rewrite <- Hdur. exact I.
Qed.
Print Assumptions C47_motor_energy.

Theorem C47_battery_energy m X o dt V :
  (0 < m)%nat -> is_inverse (2 * m) simpson_a X -> cell_pos o -> 0 < V "battery_weight" 0%nat ->
  (forall i, (i < 2 * m + 1)%nat -> V "mdot_coolant" i <> 0) -> V "duration" 0%nat = INR (2 * m) * dt ->
  solution (LiquidCooledBattery (2 * m + 1) (method_tri Simpson (2 * m + 1) X) false o) V ->
  stored_heat m dt (V "battery_weight" 0%nat * wfrac o * cpc o) (cpf o) V.
Proof.
  intros Hm HX P0 HW Hd Hdur S. set (G := LiquidCooledBattery _ _ _ _) in *.
  pose proof (n_cells_pos o _ P0 HW) as HN. destruct P0 as (P1&P2&P3&P4&P5&P6&P7&P8&P9).
  assert (HM : V "battery_weight" 0%nat * wfrac o * cpc o <> 0). { apply Rgt_not_eq. repeat apply Rmult_lt_0_compat; auto. }
  apply (stored_heat_intro m X dt _ (cpf o) V Hm HX HM (V "dTdt")).
  - intros i Hi. specialize (Hd i Hi).
    pose proof (sol_comp G V _ _ _ _ _ "dTdt" _ _ i S ltac:(left; reflexivity) eq_refl Hi) as B.
    pose proof (sol_comp G V _ _ _ _ _ "T_out" _ _ i S ltac:(left; reflexivity) eq_refl Hi) as T.
    pose proof (sol_comp G V _ _ _ _ _ "q" _ _ i S ltac:(left; reflexivity) eq_refl Hi) as Q.
    set (k := k_cell o (V "battery_weight" 0%nat) (V "n_cpb" 0%nat) (V "t_channel" 0%nat) (V "mdot_coolant" i)).
    set (ts := (k_cyl o * V "T" i + k * V "T_in" i) / (k_cyl o + k)).
    change (V "hex.q" i = (ts - V "T_in" i) * k * n_cells o (V "battery_weight" 0%nat)) in Q.
    change (V "dTdt" i = (V "q_in" i / n_cells o (V "battery_weight" 0%nat) - (ts - V "T_in" i) * k) / mc o / cpc o) in B.
    change (V "T_out" i = V "T_in" i + (ts - V "T_in" i) * k * n_cells o (V "battery_weight" 0%nat) / V "mdot_coolant" i / cpf o) in T.
    clearbody ts k. rewrite B, T. unfold n_cells. field. repeat split; lra.
  - intros i Hi. pose proof (sol_rel G V _ S ltac:(right; left; reflexivity)) as [I _]. rewrite <- Hdur. exact (I i Hi).
  - pose proof (sol_rel G V _ S ltac:(right; left; reflexivity)) as [_ I]. rewrite <- Hdur. exact I.
Qed.
Print Assumptions C47_battery_energy.

(** Reservoir: the stored enthalpy changes by the enthalpy flowing in minus out. *)
Theorem C47_reservoir_energy m X dt V :
  (0 < m)%nat -> is_inverse (2 * m) simpson_a X -> V "mass" 0%nat <> 0 -> V "duration" 0%nat = INR (2 * m) * dt ->
  solution (CoolantReservoir (2 * m + 1) (method_tri Simpson (2 * m + 1) X)) V ->
  V "mass" 0%nat * (V "T_final" 0%nat - V "T_initial" 0%nat) =
    simpson_sum m dt (fun i => V "mdot_coolant" i * (V "T_in" i - V "T_out" i)) /\
  V "T_out" 0%nat = V "T_initial" 0%nat.
Proof.
  intros Hm HX HM Hdur S. set (G := CoolantReservoir _ _) in *.
  pose proof (sol_rel G V _ S ltac:(right; left; reflexivity)) as I.
  change ((forall i, (i < 2 * m + 1)%nat -> V "T_out" i = integ_q (2 * m + 1) (method_tri Simpson (2 * m + 1) X) (TDuration (V "duration" 0%nat)) false (V "T_initial" 0%nat) (V "rate.dTdt") i) /\
    V "T_final" 0%nat = integ_q_final (2 * m + 1) (method_tri Simpson (2 * m + 1) X) (TDuration (V "duration" 0%nat)) false (V "T_initial" 0%nat) (V "rate.dTdt")) in I.
  destruct I as [I1 I2]. rewrite Hdur in I1, I2. split.
  - rewrite I2, (integ_energy m X dt _ _ Hm HX).
    set (g := fun i => V "mdot_coolant" i * (V "T_in" i - V "T_out" i)). unfold simpson_sum.
    rewrite (simpson_scale m (/ V "mass" 0%nat) (V "rate.dTdt") g). { field; auto. }
    intros i Hi. unfold g. pose proof (sol_comp G V _ _ _ _ _ "dTdt" _ _ i S ltac:(left; reflexivity) eq_refl Hi) as B.
    change (V "rate.dTdt" i = V "mdot_coolant" i / V "mass" 0%nat * (V "T_in" i - V "T_out" i)) in B. rewrite B. field; auto.
  - rewrite I1 by lia. apply (C04_first_entry_is_start_value Simpson).
    + now apply size_odd.
    + replace (2 * m + 1 - 1)%nat with (2 * m)%nat by lia. exact HX.
Qed.
Print Assumptions C47_reservoir_energy.

(** Quasi-steady mode: there is exactly one operating point; all heat goes into the
    coolant and the body sits at the temperature that drives this heat flow. *)
Theorem C47_quasi_steady_component n tri c_obj c V i :
  (i < n)%nat -> let w := V "channel_width" 0%nat in let h := V "channel_height" 0%nat in
  let l := V "channel_length" 0%nat in let np := V "n_parallel" 0%nat in
  0 < c -> 0 < w -> 0 < h -> 0 < l -> 0 < np -> 0 < V "mdot_coolant" i ->
  solution (LiquidCooledComp n tri true c_obj c) V ->
  let hA := 754/100 * (405/1000) / (4 * (w * h) / (2 * (w + h))) * (np * (2 * (w + h)) * l) in
  V "mdot_coolant" i * c * (V "T_out" i - V "T_in" i) = V "q_in" i /\
  V "T" i = V "T_in" i + V "q_in" i / (V "mdot_coolant" i * c * (1 - exp (- (hA / (V "mdot_coolant" i * c))))).
Proof.
  intros Hi w h l np Hc Hw Hh Hl Hn Hm S hA. set (G := LiquidCooledComp _ _ _ _ _) in *.
  pose proof (sol_rel G V _ S ltac:(left; reflexivity) i Hi) as B.
  change (V "q_in" i - V "hex.q" i = 0) in B.
  pose proof (sol_comp G V _ _ _ _ _ "T_out" _ _ i S ltac:(right; left; reflexivity) eq_refl Hi) as T.
  pose proof (sol_comp G V _ _ _ _ _ "q" _ _ i S ltac:(right; left; reflexivity) eq_refl Hi) as Q.
  change (V "hex.q" i = (1 - exp (- (plate_UA default_k default_Nu w h l np / (V "mdot_coolant" i * c)))) * (V "mdot_coolant" i * c) * (V "T" i - V "T_in" i)) in Q.
  change (V "T_out" i = V "T_in" i + (1 - exp (- (plate_UA default_k default_Nu w h l np / (V "mdot_coolant" i * c)))) * (V "mdot_coolant" i * c) * (V "T" i - V "T_in" i) / V "mdot_coolant" i / c) in T.
  assert (U : plate_UA default_k default_Nu w h l np = hA).
  { unfold plate_UA, hA, default_k, default_Nu. clearbody w h l np. field. repeat split; lra. }
  assert (HA : 0 < hA). { unfold hA. clearbody w h l np. apply Rmult_lt_0_compat.
    - apply div_pos; [lra|]. apply div_pos; nra.
    - apply Rmult_lt_0_compat; auto. apply Rmult_lt_0_compat; lra. }
  rewrite U in Q, T. clear U. clearbody hA.
  assert (Hmc : 0 < V "mdot_coolant" i * c) by nra.
  assert (HN : 0 < hA / (V "mdot_coolant" i * c)) by (apply div_pos; auto).
  pose proof (one_minus_exp_pos _ HN) as P0. set (x := exp _) in *. clearbody x.
  assert (QI : V "q_in" i = (1 - x) * (V "mdot_coolant" i * c) * (V "T" i - V "T_in" i)) by lra.
  split; rewrite QI; [rewrite T|]; field; lra.
Qed.
Print Assumptions C47_quasi_steady_component.

Theorem C47_quasi_steady_motor n tri c cm hw V i :
  (i < n)%nat -> 0 < c -> 0 < cm -> 0 < hw -> 0 < V "power_rating" 0%nat -> 0 < V "motor_weight" 0%nat -> 0 < V "mdot_coolant" i ->
  solution (LiquidCooledMotor n tri true c cm hw) V ->
  V "mdot_coolant" i * c * (V "T_out" i - V "T_in" i) = V "q_in" i /\
  V "T" i = V "T_in" i + V "q_in" i / (V "mdot_coolant" i * c * (1 - exp (- (hw * V "power_rating" 0%nat / (V "mdot_coolant" i * c))))).
Proof.
  intros Hi Hc Hcm Hh HP HW Hm S. set (G := LiquidCooledMotor _ _ _ _ _ _) in *.
  pose proof (sol_rel G V _ S ltac:(right; left; reflexivity) i Hi) as B0. change (V "dTdt" i = 0) in B0.
  pose proof (sol_comp G V _ _ _ _ _ "dTdt" _ _ i S ltac:(left; reflexivity) eq_refl Hi) as B.
  pose proof (sol_comp G V _ _ _ _ _ "T_out" _ _ i S ltac:(left; reflexivity) eq_refl Hi) as T.
  set (x := exp (- (hw * V "power_rating" 0%nat / V "mdot_coolant" i / c))) in *.
  change (V "dTdt" i = (V "q_in" i - (V "T" i - V "T_in" i) * (1 - x) * V "mdot_coolant" i * c) / V "motor_weight" 0%nat / cm) in B.
  change (V "T_out" i = V "T_in" i + (V "T" i - V "T_in" i) * (1 - x) * V "mdot_coolant" i * c / V "mdot_coolant" i / c) in T.
  assert (HN : 0 < hw * V "power_rating" 0%nat / (V "mdot_coolant" i * c)) by (apply div_pos; nra).
  assert (X : x = exp (- (hw * V "power_rating" 0%nat / (V "mdot_coolant" i * c)))) by (unfold x; f_equal; field; lra).
  rewrite <- X. pose proof (one_minus_exp_pos _ HN) as P0. rewrite <- X in P0. clearbody x. clear X.
  assert (QI : V "q_in" i = (V "T" i - V "T_in" i) * (1 - x) * V "mdot_coolant" i * c).
  { rewrite B in B0. set (z := V "q_in" i - _) in *. assert (z = 0). { 
      replace z with (z / V "motor_weight" 0%nat / cm * (V "motor_weight" 0%nat * cm)) by (field; lra). rewrite B0. ring. }
    unfold z in *. lra. }
  split; rewrite QI; [rewrite T|]; field; lra.
Qed.
Print Assumptions C47_quasi_steady_motor.

(** Partials. *)
Theorem C47_partials n E : (0 < n)%nat ->
  (forall c, c <> 0 -> (forall i, (i < n)%nat -> E "mdot_coolant" i <> 0) -> jac_correct n (PerfectHeatTransferComp c) E) /\
  (forall c, c <> 0 -> E "mass" 0%nat <> 0 -> jac_correct n (ThermalComponentWithMass c) E) /\
  jac_correct n massless_residual E /\
  (E "mass" 0%nat <> 0 -> jac_correct n CoolantReservoirRate E) /\
  (forall c cm hw, c <> 0 -> cm <> 0 -> E "motor_weight" 0%nat <> 0 -> (forall i, (i < n)%nat -> E "mdot_coolant" i <> 0) ->
     jac_correct n (MotorCoolingJacket c cm hw) E) /\
  (forall k Nu c, c <> 0 -> 0 < E "channel_width" 0%nat -> 0 < E "channel_height" 0%nat ->
     (forall i, (i < n)%nat -> E "mdot_coolant" i <> 0) -> jac_correct n (ColdPlate k Nu c) E) /\
  (forall o, cell_pos o -> 0 < E "battery_weight" 0%nat -> 0 < E "n_cpb" 0%nat -> 0 < E "t_channel" 0%nat ->
     (forall i, (i < n)%nat -> 0 < E "mdot_coolant" i) -> jac_correct n (Bandolier o) E).
Proof.
  intro Hn. repeat match goal with |- _ /\ _ => split end; intros.
  - now apply pht_jac.
  - now apply mass_jac.
  - now apply massless_jac.
  - now apply reservoir_jac.
  - now apply motor_jac.
  - now apply plate_jac.
  - now apply bandolier_jac.
Qed.
Print Assumptions C47_partials.

(** *** The hypotheses are met: a motor in thermal equilibrium *)
(** Every motor that starts at the temperature at which the coolant carries away
    the heat produced stays there: an explicit converged state. *)
Definition motor_state (c hw Ti T0 m P W D : R) : env := fun x _ =>
  let K := (1 - exp (- (hw * P / m / c))) * m * c in
  if String.eqb x "q_in" then (T0 - Ti) * K else if String.eqb x "T_in" then Ti else
  if String.eqb x "T" then T0 else if String.eqb x "T_initial" then T0 else if String.eqb x "T_final" then T0 else
  if String.eqb x "mdot_coolant" then m else if String.eqb x "power_rating" then P else
  if String.eqb x "motor_weight" then W else if String.eqb x "duration" then D else
  if String.eqb x "T_out" then Ti + (T0 - Ti) * K / m / c else if String.eqb x "hex.q" then (T0 - Ti) * K else 0.
Example C47_motor_equilibrium m X c cm hw Ti T0 md P W dt :
  (0 < m)%nat -> is_inverse (2 * m) simpson_a X ->
  let V := motor_state c hw Ti T0 md P W (INR (2 * m) * dt) in
  solution (LiquidCooledMotor (2 * m + 1) (method_tri Simpson (2 * m + 1) X) false c cm hw) V /\
  solution (LiquidCooledMotor (2 * m + 1) (method_tri Simpson (2 * m + 1) X) true c cm hw) V.
Proof.
  intros Hm HX V.
  assert (H1 : forall q, let s := comp (2 * m + 1) "hex" (MotorCoolingJacket c cm hw)
       [Model_Net.P "q_in"; Model_Net.P "T_in"; Model_Net.P "T"; Model_Net.P "power_rating"; Model_Net.P "mdot_coolant"; Model_Net.P "motor_weight"] [Model_Net.P "T_out"; Model_Net.P "dTdt"] in
     gs_rel s (reads (LiquidCooledMotor (2 * m + 1) (method_tri Simpson (2 * m + 1) X) q c cm hw) s V) (writes s V)).
  { intros q s o k f i Ho Hi. apply assoc_In in Ho. cbn [MotorCoolingJacket pc_outs In] in Ho.
    destruct Ho as [H|[H|[H|[]]]]; inversion H; subst; unfold vcompute, nval, node, reads, writes, V, motor_state; cbn.
    - unfold Rdiv. ring.
    - unfold Rdiv. ring.
    - unfold Rdiv. ring. }
  split; intros s [<-|[<-|[]]]; try apply H1.
  - assert (R0 : forall i, V "dTdt" i = 0) by reflexivity.
    split.
    + intros i Hi. change (T0 = integ_q (2 * m + 1) (method_tri Simpson (2 * m + 1) X) (TDuration (INR (2 * m) * dt)) false T0 (V "dTdt") i).
      replace (INR (2 * m)) with (INR (2 * m + 1 - 1)) by (f_equal; lia). symmetry. apply integ_zero; auto.
      * now apply size_odd.
      * replace (2 * m + 1 - 1)%nat with (2 * m)%nat by lia. exact HX.
    + change (T0 = integ_q_final (2 * m + 1) (method_tri Simpson (2 * m + 1) X) (TDuration (INR (2 * m) * dt)) false T0 (V "dTdt")).
      unfold integ_q_final. replace (INR (2 * m)) with (INR (2 * m + 1 - 1)) by (f_equal; lia). symmetry. apply integ_zero; auto; try lia.
      * now apply size_odd.
      * replace (2 * m + 1 - 1)%nat with (2 * m)%nat by lia. exact HX.
  - intros i Hi. reflexivity.
Qed.
Example C47_cells_met : cell_pos default_cell.
Proof. repeat split; cbn; lra. Qed.
Example C47_groups_set_up n tri (quasi : bool) : is_ok (setup (LiquidCooledComp n tri quasi 921 3801)) = true /\
  is_ok (setup (LiquidCooledMotor n tri quasi 3801 921 1)) = true /\
  is_ok (setup (LiquidCooledBattery n tri quasi default_cell)) = true /\ is_ok (setup (CoolantReservoir n tri)) = true.
Proof. destruct quasi; repeat split; reflexivity. Qed.

Ltac rel_comp S := let o := fresh "o" in let k := fresh "k" in let f := fresh "f" in let i := fresh "i" in
  let Ho := fresh "Ho" in let Hi := fresh "Hi" in
  intros o k f i Ho Hi; apply assoc_In in Ho; cbn [S pc_outs In] in Ho;
  repeat (destruct Ho as [Ho|Ho]; [inversion Ho; subst; clear Ho; unfold vcompute, nval, node, reads, writes; cbn|]); try contradiction.

(** A cooled component in equilibrium, both modes. *)
Definition comp_state (c Ti T0 m M D w h l n : R) : env := fun x _ =>
  let q := (1 - exp (- (plate_UA default_k default_Nu w h l n / (m * c)))) * (m * c) * (T0 - Ti) in
  if String.eqb x "q_in" then q else if String.eqb x "hex.q" then q else if String.eqb x "T_in" then Ti else
  if String.eqb x "T" then T0 else if String.eqb x "T_initial" then T0 else if String.eqb x "T_final" then T0 else
  if String.eqb x "mdot_coolant" then m else if String.eqb x "mass" then M else if String.eqb x "duration" then D else
  if String.eqb x "channel_width" then w else if String.eqb x "channel_height" then h else
  if String.eqb x "channel_length" then l else if String.eqb x "n_parallel" then n else
  if String.eqb x "T_out" then Ti + q / m / c else 0.
Example C47_component_equilibrium m X c_obj c Ti T0 md M w h l n dt :
  (0 < m)%nat -> is_inverse (2 * m) simpson_a X ->
  let V := comp_state c Ti T0 md M (INR (2 * m) * dt) w h l n in
  solution (LiquidCooledComp (2 * m + 1) (method_tri Simpson (2 * m + 1) X) false c_obj c) V /\
  solution (LiquidCooledComp (2 * m + 1) (method_tri Simpson (2 * m + 1) X) true c_obj c) V.
Proof.
  intros Hm HX V. assert (R0 : forall i, V "base.dTdt" i = 0) by reflexivity.
  split.
  - intros s [<-|[<-|[<-|[]]]].
    + rel_comp ThermalComponentWithMass. unfold Rdiv. ring.
    + split.
      * intros i Hi. change (T0 = integ_q (2 * m + 1) (method_tri Simpson (2 * m + 1) X) (TDuration (INR (2 * m) * dt)) false T0 (V "base.dTdt") i).
        replace (INR (2 * m)) with (INR (2 * m + 1 - 1)) by (f_equal; lia). symmetry. apply integ_zero; auto.
        -- now apply size_odd.
        -- replace (2 * m + 1 - 1)%nat with (2 * m)%nat by lia. exact HX.
      * change (T0 = integ_q_final (2 * m + 1) (method_tri Simpson (2 * m + 1) X) (TDuration (INR (2 * m) * dt)) false T0 (V "base.dTdt")).
        unfold integ_q_final. replace (INR (2 * m)) with (INR (2 * m + 1 - 1)) by (f_equal; lia). symmetry. apply integ_zero; auto; try lia.
        -- now apply size_odd.
        -- replace (2 * m + 1 - 1)%nat with (2 * m)%nat by lia. exact HX.
    + rel_comp ColdPlate; reflexivity.
  - intros s [<-|[<-|[]]].
    + intros i Hi. cbn. change (V "q_in" i - V "hex.q" i = 0). change (V "q_in" i) with (V "hex.q" i). ring.
    + rel_comp ColdPlate; reflexivity.
Qed.

(** ** C58 *)
(** Hose: with U the flow speed given by continuity and Re the Reynolds number, the
    pressure drop is f (L/d) rho U^2 / 2 with Blasius' f = 0.3164 Re^(-1/4). *)
Theorem C58_hose_pressure_drop sigma rh E i U Re :
  let d := E "hose_diameter" 0%nat in let rho := E "rho_coolant" i in
  0 < d -> 0 < E "mu_coolant" 0%nat -> 0 < rho ->
  rho * U * (PI * d ^ 2 / 4) = E "mdot_coolant" i -> Re = rho * U * d / E "mu_coolant" 0%nat ->
  vcompute (SimpleHose sigma rh) E "delta_p" i =
    3164/10000 * Rpower Re (- (1) / 4) * (E "hose_length" 0%nat / d) * (rho * U ^ 2 / 2).
Proof.
  intros d rho Hd Hmu Hr HU HR. outs SimpleHose. fold d rho. unfold hose_dp. pose proof PI_RGT_0.
  rewrite <- HU, HR. replace (rho * U * (PI * d ^ 2 / 4) / rho / (PI * (d / 2) ^ 2)) with U.
  - field. lra.
  - field. repeat split; lra.
Qed.
Print Assumptions C58_hose_pressure_drop.

(** The pressure drop grows like the 7/4 power of the mass flow. *)
Theorem C58_hose_scaling sigma rh E E' i s :
  0 < s -> 0 < E "hose_diameter" 0%nat -> 0 < E "mu_coolant" 0%nat -> 0 < E "rho_coolant" i -> 0 < E "mdot_coolant" i ->
  E' "mdot_coolant" i = s * E "mdot_coolant" i -> E' "rho_coolant" i = E "rho_coolant" i ->
  E' "hose_diameter" 0%nat = E "hose_diameter" 0%nat -> E' "hose_length" 0%nat = E "hose_length" 0%nat ->
  E' "mu_coolant" 0%nat = E "mu_coolant" 0%nat ->
  vcompute (SimpleHose sigma rh) E' "delta_p" i = Rpower s (7/4) * vcompute (SimpleHose sigma rh) E "delta_p" i.
Proof.
  intros Hs Hd Hmu Hr Hm Em Er Ed El Emu. outs SimpleHose. rewrite Em, Er, Ed, El, Emu.
  set (d := E "hose_diameter" 0%nat) in *. set (mu := E "mu_coolant" 0%nat) in *. set (rho := E "rho_coolant" i) in *.
  set (m := E "mdot_coolant" i) in *. set (L := E "hose_length" 0%nat) in *. clearbody d mu rho m L.
  rewrite (hose_dp_alt d L mu (s * m) rho), (hose_dp_alt d L mu m rho); auto; [|nra].
  pose proof PI_RGT_0 as HPI. assert (HD : 0 < PI * d * mu) by (apply Rmult_lt_0_compat; auto; apply Rmult_lt_0_compat; auto).
  replace (4 * (s * m) / (PI * d * mu)) with (s * (4 * m / (PI * d * mu))) by (field; repeat split; lra).
  rewrite <- Rpower_mult_distr by (auto; apply div_pos; auto; lra).
  assert (Q : Rpower s (7/4) = Rpower s (- (1) / 4) * s ^ 2).
  { rewrite <- (Rpower_pow 2 s Hs), <- Rpower_plus. f_equal. simpl. lra. }
  rewrite Q. field. repeat split; try lra.
Qed.
Print Assumptions C58_hose_scaling.

(** Weight: wall sized for the hoop stress plus the coolant inside. *)
Theorem C58_hose_weight sigma rh E t : let d := E "hose_diameter" 0%nat in let L := E "hose_length" 0%nat in
  let p := E "hose_design_pressure" 0%nat in sigma <> 0 -> sigma * (2 * t) = p * d ->
  vcompute (SimpleHose sigma rh) E "component_weight" 0 =
    rh * (PI * (d / 2 + t) ^ 2 - PI * (d / 2) ^ 2) * L + E "rho_coolant" 0%nat * (PI * (d / 2) ^ 2) * L.
Proof.
  intros d L p Hs Ht. assert (T : t = d * p / 2 / sigma).
  { apply (Rmult_eq_reg_l (sigma * 2)); [|nra]. replace (sigma * 2 * t) with (sigma * (2 * t)) by ring. rewrite Ht. field. auto. }
  outs SimpleHose. fold d L p. rewrite <- T. field.
Qed.
Print Assumptions C58_hose_weight.

(** Pump: hydraulic power over efficiency; the margin is load over rating. *)
Theorem C58_pump eta base inc E i : eta <> 0 -> E "rho_coolant" i <> 0 -> E "power_rating" 0%nat <> 0 ->
  let C := SimplePump eta base inc in
  eta * vcompute C E "elec_load" i = E "mdot_coolant" i / E "rho_coolant" i * E "delta_p" i /\
  vcompute C E "component_sizing_margin" i * E "power_rating" 0%nat = vcompute C E "elec_load" i /\
  vcompute C E "component_weight" 0 = base + inc * E "power_rating" 0%nat.
Proof. intros He Hr HP C. unfold C. outs SimplePump. repeat split; field; auto. Qed.
Print Assumptions C58_pump.

Theorem C58_partials n E : (0 < n)%nat ->
  (forall sigma rh, sigma <> 0 -> 0 < E "hose_diameter" 0%nat -> 0 < E "mu_coolant" 0%nat ->
     (forall i, (i < n)%nat -> 0 < E "rho_coolant" i /\ 0 < E "mdot_coolant" i) -> jac_correct n (SimpleHose sigma rh) E) /\
  (forall eta base inc, eta <> 0 -> E "power_rating" 0%nat <> 0 -> (forall i, (i < n)%nat -> E "rho_coolant" i <> 0) ->
     jac_correct n (SimplePump eta base inc) E).
Proof. intro Hn. split; intros; [now apply hose_jac|now apply pump_jac]. Qed.
Print Assumptions C58_partials.

(** ** C48 *)
(** FlowSplit rejects the inputs exactly when some fraction is outside [0, 1]. *)
Theorem C48_split_rejects nn E :
  flow_split nn E = Err RuntimeWarning <-> exists i, (i < nn)%nat /\ (E "mdot_split_fraction" i < 0 \/ 1 < E "mdot_split_fraction" i).
Proof.
  unfold flow_split, anyb. set (a := existsb _ _). set (b := existsb _ _).
  assert (A : a = true <-> exists i, (i < nn)%nat /\ E "mdot_split_fraction" i < 0).
  { unfold a. rewrite existsb_exists. split.
    - intros [i [Hi H]]. apply in_seq in Hi. exists i. destruct (Rlt_dec (E "mdot_split_fraction" i) 0); [split; [lia|auto]|discriminate].
    - intros [i [Hi H]]. exists i. split; [apply in_seq; lia|]. destruct (Rlt_dec (E "mdot_split_fraction" i) 0); [auto|contradiction]. }
  assert (B : b = true <-> exists i, (i < nn)%nat /\ 1 < E "mdot_split_fraction" i).
  { unfold b. rewrite existsb_exists. split.
    - intros [i [Hi H]]. apply in_seq in Hi. exists i. destruct (Rlt_dec 1 (E "mdot_split_fraction" i)); [split; [lia|auto]|discriminate].
    - intros [i [Hi H]]. exists i. split; [apply in_seq; lia|]. destruct (Rlt_dec 1 (E "mdot_split_fraction" i)); [auto|contradiction]. }
  split.
  - destruct a; [intros _; destruct (proj1 A eq_refl) as [i [? ?]]; exists i; auto|].
    destruct b; [intros _; destruct (proj1 B eq_refl) as [i [? ?]]; exists i; auto|discriminate].
  - intros [i [Hi [H|H]]].
    + rewrite (proj2 A) by (exists i; auto). reflexivity.
    + rewrite (proj2 B) by (exists i; auto). destruct a; reflexivity.
Qed.
Print Assumptions C48_split_rejects.

(** Otherwise the two outlets share the inflow in the given proportion. *)
Theorem C48_split_conserves nn E f i : flow_split nn E = Ok f -> (i < nn)%nat ->
  fst (f i) + snd (f i) = E "mdot_in" i /\ fst (f i) = E "mdot_split_fraction" i * E "mdot_in" i /\
  (0 <= E "mdot_in" i -> 0 <= fst (f i) <= E "mdot_in" i /\ 0 <= snd (f i) <= E "mdot_in" i).
Proof.
  intros H Hi. assert (B : 0 <= E "mdot_split_fraction" i <= 1).
  { assert (N : flow_split nn E <> Err RuntimeWarning) by (rewrite H; discriminate).
    rewrite C48_split_rejects in N. split; apply Rnot_lt_le; intro; apply N; exists i; auto. }
  unfold flow_split in H. destruct (_ || _); [discriminate|]. inversion H; subst. cbn [fst snd].
  outs FlowSplit. repeat split; try ring; nra.
Qed.
Print Assumptions C48_split_conserves.

(** FlowCombine conserves mass and energy; the mixture lies between its parts. *)
Theorem C48_combine E i : let A := E "mdot_in_A" i in let B := E "mdot_in_B" i in A + B <> 0 ->
  let m := vcompute FlowCombine E "mdot_out" i in let T := vcompute FlowCombine E "T_out" i in
  m = A + B /\ m * T = A * E "T_in_A" i + B * E "T_in_B" i /\
  (0 <= A -> 0 <= B -> Rmin (E "T_in_A" i) (E "T_in_B" i) <= T <= Rmax (E "T_in_A" i) (E "T_in_B" i)).
Proof.
  intros A B H m T. assert (Em : m = A + B) by (unfold m; outs FlowCombine; reflexivity).
  assert (ET : m * T = A * E "T_in_A" i + B * E "T_in_B" i).
  { rewrite Em. unfold T. outs FlowCombine. fold A B. field. auto. }
  split; auto. split; auto. intros HA HB. clearbody m T A B. unfold Rmin, Rmax. destruct (Rle_dec (E "T_in_A" i) (E "T_in_B" i)); split; nra.
Qed.
Print Assumptions C48_combine.

(** Splitting a stream and joining the parts again gives back the stream. *)
Theorem C48_split_then_combine nn E f E' i : flow_split nn E = Ok f -> (i < nn)%nat -> E "mdot_in" i <> 0 ->
  E' "mdot_in_A" i = fst (f i) -> E' "mdot_in_B" i = snd (f i) -> E' "T_in_A" i = E' "T_in_B" i ->
  vcompute FlowCombine E' "mdot_out" i = E "mdot_in" i /\ vcompute FlowCombine E' "T_out" i = E' "T_in_A" i.
Proof.
  intros H Hi Hm HA HB HT. destruct (C48_split_conserves nn E f i H Hi) as [S _].
  assert (N : E' "mdot_in_A" i + E' "mdot_in_B" i <> 0) by (rewrite HA, HB, S; auto).
  destruct (C48_combine E' i N) as [M [Q _]]. split; [lra|]. rewrite M in Q.
  apply (Rmult_eq_reg_l (E' "mdot_in_A" i + E' "mdot_in_B" i)); auto. rewrite Q, <- HT. ring.
Qed.
Print Assumptions C48_split_then_combine.

Theorem C48_partials n E : (0 < n)%nat -> jac_correct n FlowSplit E /\
  ((forall i, (i < n)%nat -> E "mdot_in_A" i + E "mdot_in_B" i <> 0) -> jac_correct n FlowCombine E).
Proof. intro Hn. split; intros; [now apply split_flow_jac|now apply combine_jac]. Qed.
Print Assumptions C48_partials.

Example C48_met : exists f, flow_split 2 (fun x i => if String.eqb x "mdot_split_fraction" then 1/4 else 3) = Ok f /\ fst (f 1%nat) = 3/4.
Proof.
  destruct (flow_split 2 (fun x i => if String.eqb x "mdot_split_fraction" then 1/4 else 3)) as [f|e] eqn:H.
  - exists f. split; auto. destruct (C48_split_conserves _ _ _ 1%nat H ltac:(lia)) as [_ [K _]]. rewrite K. simpl. lra.
  - exfalso. assert (e = RuntimeWarning) by (unfold flow_split in H; destruct (_ || _) in H; inversion H; auto). subst.
    apply C48_split_rejects in H. destruct H as [i [_ [H|H]]]; simpl in H; lra.
Qed.

(** ** C49 *)
(** The converged equations of the heat pump at node [i]. *)
Lemma heat_pump_eqs nn nl c V i : (i < nn)%nat -> c <> 0 -> V "mdot_coolant" i <> 0 -> solution (HeatPump nn nl c) V ->
  let P := V "power_rating" 0%nat in let b := V "bypass" i in let Th := V "hot_side.T_out" i in let Tc := V "cold_side.T_out" i in
  V "mdot_coolant" i * c * (Th - V "T_in_hot" i) = (V "COP" i + 1) * P /\
  V "mdot_coolant" i * c * (V "T_in_cold" i - Tc) = V "COP" i * P /\
  Some (V "COP" i) = cop Tc Th (V "eff_factor" 0%nat) /\
  V "elec_load" i = (1 - b) * P / (95/100) /\
  V "T_out_cold" i = b * V "T_in_hot" i + (1 - b) * Tc /\ V "T_out_hot" i = b * V "T_in_cold" i + (1 - b) * Th.
Proof.
  intros Hi Hc Hm S P b Th Tc. set (G := HeatPump nn nl c) in *.
  assert (In1 : In (comp nn "hot_side" (PerfectHeatTransferComp c) [As "T_in" "T_in_hot"; Model_Net.P "mdot_coolant"] []) (g_subs G)).
  { unfold G, HeatPump. cbn [g_subs]. apply in_or_app. right. cbn [In]. tauto. }
  assert (In2 : In (comp nn "cold_side" (PerfectHeatTransferComp c) [As "T_in" "T_in_cold"; Model_Net.P "mdot_coolant"] []) (g_subs G)).
  { unfold G, HeatPump. cbn [g_subs]. apply in_or_app. right. cbn [In]. tauto. }
  assert (In3 : In (cop_sub nn "copmatch" [Model_Net.P "eff_factor"] [Model_Net.P "COP"]) (g_subs G)).
  { unfold G, HeatPump. cbn [g_subs]. apply in_or_app. right. cbn [In]. tauto. }
  assert (In4 : In (comp nn "heat_pump" COPHeatPump [Model_Net.P "power_rating"; Model_Net.P "COP"] []) (g_subs G)).
  { unfold G, HeatPump. cbn [g_subs]. apply in_or_app. right. cbn [In]. tauto. }
  assert (In5 : In (comp nn "bypass_comp" LinearSelector [Model_Net.P "T_in_cold"; Model_Net.P "T_in_hot"; Model_Net.P "power_rating"; Model_Net.P "bypass"]
       [Model_Net.P "T_out_cold"; Model_Net.P "T_out_hot"; Model_Net.P "elec_load"]) (g_subs G)).
  { unfold G, HeatPump. cbn [g_subs]. apply in_or_app. right. cbn [In]. tauto. }
  pose proof (sol_comp G V _ _ _ _ _ "T_out" _ _ i S In1 eq_refl Hi) as E1.
  pose proof (sol_comp G V _ _ _ _ _ "T_out" _ _ i S In2 eq_refl Hi) as E2.
  pose proof (sol_rel G V _ S In3 i Hi) as E3.
  pose proof (sol_comp G V _ _ _ _ _ "q_in_1" _ _ i S In4 eq_refl Hi) as E4.
  pose proof (sol_comp G V _ _ _ _ _ "q_in_2" _ _ i S In4 eq_refl Hi) as E5.
  pose proof (sol_comp G V _ _ _ _ _ "elec_load" _ _ i S In5 eq_refl Hi) as E6.
  pose proof (sol_comp G V _ _ _ _ _ "T_out_cold" _ _ i S In5 eq_refl Hi) as E7.
  pose proof (sol_comp G V _ _ _ _ _ "T_out_hot" _ _ i S In5 eq_refl Hi) as E8.
  assert (F : V "hot_side.T_out" i = V "T_in_hot" i + V "heat_pump.q_in_2" i / c / V "mdot_coolant" i /\
     V "cold_side.T_out" i = V "T_in_cold" i + V "heat_pump.q_in_1" i / c / V "mdot_coolant" i /\
     Some (V "COP" i) = cop (V "cold_side.T_out" i) (V "hot_side.T_out" i) (V "eff_factor" 0%nat) /\
     V "heat_pump.q_in_1" i = - V "COP" i * P /\ V "heat_pump.q_in_2" i = (V "COP" i + 1) * P).
  { destruct nl; repeat split; assumption. }
  destruct F as (F1&F2&F3&F4&F5).
  split; [unfold Th; rewrite F1, F5; field; auto|].
  split; [unfold Tc; rewrite F2, F4; field; auto|].
  split; [exact F3|].
  destruct nl; repeat split; assumption.
Qed.

(** First law: the two coolant streams together gain the electricity consumed times
    the 95 % motor efficiency; without bypass the cold stream loses COP times the
    power and the hot stream gains that plus the power. *)
Theorem C49_first_law nn nl c V i : (i < nn)%nat -> c <> 0 -> V "mdot_coolant" i <> 0 -> solution (HeatPump nn nl c) V ->
  V "mdot_coolant" i * c * ((V "T_out_hot" i + V "T_out_cold" i) - (V "T_in_hot" i + V "T_in_cold" i)) = 95/100 * V "elec_load" i /\
  (V "bypass" i = 0 ->
     V "mdot_coolant" i * c * (V "T_in_cold" i - V "T_out_cold" i) = V "COP" i * V "power_rating" 0%nat /\
     V "mdot_coolant" i * c * (V "T_out_hot" i - V "T_in_hot" i) = V "COP" i * V "power_rating" 0%nat + V "power_rating" 0%nat /\
     95/100 * V "elec_load" i = V "power_rating" 0%nat).
Proof.
  intros Hi Hc Hm S. destruct (heat_pump_eqs nn nl c V i Hi Hc Hm S) as (E1&E2&_&E4&E5&E6).
  set (Th := V "hot_side.T_out" i) in *. set (Tc := V "cold_side.T_out" i) in *. clearbody Th Tc.
  rewrite E4, E5, E6. set (P := V "power_rating" 0%nat) in *. set (b := V "bypass" i) in *. set (k := V "mdot_coolant" i * c) in *.
  clearbody P b k. split.
  - replace (95/100 * ((1 - b) * P / (95/100))) with ((1 - b) * P) by field.
    replace (k * (b * V "T_in_cold" i + (1 - b) * Th + (b * V "T_in_hot" i + (1 - b) * Tc) - (V "T_in_hot" i + V "T_in_cold" i)))
      with ((1 - b) * (k * (Th - V "T_in_hot" i) - k * (V "T_in_cold" i - Tc))) by ring.
    rewrite E1, E2. ring.
  - intros ->. repeat split.
    + rewrite <- E2. ring.
    + replace (V "COP" i * P + P) with ((V "COP" i + 1) * P) by ring. rewrite <- E1. ring.
    + field.
Qed.
Print Assumptions C49_first_law.

(** Electricity is drawn in proportion to the flow not bypassed; at full bypass none
    is, and the loops are simply cross-connected. *)
Theorem C49_bypass nn nl c V i : (i < nn)%nat -> c <> 0 -> V "mdot_coolant" i <> 0 -> solution (HeatPump nn nl c) V ->
  V "elec_load" i = (1 - V "bypass" i) * (V "power_rating" 0%nat / (95/100)) /\
  (V "bypass" i = 1 -> V "elec_load" i = 0 /\ V "T_out_cold" i = V "T_in_hot" i /\ V "T_out_hot" i = V "T_in_cold" i).
Proof.
  intros Hi Hc Hm S. destruct (heat_pump_eqs nn nl c V i Hi Hc Hm S) as (_&_&_&E4&E5&E6).
  split; [rewrite E4; field|]. intro Hb. rewrite E4, E5, E6, Hb. repeat split; field.
Qed.
Print Assumptions C49_bypass.

(** With the built-in control the bypass runs linearly from its start to its end value. *)
Theorem C49_bypass_schedule nn c V i : (1 < nn)%nat -> (i < nn)%nat -> solution (HeatPump nn false c) V ->
  V "bypass" i = V "control.bypass_start" 0%nat +
    INR i / INR (nn - 1) * (V "control.bypass_end" 0%nat - V "control.bypass_start" 0%nat).
Proof.
  intros Hn Hi S. pose proof (sol_rel _ V _ S ltac:(right; left; reflexivity) i Hi) as E.
  change (V "bypass" i = lin_compute nn (V "control.bypass_start" 0%nat) (V "control.bypass_end" 0%nat) i) in E.
  rewrite E. unfold lin_compute, linspace. assert (INR (nn - 1) <> 0) by (apply not_0_INR; lia).
  destruct (Nat.eqb_spec nn 1); [lia|]. destruct (Nat.eqb_spec i (nn - 1)) as [->|]; field; auto.
Qed.
Print Assumptions C49_bypass_schedule.

(** Wherever it is defined the coefficient of performance is positive and below 11;
    when heat is pumped upwards it does not exceed Carnot's. *)
Theorem C49_cop_bounded Tc Th eff x : 0 < Tc -> 0 < eff -> cop Tc Th eff = Some x -> 0 < x < 11.
Proof.
  intros HT He. unfold cop. destruct (Req_EM_T (Th - Tc) 0); [discriminate|]. intro H. inversion H. apply cop_bounds; lra.
Qed.
Print Assumptions C49_cop_bounded.

(** When heat would flow by itself (the hot side at least 6 K colder) the COP is its ceiling of 10. *)
Theorem C49_cop_ceiling Tc Th eff x : 0 < Tc -> 0 < eff -> Th <= Tc - 6 -> cop Tc Th eff = Some x -> 98/10 < x < 104/10.
Proof.
  intros HT He HH. unfold cop. destruct (Req_EM_T (Th - Tc) 0); [discriminate|]. intro H. inversion H. clear H H1. now apply cop_ceiling.
Qed.
Print Assumptions C49_cop_ceiling.

Theorem C49_cop_below_carnot Tc Th eff x : 0 < Tc -> 0 <= eff <= 1/2 -> Tc < Th <= 2 * Tc -> cop Tc Th eff = Some x ->
  x <= Tc / (Th - Tc).
Proof.
  intros HT He HH. unfold cop. destruct (Req_EM_T (Th - Tc) 0); [discriminate|]. intro H. inversion H. now apply cop_carnot.
Qed.
Print Assumptions C49_cop_below_carnot.

(** Finding: the coefficient of performance is undefined (0 / 0 or inf * 0, nan) at equal
    temperatures ... *)
Theorem C49_cop_at_equal_temperatures_refuted : forall T eff, cop T T eff = None.
Proof. intros T eff. unfold cop. destruct (Req_EM_T (T - T) 0); [reflexivity|]. exfalso. lra. Qed.
Print Assumptions C49_cop_at_equal_temperatures_refuted.

(** ... so a heat pump switched off ([power_rating] 0) between loops of equal inlet
    temperature (the default inputs, both 400 K) has no solution at all. *)
Theorem C49_idle_heat_pump_refuted nn nl c V i : (i < nn)%nat -> c <> 0 -> V "mdot_coolant" i <> 0 ->
  V "power_rating" 0%nat = 0 -> V "T_in_hot" i = V "T_in_cold" i -> ~ solution (HeatPump nn nl c) V.
Proof.
  intros Hi Hc Hm HP HT S. destruct (heat_pump_eqs nn nl c V i Hi Hc Hm S) as (E1&E2&E3&_).
  rewrite HP, Rmult_0_r in E1, E2.
  assert (H : V "hot_side.T_out" i = V "cold_side.T_out" i).
  { assert (K : V "mdot_coolant" i * c <> 0) by (apply Rmult_integral_contrapositive; auto).
    apply Rmult_integral in E1. apply Rmult_integral in E2. destruct E1; [contradiction|]. destruct E2; [contradiction|]. lra. }
  rewrite H, C49_cop_at_equal_temperatures_refuted in E3. discriminate.
Qed.
Print Assumptions C49_idle_heat_pump_refuted.

Theorem C49_weight E : E "specific_power" 0%nat <> 0 ->
  vcompute HeatPumpWeight E "component_weight" 0 * E "specific_power" 0%nat = E "power_rating" 0%nat.
Proof. intro H. outs HeatPumpWeight. field. auto. Qed.
Print Assumptions C49_weight.

Theorem C49_partials n E : (0 < n)%nat ->
  jac_correct n LinearSelector E /\ jac_correct n COPHeatPump E /\
  (E "specific_power" 0%nat <> 0 -> jac_correct n HeatPumpWeight E) /\
  ((forall i, (i < n)%nat -> E "T_h" i <> E "T_c" i) -> jac_correct n COPExplicit E).
Proof.
  intro Hn. split; [now apply selector_jac|]. split; [now apply heat_pump_jac|].
  split; intros; [now apply hp_weight_jac|now apply cop_jac].
Qed.
Print Assumptions C49_partials.

(** A converged heat pump: 1 kg/s, unit specific heat, power such that the loops
    differ; the COP is whatever the code computes for these outlet temperatures. *)
Definition hp_state (c P Tc Th eff b : R) : env := fun x _ =>
  let k := soft10 (cop_a Tc Th eff) in
  if String.eqb x "mdot_coolant" then 1 else if String.eqb x "power_rating" then P else if String.eqb x "specific_power" then 200 else
  if String.eqb x "component_weight" then P / 200 else if String.eqb x "eff_factor" then eff else if String.eqb x "COP" then k else
  if String.eqb x "T_in_hot" then Th - (k + 1) * P / c else if String.eqb x "T_in_cold" then Tc + k * P / c else
  if String.eqb x "hot_side.T_out" then Th else if String.eqb x "cold_side.T_out" then Tc else
  if String.eqb x "hot_side.T_average" then (Th - (k + 1) * P / c + Th) / 2 else
  if String.eqb x "cold_side.T_average" then (Tc + k * P / c + Tc) / 2 else
  if String.eqb x "heat_pump.q_in_1" then - k * P else if String.eqb x "heat_pump.q_in_2" then (k + 1) * P else
  if String.eqb x "bypass" then b else if String.eqb x "elec_load" then (1 - b) * P / (95/100) else
  if String.eqb x "T_out_cold" then b * (Th - (k + 1) * P / c) + (1 - b) * Tc else
  if String.eqb x "T_out_hot" then b * (Tc + k * P / c) + (1 - b) * Th else 0.
Example C49_met nn c P Tc Th eff b : c <> 0 -> Th <> Tc -> solution (HeatPump nn true c) (hp_state c P Tc Th eff b).
Proof.
  intros Hc HT s Hs. unfold HeatPump in Hs. cbn [g_subs app In] in Hs.
  assert (D : Th - Tc <> 0) by lra.
  repeat (destruct Hs as [<-|Hs]); try contradiction.
  - rel_comp HeatPumpWeight. unfold hp_state. cbn. reflexivity.
  - rel_comp PerfectHeatTransferComp; unfold hp_state; cbn; field; auto.
  - rel_comp PerfectHeatTransferComp; unfold hp_state; cbn; field; auto.
  - intros i Hi. unfold hp_state, writes, reads. cbn. unfold cop. destruct (Req_EM_T (Th - Tc) 0); [contradiction|reflexivity].
  - rel_comp COPHeatPump; unfold hp_state; cbn; reflexivity.
  - rel_comp LinearSelector; unfold hp_state; cbn; reflexivity.
Qed.
Example C49_set_up nn nl c : is_ok (setup (HeatPump nn nl c)) = true.
Proof. destruct nl; reflexivity. Qed.
