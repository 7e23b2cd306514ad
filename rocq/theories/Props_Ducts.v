(** Theorems about ducts (C50, C59, C60). *)
From Coq Require Import Reals List Bool PeanoNat String Lra Lia.
From Verif Require Import Base Py Calc Model_Algebra Model_Vectors Model_Net Proofs_Net Model_Thermal Proofs_Thermal Proofs_Cs
  Model_HX Spec_HX Props_HX Model_Ducts Spec_Ducts Proofs_Ducts.
Import ListNotations.
Open Scope R_scope.
Open Scope string_scope.

(** ** C50 *)
(** Static values recovered from the total values the companion component computes,
    and conversely, are the ones started from. *)
Theorem C50_isentropic_inverse gam E F i : 1 < gam -> F "M" i = E "M" i ->
  (F "Tt" i = vcompute (TotalTemperatureIsentropic gam) E "Tt" i -> vcompute (TemperatureIsentropic gam) F "T" i = E "T" i) /\
  (F "T" i = vcompute (TemperatureIsentropic gam) E "T" i -> vcompute (TotalTemperatureIsentropic gam) F "Tt" i = E "Tt" i) /\
  (F "pt" i = vcompute (TotalPressureIsentropic gam) E "pt" i -> vcompute (PressureIsentropic gam) F "p" i = E "p" i) /\
  (F "p" i = vcompute (PressureIsentropic gam) E "p" i -> vcompute (TotalPressureIsentropic gam) F "pt" i = E "pt" i).
Proof.
  intros G HM. pose proof (isen_pos gam (E "M" i) G) as I. pose proof (Rpower_pos (isen gam (E "M" i)) (gam / (gam - 1))) as Pw.
  assert (N : Rpower (isen gam (E "M" i)) (- gam / (gam - 1)) * Rpower (isen gam (E "M" i)) (gam / (gam - 1)) = 1).
  { rewrite expo_neg, Rpower_Ropp. field. lra. }
  repeat split; intro H.
  - change (F "Tt" i = E "T" i * isen gam (E "M" i)) in H. change (F "Tt" i * / isen gam (F "M" i) = E "T" i). rewrite H, HM. field. lra.
  - change (F "T" i = E "Tt" i * / isen gam (E "M" i)) in H. change (F "T" i * isen gam (F "M" i) = E "Tt" i). rewrite H, HM. field. lra.
  - change (F "pt" i = E "p" i * Rpower (isen gam (E "M" i)) (gam / (gam - 1))) in H.
    change (F "pt" i * Rpower (isen gam (F "M" i)) (- gam / (gam - 1)) = E "p" i). rewrite H, HM, Rmult_assoc, (Rmult_comm (Rpower _ _)), N. ring.
  - change (F "p" i = E "pt" i * Rpower (isen gam (E "M" i)) (- gam / (gam - 1))) in H.
    change (F "p" i * Rpower (isen gam (F "M" i)) (gam / (gam - 1)) = E "pt" i). rewrite H, HM, Rmult_assoc, N. ring.
Qed.
Print Assumptions C50_isentropic_inverse.

(** Total values are never below the static ones and equal them only at rest. *)
Theorem C50_total_above_static gam E i : 1 < gam ->
  let Tt := vcompute (TotalTemperatureIsentropic gam) E "Tt" i in let pt := vcompute (TotalPressureIsentropic gam) E "pt" i in
  (0 < E "T" i -> E "T" i <= Tt /\ (Tt = E "T" i <-> E "M" i = 0)) /\
  (0 < E "p" i -> E "p" i <= pt /\ (pt = E "p" i <-> E "M" i = 0)) /\
  (0 < E "T" i -> 0 < E "p" i -> pt / E "p" i = Rpower (Tt / E "T" i) (gam / (gam - 1))).
Proof.
  intro G. change (vcompute (TotalTemperatureIsentropic gam) E "Tt" i) with (E "T" i * isen gam (E "M" i)).
  change (vcompute (TotalPressureIsentropic gam) E "pt" i) with (E "p" i * Rpower (isen gam (E "M" i)) (gam / (gam - 1))). cbv zeta.
  set (M := E "M" i). set (T := E "T" i). set (p := E "p" i). pose proof (isen_ge gam M G) as I. pose proof (expo_pos gam G) as X.
  assert (I1 : isen gam M = 1 <-> M = 0).
  { unfold isen. split; [|intros ->; ring]. intro H. assert (M * M = 0) by nra. apply Rsqr_0_uniq in H0. exact H0. }
  pose proof (Rpower_ge1 (isen gam M) (gam / (gam - 1)) I ltac:(lra)) as P1.
  assert (P2 : Rpower (isen gam M) (gam / (gam - 1)) = 1 <-> M = 0).
  { rewrite <- I1. split; [|intros ->; apply ratio_one]. intro H. destruct (Req_dec (isen gam M) 1) as [|N]; auto. exfalso.
    assert (L : 1 < Rpower (isen gam M) (gam / (gam - 1))); [|lra]. rewrite <- (Rpower_O (isen gam M)) at 1 by lra. apply Rpower_lt; lra. }
  repeat split.
  - nra.
  - intro. apply I1. nra.
  - intro E0. apply I1 in E0. rewrite E0. ring.
  - nra.
  - intro. apply P2. nra.
  - intro E0. apply P2 in E0. rewrite E0. ring.
  - intros HT Hp. replace (T * isen gam M / T) with (isen gam M) by (field; lra). field. lra.
Qed.
Print Assumptions C50_total_above_static.

(** Speed of sound, density and Mach number. *)
Theorem C50_gas Rg gam E i : 0 < Rg -> 0 < gam ->
  let a := vcompute (SpeedOfSound Rg gam) E "a" i in
  (0 <= E "T" i -> 0 <= a /\ a ^ 2 = gam * Rg * E "T" i) /\ (E "T" i < 0 -> 0 <= a /\ a ^ 2 = gam * Rg * 100) /\
  (E "T" i <> 0 -> vcompute (DensityIdealGas Rg) E "rho" i * Rg * E "T" i = E "p" i) /\
  (E "a" i <> 0 -> vcompute MachNumberfromSpeed E "M" i * E "a" i = E "Utrue" i).
Proof.
  intros HR Hg. change (vcompute (SpeedOfSound Rg gam) E "a" i) with (sqrt (gam * Rg * warm (E "T" i))). cbv zeta.
  change (vcompute (DensityIdealGas Rg) E "rho" i) with (E "p" i / Rg / E "T" i).
  change (vcompute MachNumberfromSpeed E "M" i) with (E "Utrue" i / E "a" i). unfold warm.
  assert (0 < gam * Rg) by nra.
  repeat split; intros; try apply sqrt_pos; try (field; lra); destruct Rlt_dec; try lra; rewrite pow2_sqrt; nra.
Qed.
Print Assumptions C50_gas.

(** A nozzle with total pressure [pt] and exit pressure [r * pt]: the exit Mach number
    lies between 0 and 1, is 1 exactly at and below the critical ratio, falls as the
    exit pressure rises and depends on it without jumps; above the critical ratio the
    static pressure that belongs to it is the exit pressure, below it is higher. *)
Theorem C50_exit_mach gam E i : 1 < gam -> 0 < E "nozzle_pressure_ratio" i <= 1 ->
  let r := E "nozzle_pressure_ratio" i in let M := vcompute (DuctExitMachNumber gam) E "M" i in
  0 <= M <= 1 /\ (M = 1 <-> r <= choking_ratio gam) /\ 0 < choking_ratio gam < 1 /\
  (forall F, F "M" i = M -> 0 < F "pt" i ->
    (choking_ratio gam <= r -> vcompute (PressureIsentropic gam) F "p" i = r * F "pt" i) /\
    (r <= choking_ratio gam -> vcompute (PressureIsentropic gam) F "p" i = choking_ratio gam * F "pt" i)) /\
  (forall F, 0 < F "nozzle_pressure_ratio" i <= r -> M <= vcompute (DuctExitMachNumber gam) F "M" i).
Proof.
  intros G Hr. change (vcompute (DuctExitMachNumber gam) E "M" i) with (exit_mach gam (E "nozzle_pressure_ratio" i)). cbv zeta.
  set (r := E "nozzle_pressure_ratio" i) in *. change (choking_ratio gam) with (critical_ratio gam).
  pose proof (crit_pos gam) as C0. pose proof (crit_lt1 gam G) as C1.
  split; [split; [apply exit_nonneg|now apply exit_le1]|]. split.
  { split; intro H.
    - destruct (Rle_dec r (critical_ratio gam)); auto. pose proof (exit_lt1 gam r G ltac:(lra)). lra.
    - unfold exit_mach. destruct Rle_dec; [reflexivity|contradiction]. }
  split; [lra|]. split.
  - intros F HM Hp. change (vcompute (PressureIsentropic gam) F "p" i) with (F "pt" i * Rpower (isen gam (F "M" i)) (- gam / (gam - 1))).
    rewrite HM. split; intro H.
    + rewrite exit_pressure_matched by lra. ring.
    + replace (exit_mach gam r) with (exit_mach gam (critical_ratio gam)).
      * rewrite exit_pressure_matched by lra. ring.
      * unfold exit_mach. destruct (Rle_dec r _); [|contradiction]. destruct Rle_dec; [reflexivity|lra].
  - intros F HF. change (vcompute (DuctExitMachNumber gam) F "M" i) with (exit_mach gam (F "nozzle_pressure_ratio" i)). apply exit_antitone; lra.
Qed.
Print Assumptions C50_exit_mach.
Theorem C50_exit_mach_continuous gam E i r : 1 < gam -> 0 < r < 1 ->
  continuous (fun t => vcompute (DuctExitMachNumber gam) (updE E "nozzle_pressure_ratio" i t) "M" i) r.
Proof.
  intros G Hr. set (g := fun t => (Rpower t ((1 - gam) / gam) - 1) * 2 / (gam - 1)).
  assert (Cg : continuous g r).
  { apply cont_ex. unfold g. eexists. eapply derive_eq; [|reflexivity].
    apply derive_mulr. apply derive_mulr. apply derive_minus; [apply Rpower_derive; lra|apply derive_const]. }
  assert (EQ : locally r (fun t => sqrt (Rmin 1 (g t)) = vcompute (DuctExitMachNumber gam) (updE E "nozzle_pressure_ratio" i t) "M" i)).
  { assert (L : locally r (fun t => 0 < t < 1)).
    { apply filter_and; [apply (near_gt_c (fun t => t))|apply (near_lt_c (fun t => t))]; try apply cont_ex, ex_derive_id; lra. }
    apply filter_imp with (2 := L). intros t Ht.
    assert (Ev : vcompute (DuctExitMachNumber gam) (updE E "nozzle_pressure_ratio" i t) "M" i = exit_mach gam t).
    { unfold vcompute, nval. cbn [DuctExitMachNumber pc_outs assoc String.eqb Ascii.eqb Bool.eqb]. unfold node.
      cbn [DuctExitMachNumber pc_ins assoc String.eqb Ascii.eqb Bool.eqb]. unfold updE. cbn [String.eqb Ascii.eqb Bool.eqb andb]. rewrite Nat.eqb_refl. reflexivity. }
    rewrite Ev. unfold exit_mach, Rmin. fold (g t). pose proof (crit_pos gam) as C0.
    assert (gc : g (critical_ratio gam) = 1) by (unfold g; rewrite crit_power by auto; field; lra).
    assert (mono : forall a b, 0 < a -> a < b -> g b < g a).
    { intros a b Ha Hab. pose proof (ratio_decreasing gam a b G Ha Hab). unfold g, Rdiv. apply Rmult_lt_compat_r; [apply Rinv_0_lt_compat; lra|lra]. }
    destruct (Rle_dec t (critical_ratio gam)) as [L1|L1].
    - assert (1 <= g t). { destruct (Req_dec t (critical_ratio gam)) as [->|N]; [lra|]. rewrite <- gc. left. apply mono; lra. }
      destruct Rle_dec; [apply sqrt_1|lra].
    - assert (g t < 1) by (rewrite <- gc; apply mono; lra). destruct Rle_dec; [lra|reflexivity]. }
  eapply continuous_ext_loc; [exact EQ|].
  apply (continuous_comp (fun t => Rmin 1 (g t)) sqrt).
  - apply (continuous_ext (fun t => (1 + g t - Rabs (1 - g t)) / 2)).
    { intro t. unfold Rmin, Rabs. destruct Rle_dec, Rcase_abs; lra. }
    apply (continuous_mult (K := R_AbsRing) (fun t => 1 + g t - Rabs (1 - g t)) (fun _ => / 2)); [|apply continuous_const].
    apply (continuous_minus (V := R_NormedModule) (fun t => 1 + g t) (fun t => Rabs (1 - g t))).
    + apply (continuous_plus (V := R_NormedModule) (fun _ => 1) g); [apply continuous_const|exact Cg].
    + apply (continuous_comp (fun t => 1 - g t) Rabs); [|apply continuous_Rabs].
      apply (continuous_minus (V := R_NormedModule) (fun _ => 1) g); [apply continuous_const|exact Cg].
  - apply continuous_sqrt.
Qed.
Print Assumptions C50_exit_mach_continuous.

(** When the components raise: a station exactly when some mass flow is not positive
    or some total pressure exceeds 100 MPa, the nozzle when a pressure ratio is not
    positive. *)
Theorem C50_rejects nn E gam :
  (heat_run nn E = Err ValueError <->
     exists i, (i < nn)%nat /\ (E "mdot" i <= 0 \/ 10 ^ 8 < vcompute HeatAdditionPressureLoss E "pt_out" i)) /\
  (exit_run gam nn E = Err ValueError <-> exists i, (i < nn)%nat /\ E "nozzle_pressure_ratio" i <= 0).
Proof.
  split.
  - unfold heat_run. destruct (nonpos nn (E "mdot")) eqn:N.
    + split; [|reflexivity]. intros _. unfold nonpos, anyb in N. apply existsb_exists in N. destruct N as [i [I H]]. apply in_seq in I.
      exists i. split; [lia|left]. destruct Rle_dec; [assumption|discriminate].
    + rewrite nonpos_false in N. destruct (anyb nn _) eqn:A.
      * split; [|reflexivity]. intros _. unfold anyb in A. apply existsb_exists in A. destruct A as [i [I H]]. apply in_seq in I.
        exists i. split; [lia|right]. destruct (Rlt_dec (10 ^ 8) (vcompute HeatAdditionPressureLoss E "pt_out" i)) as [L|]; [exact L|discriminate].
      * split; [discriminate|]. intros [i [Hi [H|H]]]; [specialize (N i Hi); lra|]. rewrite anyb_false_iff in A. specialize (A i Hi).
        destruct (Rlt_dec (10 ^ 8) (vcompute HeatAdditionPressureLoss E "pt_out" i)) as [L|L]; [discriminate|contradiction].
  - unfold exit_run. destruct (nonpos nn _) eqn:N.
    + split; [|reflexivity]. intros _. unfold nonpos, anyb in N. apply existsb_exists in N. destruct N as [i [I H]]. apply in_seq in I.
      exists i. split; [lia|]. destruct Rle_dec; [assumption|discriminate].
    + rewrite nonpos_false in N. split; [discriminate|]. intros [i [Hi H]]. specialize (N i Hi). lra.
Qed.
Print Assumptions C50_rejects.

(** A converged inlet delivers the total values of the free stream, the pressure
    reduced by the ram recovery factor. *)
Theorem C50_inlet nn V i : setup (Inlet nn) = Ok (Inlet nn) /\
  (solution (Inlet nn) V -> (i < nn)%nat -> 0 < V "T" i -> 0 < V "p" i -> V "totalpressure.eta_ram" i <> 0 ->
   air_stream (V "T" i) (V "p" i) (V "p" i / R_air / V "T" i) (V "a" i) (V "M" i) (V "Utrue" i) (V "Tt" i)
     (V "pt" i / V "totalpressure.eta_ram" i)).
Proof.
  split; [reflexivity|]. intros S Hi HT Hp He. destruct (inlet_facts nn V i S Hi) as [Ea [EM [ET EP]]]. rewrite (warm_pos _ HT) in Ea.
  assert (Q : 0 < air_gam * air_R * V "T" i) by (unfold air_gam, air_R; nra).
  assert (A0 : 0 < V "a" i) by (rewrite Ea; now apply sqrt_lt_R0).
  pose proof (stream_of (V "T" i) (V "p" i) (V "M" i) HT Hp) as St. rewrite <- Ea in St.
  replace (V "M" i * V "a" i) with (V "Utrue" i) in St by (rewrite EM; field; lra). rewrite <- ET in St.
  replace (V "pt" i / V "totalpressure.eta_ram" i) with (V "p" i * Rpower (isen air_gam (V "M" i)) (air_gam / (air_gam - 1))); [exact St|].
  rewrite EP. field. exact He.
Qed.
Print Assumptions C50_inlet.

(** A converged duct station conserves mass and energy, loses the given part of the
    total pressure, and its flow is a stream of air with the outgoing total values. *)
Theorem C50_station nn V i : setup (DuctStation nn) = Ok (DuctStation nn) /\
  (solution (DuctStation nn) V -> (i < nn)%nat -> 0 < V "cp" 0%nat -> 0 < V "area" 0%nat -> 0 < V "Tt_out" i -> 0 < V "pt_out" i ->
   let v := V "mdot" i / (V "rho" i * V "area" 0%nat) in
   air_stream (V "T" i) (V "p" i) (V "rho" i) (V "a" i) (V "M" i) v (V "Tt_out" i) (V "pt_out" i) /\
   V "cp" 0%nat * V "mdot" i * (V "Tt_out" i - V "Tt_in" i) = V "heat_in" i /\
   V "pt_out" i = V "pt_in" i * V "pressure_recovery" i - V "dynamic_pressure_loss_factor" 0%nat * (V "rho" i * v ^ 2 / 2) + V "delta_p" i /\
   0 < V "mdot" i /\ V "pt_out" i <= 10 ^ 8).
Proof.
  split; [reflexivity|]. intros S Hi Hc HA HT Hp. destruct (station_facts nn V i S Hi) as [Hm [H8 [E1 [E2 [E3 [E4 [E5 [E6 E7]]]]]]]]. cbv zeta.
  pose proof (stream_from_total (V "Tt_out" i) (V "pt_out" i) (V "M" i) _ _ _ _ HT Hp E3 E4 E5 E6) as St.
  assert (R0 : 0 < V "rho" i).
  { rewrite E5. destruct St. apply quot_pos; [apply quot_pos; [assumption|unfold air_R; lra]|assumption]. }
  replace (V "mdot" i / (V "rho" i * V "area" 0%nat)) with (V "M" i * V "a" i).
  2:{ replace (V "mdot" i) with (V "M" i * V "a" i * V "area" 0%nat * V "rho" i) by lra. field. lra. }
  split; [exact St|]. split; [rewrite E1; field; lra|]. split; [|auto].
  rewrite E2. replace (V "M" i * V "a" i) with (V "mdot" i / (V "rho" i * V "area" 0%nat)).
  2:{ replace (V "mdot" i) with (V "M" i * V "a" i * V "area" 0%nat * V "rho" i) by lra. field. lra. }
  field. lra.
Qed.
Print Assumptions C50_station.
(** The subsonic state of a station is determined by its inputs (there is a second,
    supersonic one); shown for the default loss factor 0. *)
Theorem C50_station_unique nn V V' i : solution (DuctStation nn) V -> solution (DuctStation nn) V' -> (i < nn)%nat ->
  (forall x j, In x ["Tt_in"; "pt_in"; "mdot"; "area"; "delta_p"; "dynamic_pressure_loss_factor"; "pressure_recovery"; "heat_in"; "cp"] -> V' x j = V x j) ->
  V "dynamic_pressure_loss_factor" 0%nat = 0 -> 0 < V "area" 0%nat -> 0 < V "Tt_out" i -> 0 < V "pt_out" i ->
  0 < V "M" i <= 1 -> 0 < V' "M" i <= 1 ->
  forall x, In x ["Tt_out"; "pt_out"; "T"; "p"; "rho"; "a"; "M"] -> V' x i = V x i.
Proof.
  intros S S' Hi Hx HK HA HT Hp HM HM'.
  destruct (station_facts nn V i S Hi) as [Hm [_ [E1 [E2 [E3 [E4 [E5 [E6 E7]]]]]]]].
  destruct (station_facts nn V' i S' Hi) as [_ [_ [F1 [F2 [F3 [F4 [F5 [F6 F7]]]]]]]].
  assert (X : forall x j, In x ["Tt_in"; "pt_in"; "mdot"; "area"; "delta_p"; "dynamic_pressure_loss_factor"; "pressure_recovery"; "heat_in"; "cp"] -> V' x j = V x j) by exact Hx. clear Hx.
  rewrite !(X "Tt_in") , !(X "heat_in"), !(X "cp"), !(X "mdot") in F1 by (cbn; tauto).
  rewrite !(X "pt_in") , !(X "pressure_recovery"), !(X "delta_p"), !(X "mdot"), !(X "area"), !(X "dynamic_pressure_loss_factor"), HK in F2 by (cbn; tauto).
  rewrite HK in E2. rewrite !(X "mdot"), !(X "area") in F7 by (cbn; tauto). clear X.
  assert (Q1 : V' "Tt_out" i = V "Tt_out" i) by (rewrite F1, E1; reflexivity).
  assert (Q2 : V' "pt_out" i = V "pt_out" i) by (rewrite F2, E2; ring). rewrite Q1 in F3. rewrite Q2 in F4.
  assert (G : 1 < air_gam) by (unfold air_gam; lra).
  assert (SQ : forall M T p rho a, T = V "Tt_out" i * / isen air_gam M -> p = V "pt_out" i * Rpower (isen air_gam M) (- air_gam / (air_gam - 1)) ->
    rho = p / air_R / T -> a = sqrt (air_gam * air_R * warm T) -> V "mdot" i - M * a * V "area" 0%nat * rho = 0 ->
    V "mdot" i ^ 2 = (air_gam / air_R * V "pt_out" i ^ 2 / V "Tt_out" i * V "area" 0%nat ^ 2) * (M / isen air_gam M ^ 3) ^ 2).
  { intros M T p rho a H1 H2 H3 H4 H5. pose proof (isen_pos air_gam M G) as I.
    assert (T0 : 0 < T) by (rewrite H1; apply Rmult_lt_0_compat; [auto|now apply Rinv_0_lt_compat]).
    rewrite (warm_pos T T0) in H4. assert (A2 : a ^ 2 = air_gam * air_R * T) by (rewrite H4, pow2_sqrt; [reflexivity|unfold air_gam, air_R; nra]).
    assert (P2 : Rpower (isen air_gam M) (- air_gam / (air_gam - 1)) ^ 2 = / isen air_gam M ^ 7).
    { rewrite <- Rpower_pow by apply Rpower_pos. rewrite Rpower_mult.
      replace (- air_gam / (air_gam - 1) * INR 2) with (- INR 7) by (unfold air_gam; simpl; field). rewrite Rpower_Ropp, Rpower_pow by exact I. reflexivity. }
    replace (V "mdot" i) with (M * a * V "area" 0%nat * rho) by lra.
    replace ((M * a * V "area" 0%nat * rho) ^ 2) with (M ^ 2 * a ^ 2 * V "area" 0%nat ^ 2 * rho ^ 2) by ring. rewrite A2, H3, H2.
    replace ((V "pt_out" i * Rpower (isen air_gam M) (- air_gam / (air_gam - 1)) / air_R / T) ^ 2) with
      (V "pt_out" i ^ 2 * Rpower (isen air_gam M) (- air_gam / (air_gam - 1)) ^ 2 / air_R ^ 2 / T ^ 2) by (field; unfold air_R; lra).
    rewrite P2, H1. field. unfold air_R. repeat split; try lra. }
  pose proof (SQ _ _ _ _ _ E3 E4 E5 E6 E7) as W1. pose proof (SQ _ _ _ _ _ F3 F4 F5 F6 F7) as W2. rewrite W1 in W2. clear SQ W1.
  assert (K0 : 0 < air_gam / air_R * V "pt_out" i ^ 2 / V "Tt_out" i * V "area" 0%nat ^ 2).
  { apply Rmult_lt_0_compat; [|now apply pow_lt]. apply quot_pos; auto. apply Rmult_lt_0_compat; [unfold air_gam, air_R; lra|now apply pow_lt]. }
  apply Rmult_eq_reg_l in W2; [|lra].
  pose proof (isen_pos air_gam (V "M" i) G) as I1. pose proof (isen_pos air_gam (V' "M" i) G) as I2.
  assert (MM : V' "M" i = V "M" i).
  { set (m := V "M" i) in *. set (m' := V' "M" i) in *.
    assert (B1 : 0 < m / isen air_gam m ^ 3) by (apply quot_pos; [lra|now apply pow_lt]).
    assert (B2 : 0 < m' / isen air_gam m' ^ 3) by (apply quot_pos; [lra|now apply pow_lt]).
    assert (W : m / isen air_gam m ^ 3 = m' / isen air_gam m' ^ 3) by nra.
    assert (W3 : m * isen air_gam m' ^ 3 = m' * isen air_gam m ^ 3).
    { apply (f_equal (fun z => z * (isen air_gam m ^ 3 * isen air_gam m' ^ 3))) in W.
      transitivity (m / isen air_gam m ^ 3 * (isen air_gam m ^ 3 * isen air_gam m' ^ 3)); [field; lra|]. rewrite W. field. lra. }
    assert (key : forall x y, 0 < x -> x < y -> y <= 1 -> x * isen air_gam y ^ 3 <> y * isen air_gam x ^ 3).
    { intros x y Hx Hxy Hy H. unfold isen, air_gam in H.
      assert (Z : (y - x) * (1 - x * y * (6/10 + 12/100 * (x^2 + x*y + y^2) + 8/1000 * (x^4 + x^3*y + x^2*y^2 + x*y^3 + y^4))) = 0).
      { replace ((14 / 10 - 1) / 2) with (2/10) in H by field. apply (f_equal Ropp) in H. lra. }
      apply Rmult_integral in Z. destruct Z as [Z|Z]; [lra|].
      assert (X0 : 0 < x < 1) by lra. assert (Y0 : 0 < y <= 1) by lra.
      assert (XY : 0 < x * y < 1) by nra.
      assert (p1 : x ^ 2 <= 1) by nra. assert (p2 : y ^ 2 <= 1) by nra. assert (p1' : 0 <= x ^ 2) by nra. assert (p2' : 0 <= y ^ 2) by nra.
      assert (s2 : x ^ 2 + x * y + y ^ 2 <= 3) by lra.
      assert (q1 : x ^ 4 <= 1) by (replace (x ^ 4) with (x ^ 2 * x ^ 2) by ring; nra).
      assert (q5 : y ^ 4 <= 1) by (replace (y ^ 4) with (y ^ 2 * y ^ 2) by ring; nra).
      assert (q2 : x ^ 3 * y <= 1) by (replace (x ^ 3 * y) with (x ^ 2 * (x * y)) by ring; nra).
      assert (q3 : x ^ 2 * y ^ 2 <= 1) by nra.
      assert (q4 : x * y ^ 3 <= 1) by (replace (x * y ^ 3) with (y ^ 2 * (x * y)) by ring; nra).
      set (s := 6/10 + 12/100 * (x^2 + x*y + y^2) + 8/1000 * (x^4 + x^3*y + x^2*y^2 + x*y^3 + y^4)) in *.
      assert (s <= 1) by (unfold s; lra). nra. }
    destruct (Rtotal_order m m') as [L|[L|L]]; [|auto|].
    - exfalso. apply (key m m'); lra.
    - exfalso. apply (key m' m); lra. }
  rewrite MM in *. rewrite <- E3 in F3. rewrite <- E4 in F4. rewrite F3, F4, <- E5 in F5. rewrite F3, <- E6 in F6.
  intros x [<-|[<-|[<-|[<-|[<-|[<-|[<-|[]]]]]]]]; auto.
Qed.
Print Assumptions C50_station_unique.

(** A converged nozzle that does not draw air in: subsonic or choked, at the exit
    pressure unless choked, never below it; the mass flow is that of the stream. *)
Theorem C50_nozzle nn V i : setup (OutletNozzle nn) = Ok (OutletNozzle nn) /\
  (solution (OutletNozzle nn) V -> (i < nn)%nat -> 0 < V "area" i -> 0 < V "Tt" i -> 0 < V "p_exit" i <= V "pt" i ->
   air_stream (V "T" i) (V "p" i) (V "rho" i) (V "a" i) (V "M" i) (V "mdot_actual" i / (V "rho" i * V "area" i)) (V "Tt" i) (V "pt" i) /\
   0 <= V "M" i <= 1 /\ (V "M" i = 1 <-> V "p_exit" i <= choking_ratio gamma_air * V "pt" i) /\
   (V "M" i < 1 -> V "p" i = V "p_exit" i) /\ V "p_exit" i <= V "p" i).
Proof.
  split; [reflexivity|]. intros S Hi HA HT Hp. destruct (nozzle_facts nn V i S Hi) as [_ [Er [R0 [EM [ET [Ep [Erho [Ea Em]]]]]]]].
  assert (P0 : 0 < V "pt" i) by lra. pose proof (stream_from_total _ _ _ _ _ _ _ HT P0 ET Ep Erho Ea) as St.
  assert (rho0 : 0 < V "rho" i). { rewrite Erho. destruct St. apply quot_pos; [apply quot_pos; [assumption|unfold air_R; lra]|assumption]. }
  replace (V "mdot_actual" i / (V "rho" i * V "area" i)) with (V "M" i * V "a" i) by (rewrite Em; field; lra).
  split; [exact St|]. set (r := V "nozzle_pressure_ratio" i) in *. assert (Rr : r * V "pt" i = V "p_exit" i).
  { replace r with (V "p_exit" i / V "pt" i) by lra. field. lra. }
  assert (R1 : r <= 1) by nra.
  destruct (C50_exit_mach air_gam V i ltac:(unfold air_gam; lra) (conj R0 R1)) as [B [Ch [Cr [Pr _]]]]. cbv zeta in *.
  change (vcompute (DuctExitMachNumber air_gam) V "M" i) with (exit_mach air_gam r) in *. rewrite <- EM in *.
  destruct (Pr V eq_refl P0) as [P1 P2]. change (vcompute (PressureIsentropic air_gam) V "p" i) with (V "pt" i * Rpower (isen air_gam (V "M" i)) (- air_gam / (air_gam - 1))) in *.
  rewrite <- Ep in *. fold r in P1, P2, Ch. change gamma_air with air_gam. split; [exact B|].
  split. { rewrite Ch. rewrite <- Rr. split; intro; nra. }
  split.
  - intro L. rewrite P1; [exact Rr|]. destruct (Rle_dec r (choking_ratio air_gam)) as [Q|Q]; [|lra]. apply Ch in Q. lra.
  - destruct (Rle_dec r (choking_ratio air_gam)) as [Q|Q]; [rewrite P2 by auto|rewrite P1 by lra]; nra.
Qed.
Print Assumptions C50_nozzle.

(** Supplied partials; the exit Mach number has a kink at the critical ratio. *)
Theorem C50_partials n E : (0 < n)%nat ->
  (forall gam, 1 < gam -> jac_correct n (TemperatureIsentropic gam) E /\ jac_correct n (TotalTemperatureIsentropic gam) E /\
     jac_correct n (PressureIsentropic gam) E /\ jac_correct n (TotalPressureIsentropic gam) E) /\
  (forall Rg gam, 0 < Rg -> 0 < gam -> (forall i, (i < n)%nat -> 0 < E "T" i) ->
     jac_correct n (DensityIdealGas Rg) E /\ jac_correct n (SpeedOfSound Rg gam) E) /\
  ((forall i, (i < n)%nat -> E "a" i <> 0) -> jac_correct n MachNumberfromSpeed E) /\
  (E "cp" 0%nat <> 0 -> E "area" 0%nat <> 0 -> (forall i, (i < n)%nat -> E "mdot" i <> 0) -> (forall i, (i < n)%nat -> E "rho" i <> 0) ->
     jac_correct n HeatAdditionPressureLoss E) /\
  ((forall i, (i < n)%nat -> E "area" i <> 0) -> (forall i, (i < n)%nat -> E "rho" i <> 0) -> jac_correct n NozzlePressureLoss E) /\
  jac_correct n MassFlow E /\ jac_correct n MachNumberDuct E /\ jac_correct n FlowMatcher E /\ jac_correct n ram_recovery E /\
  ((forall i, (i < n)%nat -> E "pt" i <> 0) -> jac_correct n DuctExitPressureRatioImplicit E) /\
  (forall gam, 1 < gam -> (forall i, (i < n)%nat -> 0 < E "nozzle_pressure_ratio" i < 1 /\ E "nozzle_pressure_ratio" i <> choking_ratio gam) ->
     jac_correct n (DuctExitMachNumber gam) E) /\
  (forall cfg, (forall i, (i < n)%nat -> E "area_nozzle" i <> 0) -> (forall i, (i < n)%nat -> E "rho_nozzle" i <> 0) -> jac_correct n (NetForce cfg) E).
Proof.
  intro Hn. repeat match goal with |- _ /\ _ => split end; intros; repeat match goal with |- _ /\ _ => split end.
  - now apply tisen_jac.
  - now apply ttisen_jac.
  - now apply pisen_jac.
  - now apply ptisen_jac.
  - apply rho_jac; auto; [lra|]. intros i Hi. specialize (H1 i Hi). lra.
  - now apply sound_jac.
  - now apply machU_jac.
  - now apply heat_jac.
  - now apply loss_jac.
  - now apply massflow_jac.
  - now apply machduct_jac.
  - now apply matcher_jac.
  - now apply ram_jac.
  - now apply npr_jac.
  - now apply exit_jac.
  - now apply force_jac.
Qed.
Print Assumptions C50_partials.
(** Below 0 K the speed of sound is held at its value for 100 K, but the supplied
    partial is that of 100 K instead of zero. *)
Theorem C50_sound_partial_refuted Rg gam E : 0 < Rg -> 0 < gam -> E "T" 0%nat < 0 -> ~ jac_correct 1 (SpeedOfSound Rg gam) E.
Proof.
  intros HR Hg HT J. specialize (J "a" Vec _ "T" Vec 0%nat 0%nat eq_refl eq_refl ltac:(simpl; lia) ltac:(simpl; lia)).
  assert (D0 : is_derive (fun t => vcompute (SpeedOfSound Rg gam) (updE E "T" 0 t) "a" 0) (E "T" 0%nat) 0).
  { apply (derive_near (fun _ => sqrt (gam * Rg * 100)) _ (fun t => t < 0)).
    - apply (near_lt_c (fun t => t)); [apply cont_ex, ex_derive_id|exact HT].
    - intros t Ht. change (sqrt (gam * Rg * 100) = sqrt (gam * Rg * warm t)). unfold warm. destruct Rlt_dec; [reflexivity|lra].
    - apply derive_const. }
  assert (U := is_derive_unique _ _ _ J). rewrite (is_derive_unique _ _ _ D0) in U.
  change (0 = (1/2) * sqrt (gam * Rg) / sqrt (warm (E "T" 0%nat))) in U. unfold warm in U. destruct Rlt_dec; [|lra].
  assert (0 < (1/2) * sqrt (gam * Rg) / sqrt 100).
  { apply quot_pos; [|apply sqrt_lt_R0; lra]. apply Rmult_lt_0_compat; [lra|]. apply sqrt_lt_R0. now apply Rmult_lt_0_compat. }
  lra.
Qed.
Print Assumptions C50_sound_partial_refuted.

(** ** C60 *)
(** The incompressible duct: where the energy of the stream exceeds the pressure drop
    (a drop is a negative [delta_p_hex]), speed at the nozzle follows from Bernoulli's
    equation with losses; the drag is the momentum given up. *)
Theorem C60_bernoulli loss cfg E i : -1 < loss -> 0 < E "fltcond|rho" i -> 0 < E "area_nozzle" i ->
  let rho := E "fltcond|rho" i in let U := E "fltcond|Utrue" i in let dp := E "delta_p_hex" i in
  let mdot := vcompute (ExplicitIncompressibleDuct loss cfg) E "mdot" i in
  let v := mdot / (rho * E "area_nozzle" i) in
  0 <= rho * U ^ 2 / 2 + dp ->
  0 <= v /\ (1 + loss) * (rho * v ^ 2 / 2) = rho * U ^ 2 / 2 + dp /\
  vcompute (ExplicitIncompressibleDuct loss cfg) E "drag" i = mdot * (U - cfg * v) /\
  (dp <= 0 -> 0 <= loss -> 0 <= U -> 0 <= cfg <= 1 -> v <= U /\ 0 <= vcompute (ExplicitIncompressibleDuct loss cfg) E "drag" i).
Proof.
  intros Hl Hr HA. set (m := unspurious (E "area_nozzle" i * sqrt (unspurious (duct_interior loss (E "fltcond|rho" i) (E "fltcond|Utrue" i) (E "delta_p_hex" i))))).
  change (vcompute (ExplicitIncompressibleDuct loss cfg) E "mdot" i) with m.
  change (vcompute (ExplicitIncompressibleDuct loss cfg) E "drag" i) with (m * (E "fltcond|Utrue" i - cfg * m / E "area_nozzle" i / E "fltcond|rho" i)). cbv zeta.
  set (rho := E "fltcond|rho" i) in *. set (U := E "fltcond|Utrue" i) in *. set (dp := E "delta_p_hex" i) in *. set (A := E "area_nozzle" i) in *.
  intro H. assert (I0 : 0 <= duct_interior loss rho U dp).
  { unfold duct_interior. apply Rmult_le_pos; [|left; apply Rinv_0_lt_compat; lra]. nra. }
  assert (Em : m = A * sqrt (duct_interior loss rho U dp)).
  { unfold m. unfold unspurious at 2. destruct Rlt_dec; [lra|]. unfold unspurious. pose proof (sqrt_pos (duct_interior loss rho U dp)). destruct Rlt_dec; [nra|reflexivity]. }
  clearbody m. set (s := sqrt (duct_interior loss rho U dp)) in *. assert (s0 : 0 <= s) by apply sqrt_pos.
  assert (s2 : s ^ 2 = duct_interior loss rho U dp) by (unfold s; now rewrite pow2_sqrt).
  assert (Ev : m / (rho * A) = s / rho) by (rewrite Em; field; lra).
  assert (v0 : 0 <= s / rho) by (apply Rmult_le_pos; [auto|left; now apply Rinv_0_lt_compat]).
  assert (B : (1 + loss) * (rho * (s / rho) ^ 2 / 2) = rho * U ^ 2 / 2 + dp).
  { replace (rho * (s / rho) ^ 2) with (s ^ 2 / rho) by (field; lra). rewrite s2. unfold duct_interior. field. lra. }
  rewrite Ev. set (v := s / rho) in *. split; [exact v0|]. split; [exact B|].
  assert (Dr : m * (U - cfg * m / A / rho) = m * (U - cfg * v)) by (unfold v; rewrite Em; field; lra).
  split; [exact Dr|]. intros Hdp Hl0 HU Hc. assert (VU : v <= U). { assert (rho * v ^ 2 <= rho * U ^ 2) by nra. assert (v ^ 2 <= U ^ 2) by (apply (Rmult_le_reg_l rho); lra). nra. }
  split; [exact VU|]. rewrite Dr, Em. apply Rmult_le_pos; [nra|]. nra.
Qed.
Print Assumptions C60_bernoulli.
(** Otherwise a small positive mass flow is reported, so the result is never negative
    and no square root fails. *)
Theorem C60_stalled loss cfg E i : 
  let mdot := vcompute (ExplicitIncompressibleDuct loss cfg) E "mdot" i in
  0 <= mdot /\
  (-1 < loss -> 0 < E "area_nozzle" i -> E "fltcond|rho" i * (E "fltcond|rho" i * E "fltcond|Utrue" i ^ 2 / 2 + E "delta_p_hex" i) < 0 ->
   mdot = E "area_nozzle" i / 10 ^ 5).
Proof.
  set (m := unspurious (E "area_nozzle" i * sqrt (unspurious (duct_interior loss (E "fltcond|rho" i) (E "fltcond|Utrue" i) (E "delta_p_hex" i))))).
  change (vcompute (ExplicitIncompressibleDuct loss cfg) E "mdot" i) with m. cbv zeta. split.
  - unfold m, unspurious. destruct Rlt_dec; [|lra]. assert (0 < 10 ^ 10) by (apply pow_lt; lra). unfold Rdiv. rewrite Rmult_1_l. left. now apply Rinv_0_lt_compat.
  - intros Hl HA Hn. unfold m. assert (L : duct_interior loss (E "fltcond|rho" i) (E "fltcond|Utrue" i) (E "delta_p_hex" i) < 0).
    { unfold duct_interior. assert (0 < / (1 + loss)) by (apply Rinv_0_lt_compat; lra). unfold Rdiv in *. nra. }
    unfold unspurious at 2. destruct Rlt_dec; [|lra].
    replace (1 / 10 ^ 10) with ((/ 10 ^ 5) ^ 2) by (field). rewrite sqrt_pow2 by (left; apply Rinv_0_lt_compat, pow_lt; lra).
    unfold unspurious. assert (0 < / 10 ^ 5) by (apply Rinv_0_lt_compat, pow_lt; lra). destruct Rlt_dec; [nra|reflexivity].
Qed.
Print Assumptions C60_stalled.
Theorem C60_partials n E loss cfg : (0 < n)%nat -> -1 < loss ->
  (forall i, (i < n)%nat -> 0 < E "area_nozzle" i) -> (forall i, (i < n)%nat -> E "fltcond|rho" i <> 0) ->
  (forall i, (i < n)%nat -> 0 < E "fltcond|rho" i ^ 2 * E "fltcond|Utrue" i ^ 2 + 2 * E "fltcond|rho" i * E "delta_p_hex" i) ->
  jac_correct n (ExplicitIncompressibleDuct loss cfg) E.
Proof. intros. now apply incomp_jac. Qed.
Print Assumptions C60_partials.
Example C60_met : let E : env := fun x _ => if String.eqb x "fltcond|Utrue" then 60 else if String.eqb x "delta_p_hex" then -500 else if String.eqb x "area_nozzle" then 1/10 else 1 in
  0 < E "fltcond|rho" 0%nat /\ 0 < E "area_nozzle" 0%nat /\ 0 <= E "fltcond|rho" 0%nat * E "fltcond|Utrue" 0%nat ^ 2 / 2 + E "delta_p_hex" 0%nat /\
  0 < E "fltcond|rho" 0%nat ^ 2 * E "fltcond|Utrue" 0%nat ^ 2 + 2 * E "fltcond|rho" 0%nat * E "delta_p_hex" 0%nat.
Proof. cbn. lra. Qed.

(** ** C59 *)
Theorem C59_setup nn cfg :
  setup (ImplicitCompressibleDuct nn cfg) = Ok (ImplicitCompressibleDuct nn cfg) /\
  setup (ImplicitCompressibleDuct_ExternalHX nn cfg) = Ok (ImplicitCompressibleDuct_ExternalHX nn cfg).
Proof. split; reflexivity. Qed.
Print Assumptions C59_setup.

(** Energy: from free stream to nozzle the air's total enthalpy changes by the heat
    added at the stations; mass: the same flow passes every section. *)
Definition flow_through (V : env) (i : nat) (sta area : string) (k : nat) : R :=
  V (String.append sta ".rho") i * (V (String.append sta ".M") i * V (String.append sta ".a") i) * V area k.
Theorem C59_conservation nn cfg V i : (i < nn)%nat -> V "cp" 0%nat <> 0 ->
  (solution (ImplicitCompressibleDuct nn cfg) V ->
   V "cp" 0%nat * V "mdot" i * (V "sta3.Tt_out" i - V "inlet.Tt" i) = V "heat_in_1" i + V "heat_in_2" i + V "hx.heat_transfer" i /\
   0 < V "mdot" i /\ flow_through V i "sta1" "area_1" 0 = V "mdot" i /\ flow_through V i "sta2" "hx.frontal_area" 0 = V "mdot" i /\
   flow_through V i "sta3" "hx.frontal_area" 0 = V "mdot" i /\ flow_through V i "nozzle" "area_nozzle" i = V "mdot" i) /\
  (solution (ImplicitCompressibleDuct_ExternalHX nn cfg) V ->
   V "cp" 0%nat * V "mdot" i * (V "sta3.Tt_out" i - V "inlet.Tt" i) = V "heat_in_1" i + V "heat_in_2" i + V "sta3.heat_in" i /\
   0 < V "mdot" i /\ flow_through V i "sta1" "area_1" 0 = V "mdot" i /\ flow_through V i "sta2" "area_2" 0 = V "mdot" i /\
   flow_through V i "sta3" "area_3" 0 = V "mdot" i /\ flow_through V i "nozzle" "area_nozzle_in" i = V "mdot" i).
Proof.
  intros Hi Hc.
  assert (K : forall dp3 q3 a2 a3, duct_eqs cfg V i dp3 q3 a2 a3 ->
    V "cp" 0%nat * V "mdot" i * (V "sta3.Tt_out" i - V "inlet.Tt" i) = V "heat_in_1" i + V "heat_in_2" i + V q3 i /\
    0 < V "mdot" i /\ flow_through V i "sta1" "area_1" 0 = V "mdot" i /\ flow_through V i "sta2" a2 0 = V "mdot" i /\
    flow_through V i "sta3" a3 0 = V "mdot" i /\ flow_through V i "nozzle" "area_nozzle" i = V "mdot" i).
  { intros dp3 q3 a2 a3 D. destruct (d_1 _ _ _ _ _ _ _ D) as [Hm [_ [T1 [_ [_ [_ [_ [_ F1]]]]]]]].
    destruct (d_2 _ _ _ _ _ _ _ D) as [_ [_ [T2 [_ [_ [_ [_ [_ F2]]]]]]]]. destruct (d_3 _ _ _ _ _ _ _ D) as [_ [_ [T3 [_ [_ [_ [_ [_ F3]]]]]]]].
    destruct (d_n _ _ _ _ _ _ _ D) as [_ [_ [_ [_ [_ [_ [_ [_ Fn]]]]]]]]. pose proof (d_match _ _ _ _ _ _ _ D) as Mt.
    unfold flow_through. cbn [String.append] in *. repeat split; try lra. rewrite T3, T2, T1. field. lra. }
  split; intro S; [exact (K _ _ _ _ (duct_eqs_hx nn cfg V i S Hi))|].
  assert (E : V "area_nozzle" i = V "area_nozzle_in" i).
  { exact (sol_rel _ _ _ S (or_intror (or_introl eq_refl)) "area_nozzle_in" "area_nozzle" (or_introl eq_refl) i). }
  pose proof (K _ _ _ _ (duct_eqs_ext nn cfg V i S Hi)) as R. unfold flow_through in R |- *. rewrite E in R. exact R.
Qed.
Print Assumptions C59_conservation.

(** The heat exchanger inside the duct works with the duct's own air. *)
Theorem C59_heat_exchanger nn cfg V : solution (ImplicitCompressibleDuct nn cfg) V ->
  exists W, solution (HXGroup nn) W /\
    forall x i, In x (free_ins (HXGroup nn)) \/ In x (group_outs (HXGroup nn)) -> W x i = V (hx_in_duct x) i.
Proof.
  intro S. destruct (sol_nested (ImplicitCompressibleDuct nn cfg) V "hx" (HXGroup nn) _ _ _ _ S ltac:(do 5 right; left; reflexivity)) as [W [SW [HI HO]]].
  exists W. split; [exact SW|]. intros x i [H|H].
  - rewrite HI by exact H. f_equal. pattern x.
    revert x H. apply List.Forall_forall. cbv [free_ins]. apply List.Forall_forall. intros x H.
    assert (A : forallb (fun x => String.eqb (source (ImplicitCompressibleDuct nn cfg) (gname "hx" [As "mdot_cold" "mdot"; P "mdot_hot"; P "T_in_hot"; P "rho_hot"; P "ac|propulsion|thermal|hx|n_wide_cold"] x)) (hx_in_duct x)) (free_ins (HXGroup nn)) = true) by reflexivity.
    rewrite forallb_forall in A. specialize (A x H). now apply String.eqb_eq in A.
  - rewrite HO by exact H. f_equal.
    assert (A : forallb (fun x => String.eqb (gname "hx" [P "T_out_hot"] x) (hx_in_duct x)) (group_outs (HXGroup nn)) = true) by reflexivity.
    rewrite forallb_forall in A. specialize (A x H). now apply String.eqb_eq in A.
Qed.
Print Assumptions C59_heat_exchanger.
Lemma hx_positive_in nn V W : (forall x i, In x (free_ins (HXGroup nn)) \/ In x (group_outs (HXGroup nn)) -> W x i = V (hx_in_duct x) i) ->
  hx_positive nn (fun x => V (hx_in_duct x)) -> hx_positive nn W.
Proof.
  intros A [P1 P2]. split.
  - intros x Hx. rewrite A; [now apply P1|]. left.
    assert (F : forallb (fun x => mem x (free_ins (HXGroup nn))) hx_scalars = true) by reflexivity.
    rewrite forallb_forall in F. apply mem_In. now apply F.
  - intros x i Hx Hi. rewrite A; [now apply P2|]. left.
    assert (F : forallb (fun x => mem x (free_ins (HXGroup nn))) hx_flows = true) by reflexivity.
    rewrite forallb_forall in F. apply mem_In. now apply F.
Qed.
(** Hence the heat the air takes up is the heat the hot liquid gives off, the liquid
    leaves at a temperature between its own and the air's, and the air loses pressure. *)
Theorem C59_cooling nn cfg V i : solution (ImplicitCompressibleDuct nn cfg) V -> (i < nn)%nat -> 0 < V "cp" 0%nat ->
  hx_positive nn (fun x => V (hx_in_duct x)) ->
  V "cp" 0%nat * V "mdot" i * (V "sta3.Tt_out" i - V "sta2.Tt_out" i) = V "mdot_hot" i * V "hx.cp_hot" 0%nat * (V "T_in_hot" i - V "T_out_hot" i) /\
  between (V "sta2.T" i) (V "T_in_hot" i) (V "T_out_hot" i) /\
  (V "sta2.T" i < V "T_in_hot" i <-> V "sta2.Tt_out" i < V "sta3.Tt_out" i) /\
  V "hx.delta_p_cold" i < 0.
Proof.
  intros S Hi Hc Hp. destruct (C59_heat_exchanger nn cfg V S) as [W [SW A]]. pose proof (hx_positive_in nn V W A Hp) as PW.
  destruct (C51_heat_balance nn W i SW PW Hi) as [_ [_ [_ H4]]]. destruct (C51_second_law nn W i SW PW Hi) as [_ [B [Sg _]]].
  destruct (C51_pressure_drop nn W i SW PW Hi) as [[_ Dp] _]. cbv zeta in *.
  rewrite (A "T_in_cold" i ltac:(left; inl)) in *. rewrite (A "T_in_hot" i ltac:(left; inl)) in *. rewrite (A "T_out_hot" i ltac:(right; inl)) in *.
  rewrite (A "mdot_hot" i ltac:(left; inl)) in *. rewrite (A "cp_hot" 0%nat ltac:(left; inl)) in *. rewrite (A "heat_transfer" i ltac:(right; inl)) in *.
  rewrite (A "delta_p_cold" i ltac:(right; inl)) in *. cbn in H4, B, Sg, Dp.
  destruct (d_3 _ _ _ _ _ _ _ (duct_eqs_hx nn cfg V i S Hi)) as [Hm [_ [T3 _]]]. cbn [String.append] in T3.
  assert (E : V "cp" 0%nat * V "mdot" i * (V "sta3.Tt_out" i - V "sta2.Tt_out" i) = V "hx.heat_transfer" i) by (rewrite T3; field; lra).
  split; [rewrite E; symmetry; exact H4|]. split; [exact B|]. split; [|exact Dp]. rewrite Sg, <- E.
  assert (X : 0 < V "cp" 0%nat * V "mdot" i) by (now apply Rmult_lt_0_compat). set (k := V "cp" 0%nat * V "mdot" i) in *. clearbody k. split; intro; nra.
Qed.
Print Assumptions C59_cooling.

(** What makes the air in the duct lose, or at least not gain, total pressure and
    temperature; [dp3], [q3] name the pressure change and heat of the third station. *)
Definition no_gain (V : env) (i : nat) (q3 : string) : Prop :=
  0 < V "inlet.totalpressure.eta_ram" i <= 1 /\
  0 <= V "pressure_recovery_1" i <= 1 /\ 0 <= V "pressure_recovery_2" i <= 1 /\ 0 <= V "pressure_recovery_3" i <= 1 /\
  V "delta_p_1" i <= 0 /\ V "delta_p_2" i <= 0 /\
  0 <= V "loss_factor_1" 0%nat /\ 0 <= V "sta2.dynamic_pressure_loss_factor" 0%nat /\ 0 <= V "sta3.dynamic_pressure_loss_factor" 0%nat /\
  0 <= V "nozzle.dynamic_pressure_loss_factor" 0%nat /\
  V "heat_in_1" i + V "heat_in_2" i + V q3 i <= 0.
(** The state is physical, the flight is subsonic and the exit at ambient pressure. *)
Definition subsonic_flight (V : env) (i : nat) : Prop :=
  0 < V "T_inf" i /\ 0 < V "p_inf" i /\ 0 <= V "Utrue" i /\ V "Utrue" i ^ 2 <= gamma_air * R_air * V "T_inf" i /\
  V "convergence_hack" 0%nat = 0 /\ V "p_inf" i <= V "nozzle.pt" i.
Definition physical_duct (V : env) (i : nat) : Prop :=
  0 < V "cp" 0%nat /\ (forall s, In s ["sta1"; "sta2"; "sta3"] -> 0 < V (String.append s ".Tt_out") i /\ 0 < V (String.append s ".pt_out") i).

Lemma no_gain_thrust cfg V i dp3 q3 a2 a3 : duct_eqs cfg V i dp3 q3 a2 a3 -> subsonic_flight V i -> physical_duct V i -> no_gain V i q3 ->
  V dp3 i <= 0 -> 0 <= cfg <= 1 -> V "force.F_net" i <= 0.
Proof.
  intros D [HT [Hp [HU [Hs [Hh Hn]]]]] [Hc Hpos] [He [R1 [R2 [R3 [D1 [D2 [K1 [K2 [K3 [K4 Hq]]]]]]]]]] D3 Hcfg.
  destruct (Hpos "sta1" ltac:(cbn; tauto)) as [T1 P1]. destruct (Hpos "sta2" ltac:(cbn; tauto)) as [T2 P2]. destruct (Hpos "sta3" ltac:(cbn; tauto)) as [T3 P3].
  pose proof (station_loss V i "sta1" _ _ _ _ _ _ _ (d_1 _ _ _ _ _ _ _ D) T1 P1 R1 K1 D1) as L1.
  pose proof (station_loss V i "sta2" _ _ _ _ _ _ _ (d_2 _ _ _ _ _ _ _ D) T2 P2 R2 K2 D2) as L2.
  pose proof (station_loss V i "sta3" _ _ _ _ _ _ _ (d_3 _ _ _ _ _ _ _ D) T3 P3 R3 K3 D3) as L3. cbn [String.append] in *.
  pose proof (P_free_pos V i Hp) as Pf.
  assert (L0 : V "inlet.pt" i <= P_free V i).
  { destruct (d_in _ _ _ _ _ _ _ D) as [_ [_ [_ EP]]]. fold (P_free V i) in EP. rewrite EP. nra. }
  assert (Ln : V "nozzle.pt" i <= V "sta3.pt_out" i).
  { destruct (d_n _ _ _ _ _ _ _ D) as [En [_ [_ [_ [ET [Ep [Er [_ Em]]]]]]]]. cbn [String.append] in *.
    destruct (d_1 _ _ _ _ _ _ _ D) as [Mp _]. pose proof (d_match _ _ _ _ _ _ _ D) as Mt.
    pose proof (isen_pos air_gam (V "nozzle.M" i) ltac:(unfold air_gam; lra)) as I.
    assert (p0 : 0 < V "nozzle.p" i) by (rewrite Ep; apply Rmult_lt_0_compat; [lra|apply Rpower_pos]).
    assert (T0 : 0 < V "nozzle.T" i) by (rewrite ET; apply Rmult_lt_0_compat; [lra|now apply Rinv_0_lt_compat]).
    assert (r0 : 0 < V "nozzle.rho" i) by (rewrite Er; apply quot_pos; [apply quot_pos; [lra|unfold air_R; lra]|lra]).
    assert (A0 : V "area_nozzle" i <> 0) by (intro Z; rewrite Z in Em; lra).
    assert (0 < V "area_nozzle" i ^ 2) by (replace (V "area_nozzle" i ^ 2) with (V "area_nozzle" i * V "area_nozzle" i) by ring; now apply Rsqr_pos_lt).
    assert (Q : 0 <= (1/2) * V "mdot" i ^ 2 / V "nozzle.rho" i / V "area_nozzle" i ^ 2 * V "nozzle.dynamic_pressure_loss_factor" 0%nat).
    { apply Rmult_le_pos; [|exact K4]. left. apply quot_pos; [|assumption]. apply quot_pos; [|assumption]. nra. }
    rewrite En. lra. }
  assert (Tt : V "sta3.Tt_out" i <= V "inlet.Tt" i).
  { destruct (d_1 _ _ _ _ _ _ _ D) as [Mp [_ [E1 _]]]. destruct (d_2 _ _ _ _ _ _ _ D) as [_ [_ [E2 _]]]. destruct (d_3 _ _ _ _ _ _ _ D) as [_ [_ [E3 _]]]. cbn [String.append] in *.
    assert (X : V "cp" 0%nat * V "mdot" i * (V "sta3.Tt_out" i - V "inlet.Tt" i) = V "heat_in_1" i + V "heat_in_2" i + V q3 i) by (rewrite E3, E2, E1; field; lra).
    assert (Y : 0 < V "cp" 0%nat * V "mdot" i) by (now apply Rmult_lt_0_compat). set (k := V "cp" 0%nat * V "mdot" i) in *. clearbody k. nra. }
  apply (duct_no_thrust cfg V i dp3 q3 a2 a3 D HT Hp HU Hs Hcfg Hh Hn); [exact T3| |exact Tt]. lra.
Qed.
(** A duct produces no thrust unless heat is added to the air (or pressure put in). *)
Theorem C59_no_thrust_without_heat nn cfg V i : (i < nn)%nat -> 0 <= cfg <= 1 -> subsonic_flight V i -> physical_duct V i ->
  (solution (ImplicitCompressibleDuct nn cfg) V -> hx_positive nn (fun x => V (hx_in_duct x)) -> no_gain V i "hx.heat_transfer" -> V "force.F_net" i <= 0) /\
  (solution (ImplicitCompressibleDuct_ExternalHX nn cfg) V -> no_gain V i "sta3.heat_in" -> V "sta3.delta_p" i <= 0 -> V "force.F_net" i <= 0).
Proof.
  intros Hi Hc Hs Hp. split.
  - intros S HX N. destruct (C59_cooling nn cfg V i S Hi (proj1 Hp) HX) as [_ [_ [_ Dp]]].
    exact (no_gain_thrust _ _ _ _ _ _ _ (duct_eqs_hx nn cfg V i S Hi) Hs Hp N ltac:(lra) Hc).
  - intros S N Dp. exact (no_gain_thrust _ _ _ _ _ _ _ (duct_eqs_ext nn cfg V i S Hi) Hs Hp N Dp Hc).
Qed.
Print Assumptions C59_no_thrust_without_heat.
(** A duct without losses and heat returns the air to the state and speed of the free
    stream; only the gross thrust coefficient leaves a drag. *)
Theorem C59_lossless nn cfg V i : solution (ImplicitCompressibleDuct_ExternalHX nn cfg) V -> (i < nn)%nat -> 0 <= cfg <= 1 ->
  subsonic_flight V i -> physical_duct V i ->
  V "inlet.totalpressure.eta_ram" i = 1 -> V "pressure_recovery_1" i = 1 -> V "pressure_recovery_2" i = 1 -> V "pressure_recovery_3" i = 1 ->
  V "delta_p_1" i = 0 -> V "delta_p_2" i = 0 -> V "sta3.delta_p" i = 0 ->
  V "loss_factor_1" 0%nat = 0 -> V "sta2.dynamic_pressure_loss_factor" 0%nat = 0 -> V "sta3.dynamic_pressure_loss_factor" 0%nat = 0 ->
  V "nozzle.dynamic_pressure_loss_factor" 0%nat = 0 -> V "heat_in_1" i = 0 -> V "heat_in_2" i = 0 -> V "sta3.heat_in" i = 0 ->
  V "nozzle.M" i = V "inlet.M" i /\ V "nozzle.T" i = V "T_inf" i /\ V "nozzle.p" i = V "p_inf" i /\
  V "mdot" i = V "nozzle.rho" i * V "area_nozzle" i * V "Utrue" i /\
  V "force.F_net" i = - (1 - cfg) * V "mdot" i * V "Utrue" i.
Proof.
  intros S Hi Hcfg [HT [Hp [HU [Hs [Hh Hn]]]]] [Hc _] He R1 R2 R3 D1 D2 D3 K1 K2 K3 K4 Q1 Q2 Q3.
  pose proof (duct_eqs_ext nn cfg V i S Hi) as D.
  destruct (d_1 _ _ _ _ _ _ _ D) as [Mp [_ [T1 [P1 _]]]]. destruct (d_2 _ _ _ _ _ _ _ D) as [_ [_ [T2 [P2 _]]]]. destruct (d_3 _ _ _ _ _ _ _ D) as [_ [_ [T3 [P3 _]]]].
  destruct (d_n _ _ _ _ _ _ _ D) as [En _]. destruct (d_in _ _ _ _ _ _ _ D) as [_ [_ [_ EP]]]. fold (P_free V i) in EP. cbn [String.append] in *.
  rewrite He in EP. rewrite R1, K1, D1 in P1. rewrite R2, K2, D2 in P2. rewrite R3, K3, D3 in P3. rewrite K4 in En. rewrite Q1 in T1. rewrite Q2 in T2. rewrite Q3 in T3.
  apply (duct_lossless cfg V i _ _ _ _ D HT Hp HU Hs Hh Hn).
  - lra.
  - rewrite T3, T2, T1. unfold Rdiv. ring.
Qed.
Print Assumptions C59_lossless.
