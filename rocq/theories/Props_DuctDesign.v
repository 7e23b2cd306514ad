(** C59: converged ducts exist; the hypotheses of Props_Ducts are met. *)
From Coq Require Import Reals Lra Lia List String PeanoNat Bool Ascii.
From Coquelicot Require Import Coquelicot.
From Verif Require Import Base Py Model_Net Model_Algebra Model_Vectors Model_Thermal Model_HX Model_Ducts Spec_HX Spec_Ducts
  Proofs_Net Proofs_Cs Proofs_Thermal Proofs_HX Proofs_Ducts Props_HX Props_Ducts.
Import ListNotations.
Open Scope R_scope.
Open Scope string_scope.

Ltac by_out A := cbn in A; repeat match goal with H : (if String.eqb ?o ?b then _ else _) = Some _ |- _ => destruct (String.eqb_spec o b) as [->|_]; [injection H as <- <-|] end;
  try match goal with H : None = Some _ |- _ => discriminate H end.
(** Ducts can be designed: for every free stream, flow, recoveries, heats and choice of
    station Mach numbers there are areas with which the duct converges, as long as the
    air stays at positive temperature, below the pressure limit of the code and above
    ambient pressure at the nozzle.  So the hypotheses above are met by many states. *)
Section Design.
Variables (nn : nat) (cfg T p U cp m : R) (eta : R) (r1 r2 r3 q1 q2 q3 M1 M2 M3 : R).
Let snd_speed (t : R) := sqrt (air_gam * air_R * warm t).
Let M0 := U / snd_speed T.
Let Tt0 := T * isen air_gam M0.
Let pf := p * Rpower (isen air_gam M0) (air_gam / (air_gam - 1)).
Let pt0 := pf * eta.
Let pt1 := pt0 * r1. Let pt2 := pt1 * r2. Let pt3 := pt2 * r3.
Let Tt1 := Tt0 + q1 / cp / m. Let Tt2 := Tt1 + q2 / cp / m. Let Tt3 := Tt2 + q3 / cp / m.
Let ratio := p / pt3.
Let Mn := exit_mach air_gam ratio.
Let tmp (Tt M : R) := Tt * / isen air_gam M.
Let prs (pt M : R) := pt * Rpower (isen air_gam M) (- air_gam / (air_gam - 1)).
Let dns (Tt pt M : R) := prs pt M / air_R / tmp Tt M.
Let are (Tt pt M : R) := m / (M * snd_speed (tmp Tt M) * dns Tt pt M).
Let outs (Tt pt M : R) : list (string * R) :=
  [("T", tmp Tt M); ("p", prs pt M); ("rho", dns Tt pt M); ("a", snd_speed (tmp Tt M)); ("M", M)].
Let station (Tin pin r q Tt pt M : R) : list (string * R) :=
  (outs Tt pt M ++ [("Tt_out", Tt); ("pt_out", pt); ("Tt_in", Tin); ("pt_in", pin); ("mdot", m); ("cp", cp); ("area", are Tt pt M);
    ("delta_p", 0); ("dynamic_pressure_loss_factor", 0); ("pressure_recovery", r); ("heat_in", q)])%list.
Let inlet : list (string * R) :=
  [("T", T); ("p", p); ("Utrue", U); ("a", snd_speed T); ("M", M0); ("Tt", Tt0); ("freestreamtotalpressure.pt", pf);
   ("totalpressure.eta_ram", eta); ("pt", pt0)].
Let nozzle : list (string * R) :=
  (outs Tt3 pt3 Mn ++ [("pt_in", pt3); ("pt", pt3); ("Tt", Tt3); ("mdot", m); ("area", are Tt3 pt3 Mn); ("dynamic_pressure_loss_factor", 0);
    ("p_exit", p); ("nozzle_pressure_ratio", ratio); ("mdot_actual", m)])%list.
Let pre (s : string) (l : list (string * R)) := map (fun x => (String.append s (String.append "." (fst x)), snd x)) l.
Let duct : list (string * R) :=
  (pre "inlet" inlet ++ pre "sta1" (station Tt0 pt0 r1 q1 Tt1 pt1 M1) ++ pre "sta2" (station Tt1 pt1 r2 q2 Tt2 pt2 M2) ++
   pre "sta3" (station Tt2 pt2 r3 q3 Tt3 pt3 M3) ++ pre "nozzle" nozzle ++
   [("T_inf", T); ("p_inf", p); ("Utrue", U); ("cp", cp); ("mdot", m); ("mdot_actual", m); ("p_exit", p); ("convergence_hack", 0);
    ("area_1", are Tt1 pt1 M1); ("area_2", are Tt2 pt2 M2); ("area_3", are Tt3 pt3 M3); ("area_nozzle_in", are Tt3 pt3 Mn);
    ("area_nozzle", are Tt3 pt3 Mn); ("delta_p_1", 0); ("delta_p_2", 0); ("heat_in_1", q1); ("heat_in_2", q2);
    ("pressure_recovery_1", r1); ("pressure_recovery_2", r2); ("pressure_recovery_3", r3); ("loss_factor_1", 0);
    ("force.F_net", m * (m / are Tt3 pt3 Mn / dns Tt3 pt3 Mn * cfg - U) + are Tt3 pt3 Mn * cfg * (prs pt3 Mn - p))])%list.
Let tab (l : list (string * R)) : env := fun x _ => match assoc x l with Some v => v | None => 0 end.
Hypotheses (HT : 0 < T) (Hp : 0 < p) (HU : 0 <= U) (Hcp : 0 < cp) (Hm : 0 < m) (Heta : 0 < eta)
  (Hr1 : 0 < r1) (Hr2 : 0 < r2) (Hr3 : 0 < r3) (HM1 : 0 < M1) (HM2 : 0 < M2) (HM3 : 0 < M3)
  (HT1 : 0 < Tt1) (HT2 : 0 < Tt2) (HT3 : 0 < Tt3) (Hl1 : pt1 <= 10 ^ 8) (Hl2 : pt2 <= 10 ^ 8) (Hl3 : pt3 <= 10 ^ 8) (Hn : p < pt3).

Lemma design_tmp Tt M : 0 < Tt -> 0 < tmp Tt M.
Proof. intro. unfold tmp. apply Rmult_lt_0_compat; [assumption|]. apply Rinv_0_lt_compat, isen_pos. unfold air_gam; lra. Qed.
Lemma design_snd t : 0 < t -> 0 < snd_speed t.
Proof. intro H. unfold snd_speed, warm. destruct Rlt_dec; [lra|]. apply sqrt_lt_R0. unfold air_gam, air_R. lra. Qed.
Lemma design_dns Tt pt M : 0 < Tt -> 0 < pt -> 0 < dns Tt pt M.
Proof.
  intros. unfold dns. apply quot_pos; [|now apply design_tmp]. apply quot_pos; [|unfold air_R; lra].
  unfold prs. apply Rmult_lt_0_compat; [assumption|apply Rpower_pos].
Qed.
Lemma design_flow Tt pt M : 0 < Tt -> 0 < pt -> 0 < M -> M * snd_speed (tmp Tt M) * are Tt pt M * dns Tt pt M = m.
Proof.
  intros H1 H2 H3. pose proof (design_dns Tt pt M H1 H2). pose proof (design_snd _ (design_tmp Tt M H1)). unfold are. field. lra.
Qed.
Lemma design_station Tin pin r q Tt pt M : Tt = Tin + q / cp / m -> pt = pin * r -> 0 < Tt -> 0 < pt -> 0 < M -> pt <= 10 ^ 8 ->
  solution (DuctStation nn) (tab (station Tin pin r q Tt pt M)).
Proof.
  intros E1 E2 HTt Hpt HM Hl s Hs. unfold station, outs.
  pose proof (design_flow Tt pt M HTt Hpt HM) as F.
  cbn in Hs; repeat (destruct Hs as [<-|Hs]); [..|destruct Hs]; cbn -[tab].
  - exists (vcompute HeatAdditionPressureLoss (fun x => tab (station Tin pin r q Tt pt M) (source (DuctStation nn) (gname "totals" [P "*"] x)))). split.
    + unfold heat_run. 
      match goal with |- (if ?b then _ else _) = _ => assert (B : b = false) by (apply nonpos_false; intros i _; exact Hm); rewrite B; clear B end.
      match goal with |- (if ?b then _ else _) = _ => assert (B : b = false) end.
      { apply anyb_false_iff. intros i _. destruct Rlt_dec as [L|]; [exfalso|reflexivity]. cbn in L. rewrite <- E2 in L.
        assert (pt - 1/2 * (m * (m * 1)) / dns Tt pt M / (are Tt pt M * (are Tt pt M * 1)) * 0 + 0 = pt) by ring. lra. }
      rewrite B. reflexivity.
    + intros o k f i A Hi. by_out A; cbn; [exact E1|rewrite <- E2; ring].
  - intros o k f i A Hi. by_out A; reflexivity.
  - intros o k f i A Hi. by_out A; reflexivity.
  - intros o k f i A Hi. by_out A; reflexivity.
  - intros o k f i A Hi. by_out A; reflexivity.
  - intros o k f i A Hi. by_out A; cbn. rewrite F. ring.
Qed.

Lemma design_inlet : solution (Inlet nn) (tab inlet).
Proof.
  intros s Hs. cbn in Hs; repeat (destruct Hs as [<-|Hs]); [..|destruct Hs]; cbn -[tab]; intros o k f i A Hi; by_out A; reflexivity.
Qed.
Lemma pt3_pos : 0 < pt3. Proof. lra. Qed.
Lemma Mn_pos : 0 < Mn.
Proof.
  unfold Mn, exit_mach. destruct Rle_dec; [lra|]. apply sqrt_lt_R0. unfold air_gam.
  assert (R0 : 0 < ratio < 1).
  { unfold ratio. split; [apply quot_pos; lra|]. apply (Rmult_lt_reg_r pt3); [lra|]. unfold Rdiv. rewrite Rmult_assoc, Rinv_l; lra. }
  assert (1 < Rpower ratio ((1 - 14/10) / (14/10))).
  { unfold Rpower. rewrite <- exp_0 at 1. apply exp_increasing. assert (ln ratio < 0) by (rewrite <- ln_1; apply ln_increasing; lra). nra. }
  lra.
Qed.
Lemma design_nozzle : solution (OutletNozzle nn) (tab nozzle).
Proof.
  pose proof pt3_pos as P3. pose proof (design_flow Tt3 pt3 Mn HT3 P3 Mn_pos) as F.
  intros s Hs. cbn in Hs; repeat (destruct Hs as [<-|Hs]); [..|destruct Hs]; cbn -[tab].
  - intros o k f i A Hi; by_out A. cbn. ring.
  - intros o k f i A Hi; by_out A. cbn. unfold ratio. ring.
  - exists (vcompute (DuctExitMachNumber air_gam) (fun x => tab nozzle (source (OutletNozzle nn) (gname "machimplicit" [P "*"] x)))). split.
    + unfold exit_run. match goal with |- (if ?b then _ else _) = _ => assert (B : b = false) end; [|rewrite B; reflexivity].
      apply nonpos_false. intros i _. cbn. unfold ratio. apply quot_pos; lra.
    + intros o k f i A Hi; by_out A. reflexivity.
  - intros o k f i A Hi; by_out A; reflexivity.
  - intros o k f i A Hi; by_out A; reflexivity.
  - intros o k f i A Hi; by_out A; reflexivity.
  - intros o k f i A Hi; by_out A; reflexivity.
  - intros o k f i A Hi; by_out A. cbn. now rewrite F.
Qed.
Lemma design_duct : solution (ImplicitCompressibleDuct_ExternalHX nn cfg) (tab duct).
Proof.
  assert (P0 : 0 < pf) by (unfold pf; apply Rmult_lt_0_compat; [assumption|apply Rpower_pos]).
  assert (P0' : 0 < pt0) by (unfold pt0; now apply Rmult_lt_0_compat).
  assert (P1 : 0 < pt1) by (unfold pt1; now apply Rmult_lt_0_compat).
  assert (P2 : 0 < pt2) by (unfold pt2; now apply Rmult_lt_0_compat).
  pose proof pt3_pos as P3.
  intros s Hs. cbn in Hs. repeat (destruct Hs as [<-|Hs]); [..|destruct Hs]; cbn -[tab solution].
  - exact I.
  - intros a b [E|[]] i. inversion E; subst. reflexivity.
  - intros o k f i A Hi; by_out A. cbn. ring.
  - exists (tab inlet). split; [exact design_inlet|]. split; intros x i Hx; cbn in Hx; repeat (destruct Hx as [<-|Hx]; [reflexivity|]); destruct Hx.
  - exists (tab (station Tt0 pt0 r1 q1 Tt1 pt1 M1)). split; [now apply design_station|]. split; intros x i Hx; cbn in Hx; repeat (destruct Hx as [<-|Hx]; [reflexivity|]); destruct Hx.
  - exists (tab (station Tt1 pt1 r2 q2 Tt2 pt2 M2)). split; [now apply design_station|]. split; intros x i Hx; cbn in Hx; repeat (destruct Hx as [<-|Hx]; [reflexivity|]); destruct Hx.
  - exists (tab (station Tt2 pt2 r3 q3 Tt3 pt3 M3)). split; [now apply design_station|]. split; intros x i Hx; cbn in Hx; repeat (destruct Hx as [<-|Hx]; [reflexivity|]); destruct Hx.
  - intros i Hi. rewrite exit_pressure_value by lia. cbn. f_equal. ring.
  - exists (tab nozzle). split; [exact design_nozzle|]. split; intros x i Hx; cbn in Hx; repeat (destruct Hx as [<-|Hx]; [reflexivity|]); destruct Hx.
  - intros o k f i A Hi; by_out A. reflexivity.
Qed.
End Design.

Theorem C59_design nn cfg T p U cp mdot eta r1 r2 r3 q1 q2 q3 M1 M2 M3 :
  0 < T -> 0 < p -> 0 < cp -> 0 < mdot -> 0 < eta -> 0 < r1 -> 0 < r2 -> 0 < r3 -> 0 < M1 -> 0 < M2 -> 0 < M3 ->
  let M := U / sqrt (gamma_air * R_air * T) in
  let Tt := T * (1 + (gamma_air - 1) / 2 * M ^ 2) in
  let pt := p * Rpower (1 + (gamma_air - 1) / 2 * M ^ 2) (gamma_air / (gamma_air - 1)) * eta in
  0 < Tt + q1 / cp / mdot -> 0 < Tt + q1 / cp / mdot + q2 / cp / mdot -> 0 < Tt + q1 / cp / mdot + q2 / cp / mdot + q3 / cp / mdot ->
  pt * r1 <= 10 ^ 8 -> pt * r1 * r2 <= 10 ^ 8 -> pt * r1 * r2 * r3 <= 10 ^ 8 -> p < pt * r1 * r2 * r3 ->
  exists V, solution (ImplicitCompressibleDuct_ExternalHX nn cfg) V /\ forall i,
    V "T_inf" i = T /\ V "p_inf" i = p /\ V "Utrue" i = U /\ V "cp" 0%nat = cp /\ V "mdot" i = mdot /\ V "convergence_hack" 0%nat = 0 /\
    V "inlet.totalpressure.eta_ram" i = eta /\
    V "pressure_recovery_1" i = r1 /\ V "pressure_recovery_2" i = r2 /\ V "pressure_recovery_3" i = r3 /\
    V "delta_p_1" i = 0 /\ V "delta_p_2" i = 0 /\ V "sta3.delta_p" i = 0 /\
    V "loss_factor_1" 0%nat = 0 /\ V "sta2.dynamic_pressure_loss_factor" 0%nat = 0 /\ V "sta3.dynamic_pressure_loss_factor" 0%nat = 0 /\
    V "nozzle.dynamic_pressure_loss_factor" 0%nat = 0 /\
    V "heat_in_1" i = q1 /\ V "heat_in_2" i = q2 /\ V "sta3.heat_in" i = q3 /\
    V "sta1.M" i = M1 /\ V "sta2.M" i = M2 /\ V "sta3.M" i = M3 /\
    V "sta1.Tt_out" i = Tt + q1 / cp / mdot /\ V "sta2.Tt_out" i = Tt + q1 / cp / mdot + q2 / cp / mdot /\
    V "sta3.Tt_out" i = Tt + q1 / cp / mdot + q2 / cp / mdot + q3 / cp / mdot /\
    V "sta1.pt_out" i = pt * r1 /\ V "sta2.pt_out" i = pt * r1 * r2 /\ V "sta3.pt_out" i = pt * r1 * r2 * r3 /\
    V "nozzle.pt" i = pt * r1 * r2 * r3.
Proof.
  intros HT Hp Hc Hm He R1 R2 R3 N1 N2 N3 M Tt pt T1 T2 T3 L1 L2 L3 Ln.
  assert (Ew : warm T = T) by (unfold warm; destruct Rlt_dec; lra).
  assert (ET : Tt = T * isen air_gam (U / sqrt (air_gam * air_R * warm T))) by (rewrite Ew; reflexivity).
  assert (EP : pt = p * Rpower (isen air_gam (U / sqrt (air_gam * air_R * warm T))) (air_gam / (air_gam - 1)) * eta) by (rewrite Ew; reflexivity).
  clearbody Tt pt. subst Tt pt.
  eexists. split. { apply (design_duct nn cfg T p U cp mdot eta r1 r2 r3 q1 q2 q3 M1 M2 M3); assumption. }
  intro i. repeat match goal with |- _ /\ _ => split end; reflexivity.
Qed.
Print Assumptions C59_design.

(** A duct with losses and some cooling of the air: all hypotheses of
    [C59_no_thrust_without_heat] (and, without its losses, of [C59_lossless]) hold. *)
Lemma design_numbers : let x := 1 + (gamma_air - 1) / 2 * (170 / sqrt (gamma_air * R_air * 288)) ^ 2 in
  1 < x < 11/10 /\ 115/100 < Rpower x (gamma_air / (gamma_air - 1)) < 125/100.
Proof.
  intro x. assert (E : x = 1 + 2/10 * (170 ^ 2 / (gamma_air * R_air * 288))).
  { unfold x. rewrite <- (pow2_sqrt (gamma_air * R_air * 288)) at 2 by (unfold gamma_air, R_air; lra).
    assert (0 < sqrt (gamma_air * R_air * 288)) by (apply sqrt_lt_R0; unfold gamma_air, R_air; lra). set (s := sqrt (gamma_air * R_air * 288)) in *. clearbody s. unfold gamma_air. field. lra. }
  assert (B : 10499/10000 < x < 105/100) by (rewrite E; unfold gamma_air, R_air; lra). clearbody x. split; [lra|].
  replace (gamma_air / (gamma_air - 1)) with (7/2) by (unfold gamma_air; lra). split.
  - apply Rlt_le_trans with (Rpower x (INR 3)); [rewrite Rpower_pow by lra; nra|]. apply Rle_Rpower; [lra|simpl; lra].
  - apply Rle_lt_trans with (Rpower x (INR 4)); [apply Rle_Rpower; [lra|simpl; lra]|]. rewrite Rpower_pow by lra. assert (x ^ 2 < 1103/1000) by nra. nra.
Qed.
Example C59_met nn cfg : exists V, solution (ImplicitCompressibleDuct_ExternalHX nn cfg) V /\
  forall i, subsonic_flight V i /\ physical_duct V i /\ no_gain V i "sta3.heat_in" /\ V "sta3.delta_p" i <= 0 /\
    V "sta3.heat_in" i < 0 /\ V "sta2.pt_out" i < V "sta1.pt_out" i.
Proof.
  pose proof design_numbers as [X P]. cbv zeta in X, P. set (x := 1 + (gamma_air - 1) / 2 * (170 / sqrt (gamma_air * R_air * 288)) ^ 2) in X, P.
  set (y := Rpower x (gamma_air / (gamma_air - 1))) in *.
  destruct (C59_design nn cfg 288 101325 170 1004 1 1 1 (9/10) 1 0 0 (-1000) (1/2) (1/10) (1/10)) as [V [S A]]; try lra; fold x; fold y; try lra.
  exists V. split; [exact S|]. intro i. specialize (A i). fold x in A. fold y in A. decompose [and] A. clear A.
  unfold subsonic_flight, physical_duct, no_gain.
  repeat match goal with H : V _ _ = _ |- _ => rewrite H end.
  repeat match goal with |- _ /\ _ => split end; try lra; try (unfold gamma_air, R_air; lra).
  intros s [<-|[<-|[<-|[]]]]; cbn [String.append]; repeat match goal with H : V _ _ = _ |- _ => rewrite H end; split; lra.
Qed.
