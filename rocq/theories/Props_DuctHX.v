(** C59: converged ducts with a heat exchanger exist. *)
From Coq Require Import Reals Lra Lia List String PeanoNat Bool Ascii.
From Coquelicot Require Import Coquelicot.
From Verif Require Import Base Py Model_Net Model_Algebra Model_Vectors Model_Thermal Model_HX Model_Ducts Spec_HX Spec_Ducts
  Proofs_Net Proofs_Cs Proofs_Thermal Proofs_HX Proofs_Ducts Props_HX Props_Ducts Props_DuctDesign.
Import ListNotations.
Open Scope R_scope.
Open Scope string_scope.


(** The duct with its own heat exchanger: for every exchanger and free stream there is
    a converged duct in which a hotter liquid heats the air. *)
Lemma station_of nn W : (forall i, (i < nn)%nat ->
   0 < W "mdot" i /\ W "pt_out" i <= 10 ^ 8 /\
   W "Tt_out" i = W "Tt_in" i + W "heat_in" i / W "cp" 0%nat / W "mdot" i /\
   W "pt_out" i = W "pt_in" i * W "pressure_recovery" i - (1/2) * W "mdot" i ^ 2 / W "rho" i / W "area" 0%nat ^ 2 * W "dynamic_pressure_loss_factor" 0%nat + W "delta_p" i /\
   W "T" i = W "Tt_out" i * / isen air_gam (W "M" i) /\
   W "p" i = W "pt_out" i * Rpower (isen air_gam (W "M" i)) (- air_gam / (air_gam - 1)) /\
   W "rho" i = W "p" i / air_R / W "T" i /\ W "a" i = sqrt (air_gam * air_R * warm (W "T" i)) /\
   W "mdot" i = W "M" i * W "a" i * W "area" 0%nat * W "rho" i) -> solution (DuctStation nn) W.
Proof.
  intros H s Hs. cbn in Hs; repeat (destruct Hs as [<-|Hs]); [..|destruct Hs]; cbn.
  - exists (vcompute HeatAdditionPressureLoss (fun x => W (source (DuctStation nn) (gname "totals" [P "*"] x)))). split.
    + unfold heat_run.
      match goal with |- (if ?b then _ else _) = _ => assert (B : b = false) by (apply nonpos_false; intros i Hi; apply (H i Hi)); rewrite B; clear B end.
      match goal with |- (if ?b then _ else _) = _ => assert (B : b = false) end.
      { apply anyb_false_iff. intros i Hi. destruct Rlt_dec as [L|]; [exfalso|reflexivity]. destruct (H i Hi) as [_ [L' [_ [E _]]]].
        change (10 ^ 8 < W "pt_in" i * W "pressure_recovery" i - (1/2) * W "mdot" i ^ 2 / W "rho" i / W "area" 0%nat ^ 2 * W "dynamic_pressure_loss_factor" 0%nat + W "delta_p" i) in L. rewrite <- E in L. lra. }
      rewrite B. reflexivity.
    + intros o k f i A Hi. by_out A; apply (H i Hi).
  - intros o k f i A Hi. by_out A; apply (H i Hi).
  - intros o k f i A Hi. by_out A; apply (H i Hi).
  - intros o k f i A Hi. by_out A; apply (H i Hi).
  - intros o k f i A Hi. by_out A; apply (H i Hi).
  - intros o k f i A Hi. by_out A. apply Rminus_diag_eq. apply (H i Hi).
Qed.
Lemma nozzle_of nn W : (forall i, (i < nn)%nat ->
   W "pt" i = W "pt_in" i - (1/2) * W "mdot" i ^ 2 / W "rho" i / W "area" i ^ 2 * W "dynamic_pressure_loss_factor" 0%nat /\
   W "nozzle_pressure_ratio" i = W "p_exit" i / W "pt" i /\ 0 < W "nozzle_pressure_ratio" i /\
   W "M" i = exit_mach air_gam (W "nozzle_pressure_ratio" i) /\
   W "T" i = W "Tt" i * / isen air_gam (W "M" i) /\
   W "p" i = W "pt" i * Rpower (isen air_gam (W "M" i)) (- air_gam / (air_gam - 1)) /\
   W "rho" i = W "p" i / air_R / W "T" i /\ W "a" i = sqrt (air_gam * air_R * warm (W "T" i)) /\
   W "mdot_actual" i = W "M" i * W "a" i * W "area" i * W "rho" i) -> solution (OutletNozzle nn) W.
Proof.
  intros H s Hs. cbn in Hs; repeat (destruct Hs as [<-|Hs]); [..|destruct Hs]; cbn.
  - intros o k f i A Hi; by_out A; apply (H i Hi).
  - intros o k f i A Hi; by_out A. apply Rminus_diag_eq. apply (H i Hi).
  - exists (vcompute (DuctExitMachNumber air_gam) (fun x => W (source (OutletNozzle nn) (gname "machimplicit" [P "*"] x)))). split.
    + unfold exit_run. match goal with |- (if ?b then _ else _) = _ => assert (B : b = false) end; [|rewrite B; reflexivity].
      apply nonpos_false. intros i Hi. apply (H i Hi).
    + intros o k f i A Hi; by_out A. apply (H i Hi).
  - intros o k f i A Hi; by_out A; apply (H i Hi).
  - intros o k f i A Hi; by_out A; apply (H i Hi).
  - intros o k f i A Hi; by_out A; apply (H i Hi).
  - intros o k f i A Hi; by_out A; apply (H i Hi).
  - intros o k f i A Hi; by_out A. apply (H i Hi).
Qed.
Lemma exit_mach_pos r : 0 < r < 1 -> 0 < exit_mach air_gam r.
Proof.
  intro R0. unfold exit_mach. destruct Rle_dec; [lra|]. apply sqrt_lt_R0. unfold air_gam.
  assert (1 < Rpower r ((1 - 14/10) / (14/10))).
  { unfold Rpower. rewrite <- exp_0 at 1. apply exp_increasing. assert (ln r < 0) by (rewrite <- ln_1; apply ln_increasing; lra). nra. }
  lra.
Qed.
Section HxDesign.
Variables (nn : nat) (cfg T p U M1 M2 : R) (W : env) (Af : R).
Let snd_speed (t : R) := sqrt (air_gam * air_R * warm t).
Let M0 := U / snd_speed T.
Let Tt0 := T * isen air_gam M0.
Let pf := p * Rpower (isen air_gam M0) (air_gam / (air_gam - 1)).
Let tmp (Tt M : R) := Tt * / isen air_gam M.
Let prs (pt M : R) := pt * Rpower (isen air_gam M) (- air_gam / (air_gam - 1)).
Let dns (Tt pt M : R) := prs pt M / air_R / tmp Tt M.
Let T2 := tmp Tt0 M2.
Let m := M2 * snd_speed T2 * Af * dns Tt0 pf M2.
Let are (Tt pt M : R) := m / (M * snd_speed (tmp Tt M) * dns Tt pt M).
Let cp := W "cp_cold" 0%nat.
Let Tt3 i := Tt0 + W "heat_transfer" i / cp / m.
Let s3 i := sqrt (Tt3 i / Tt0).
Let pt3 i := pf * s3 i.
Let r3 i := (pt3 i - W "delta_p_cold" i) / pf.
Let ratio i := p / pt3 i.
Let Mn i := exit_mach air_gam (ratio i).
Let An i := are (Tt3 i) (pt3 i) (Mn i).
Let c (x : R) : nat -> R := fun _ => x.
Let V : env := fun x i =>
  match x with
  | String "h"%char (String "x"%char (String "."%char y)) => W y i
  | _ => match assoc x
    [("inlet.T", c T); ("inlet.a", c (snd_speed T)); ("inlet.M", c M0); ("inlet.Tt", c Tt0); ("inlet.pt", c pf);
     ("inlet.freestreamtotalpressure.pt", c pf); ("inlet.totalpressure.eta_ram", c 1);
     ("sta1.T", c (tmp Tt0 M1)); ("sta1.p", c (prs pf M1)); ("sta1.rho", c (dns Tt0 pf M1)); ("sta1.a", c (snd_speed (tmp Tt0 M1)));
     ("sta1.M", c M1); ("sta1.Tt_out", c Tt0); ("sta1.pt_out", c pf);
     ("sta2.T", c T2); ("sta2.p", c (prs pf M2)); ("sta2.rho", c (dns Tt0 pf M2)); ("sta2.a", c (snd_speed T2));
     ("sta2.M", c M2); ("sta2.Tt_out", c Tt0); ("sta2.pt_out", c pf);
     ("sta3.T", fun i => tmp (Tt3 i) M2); ("sta3.p", fun i => prs (pt3 i) M2); ("sta3.rho", fun i => dns (Tt3 i) (pt3 i) M2);
     ("sta3.a", fun i => snd_speed (tmp (Tt3 i) M2)); ("sta3.M", c M2); ("sta3.Tt_out", Tt3); ("sta3.pt_out", pt3);
     ("nozzle.T", fun i => tmp (Tt3 i) (Mn i)); ("nozzle.p", fun i => prs (pt3 i) (Mn i)); ("nozzle.rho", fun i => dns (Tt3 i) (pt3 i) (Mn i));
     ("nozzle.a", fun i => snd_speed (tmp (Tt3 i) (Mn i))); ("nozzle.M", Mn); ("nozzle.pt", pt3); ("nozzle.nozzle_pressure_ratio", ratio);
     ("T_inf", c T); ("p_inf", c p); ("Utrue", c U); ("cp", c cp); ("mdot", c m); ("mdot_actual", c m); ("p_exit", c p);
     ("area_1", c (are Tt0 pf M1)); ("area_nozzle", An);
     ("pressure_recovery_1", c 1); ("pressure_recovery_2", c 1); ("pressure_recovery_3", r3);
     ("mdot_hot", W "mdot_hot"); ("T_in_hot", W "T_in_hot"); ("rho_hot", W "rho_hot"); ("T_out_hot", W "T_out_hot");
     ("ac|propulsion|thermal|hx|n_wide_cold", W "ac|propulsion|thermal|hx|n_wide_cold");
     ("force.F_net", fun i => m * (m / An i / dns (Tt3 i) (pt3 i) (Mn i) * cfg - U) + An i * cfg * (prs (pt3 i) (Mn i) - p))]
    with Some v => v i | None => 0 end
  end.
Hypotheses (HT : 0 < T) (Hp : 0 < p) (HU : 0 < U) (HM1 : 0 < M1) (HM2 : 0 < M2) (HA : 0 < Af) (SW : solution (HXGroup nn) W)
  (PW : hx_positive nn W) (WA : W "frontal_area" 0%nat = Af)
  (Wm : forall i, W "mdot_cold" i = m) (WT : forall i, W "T_in_cold" i = T2) (Wr : forall i, W "rho_cold" i = dns Tt0 pf M2)
  (Hh : forall i, (i < nn)%nat -> T2 <= W "T_in_hot" i)
  (Hl : forall i, (i < nn)%nat -> pf * sqrt ((Tt0 + W "T_in_hot" i - T2) / Tt0) <= 10 ^ 8).

Lemma hxd_snd t : 0 < t -> 0 < snd_speed t.
Proof. intro H. unfold snd_speed, warm. destruct Rlt_dec; [lra|]. apply sqrt_lt_R0. unfold air_gam, air_R. lra. Qed.
Lemma hxd_tmp Tt M : 0 < Tt -> 0 < tmp Tt M.
Proof. intro. unfold tmp. apply Rmult_lt_0_compat; [assumption|]. apply Rinv_0_lt_compat, isen_pos. unfold air_gam; lra. Qed.
Lemma hxd_dns Tt pt M : 0 < Tt -> 0 < pt -> 0 < dns Tt pt M.
Proof.
  intros. unfold dns. apply quot_pos; [|now apply hxd_tmp]. apply quot_pos; [|unfold air_R; lra].
  unfold prs. apply Rmult_lt_0_compat; [assumption|apply Rpower_pos].
Qed.
Lemma hxd_Tt0 : 0 < Tt0.
Proof. unfold Tt0. apply Rmult_lt_0_compat; [assumption|]. apply isen_pos. unfold air_gam; lra. Qed.
Lemma hxd_pf : p < pf.
Proof.
  unfold pf. rewrite <- (Rmult_1_r p) at 1. apply Rmult_lt_compat_l; [assumption|].
  assert (0 < M0) by (unfold M0; apply quot_pos; [assumption|now apply hxd_snd]).
  assert (1 < isen air_gam M0) by (unfold isen, air_gam; nra).
  apply Rle_lt_trans with (Rpower (isen air_gam M0) 0); [rewrite Rpower_O; lra|]. apply Rpower_lt; [assumption|unfold air_gam; lra].
Qed.
Lemma hxd_m : 0 < m.
Proof.
  pose proof hxd_Tt0. pose proof hxd_pf. unfold m. apply Rmult_lt_0_compat; [|apply hxd_dns; lra].
  apply Rmult_lt_0_compat; [|assumption]. apply Rmult_lt_0_compat; [assumption|]. apply hxd_snd. now apply hxd_tmp.
Qed.
Lemma hxd_cp : 0 < cp.
Proof. unfold cp. apply (proj1 PW). inl. Qed.
Lemma hxd_heat i : (i < nn)%nat -> Tt0 <= Tt3 i <= Tt0 + W "T_in_hot" i - T2.
Proof.
  intro Hi. destruct (C51_heat_balance nn W i SW PW Hi) as [_ [_ [B _]]]. destruct (C51_second_law nn W i SW PW Hi) as [[L1 [_ L3]] _]. cbv zeta in *.
  rewrite Wm, WT in *. pose proof hxd_m. pose proof hxd_cp. fold cp in B.
  assert (E : Tt3 i = Tt0 + (W "T_out_cold" i - T2)) by (unfold Tt3; rewrite <- B; field; lra).
  rewrite E. destruct (Hh i Hi) as [L|L]; [specialize (L1 L)|specialize (L3 L)]; lra.
Qed.
Lemma hxd_s3 i : (i < nn)%nat -> 1 <= s3 i /\ Tt3 i = Tt0 * s3 i ^ 2 /\ pt3 i <= 10 ^ 8.
Proof.
  intro Hi. pose proof (hxd_heat i Hi) as [L1 L2]. pose proof hxd_Tt0. pose proof hxd_pf. assert (D : 0 < / Tt0) by (now apply Rinv_0_lt_compat).
  assert (Q : 1 <= Tt3 i / Tt0) by (apply (Rmult_le_reg_r Tt0); [lra|]; unfold Rdiv; rewrite Rmult_assoc, Rinv_l; lra). split; [|split].
  - unfold s3. rewrite <- sqrt_1. now apply sqrt_le_1_alt.
  - unfold s3. rewrite pow2_sqrt by lra. field. lra.
  - apply Rle_trans with (2 := Hl i Hi). unfold pt3, s3. apply Rmult_le_compat_l; [lra|]. apply sqrt_le_1_alt. unfold Rdiv. apply Rmult_le_compat_r; lra.
Qed.
Lemma hxd_flow3 i : (i < nn)%nat -> m = M2 * snd_speed (tmp (Tt3 i) M2) * Af * dns (Tt3 i) (pt3 i) M2.
Proof.
  intro Hi. destruct (hxd_s3 i Hi) as [L [E _]]. pose proof hxd_Tt0 as H0. pose proof hxd_pf as H1. pose proof (hxd_tmp Tt0 M2 H0) as H2.
  assert (I : 0 < isen air_gam M2) by (apply isen_pos; unfold air_gam; lra).
  assert (E1 : tmp (Tt3 i) M2 = T2 * s3 i ^ 2) by (unfold T2, tmp; rewrite E; ring).
  assert (E2 : snd_speed (tmp (Tt3 i) M2) = snd_speed T2 * s3 i).
  { rewrite E1. unfold snd_speed. rewrite (warm_pos T2 H2), (warm_pos (T2 * s3 i ^ 2)) by (apply Rmult_lt_0_compat; [exact H2|apply pow_lt; lra]).
    replace (air_gam * air_R * (T2 * s3 i ^ 2)) with (air_gam * air_R * T2 * s3 i ^ 2) by ring.
    rewrite sqrt_mult_alt by (fold T2 in H2; unfold air_gam, air_R; lra). rewrite sqrt_pow2 by lra. reflexivity. }
  assert (E3 : dns (Tt3 i) (pt3 i) M2 = dns Tt0 pf M2 / s3 i).
  { unfold dns. rewrite E1. fold T2 in H2. unfold prs, pt3. change (tmp Tt0 M2) with T2. set (s := s3 i) in *. clearbody s. field. unfold air_R. lra. }
  rewrite E2, E3. unfold m. set (s := s3 i) in *. clearbody s. field. lra.
Qed.
Lemma hxd_area Tt pt M : 0 < Tt -> 0 < pt -> 0 < M -> m = M * snd_speed (tmp Tt M) * are Tt pt M * dns Tt pt M.
Proof.
  intros H1 H2 H3. pose proof (hxd_dns Tt pt M H1 H2). pose proof (hxd_snd _ (hxd_tmp Tt M H1)). unfold are. field. lra.
Qed.
Lemma hxd_stn Tin pin r q dp A Tt pt M : 0 < m -> pt <= 10 ^ 8 -> Tt = Tin + q / cp / m -> pt = pin * r + dp ->
  m = M * snd_speed (tmp Tt M) * A * dns Tt pt M ->
  0 < m /\ pt <= 10 ^ 8 /\ Tt = Tin + q / cp / m /\ pt = pin * r - (1/2) * m ^ 2 / dns Tt pt M / A ^ 2 * 0 + dp /\
  tmp Tt M = Tt * / isen air_gam M /\ prs pt M = pt * Rpower (isen air_gam M) (- air_gam / (air_gam - 1)) /\
  dns Tt pt M = prs pt M / air_R / tmp Tt M /\ snd_speed (tmp Tt M) = sqrt (air_gam * air_R * warm (tmp Tt M)) /\
  m = M * snd_speed (tmp Tt M) * A * dns Tt pt M.
Proof. intros H1 H2 H3 H4 H5. repeat match goal with |- _ /\ _ => split end; try reflexivity; try assumption. rewrite H4. ring. Qed.
Lemma hxd_noz i : (i < nn)%nat ->
  pt3 i = pt3 i - (1/2) * m ^ 2 / dns (Tt3 i) (pt3 i) (Mn i) / An i ^ 2 * 0 /\ ratio i = p / pt3 i /\ 0 < ratio i /\
  Mn i = exit_mach air_gam (ratio i) /\ tmp (Tt3 i) (Mn i) = Tt3 i * / isen air_gam (Mn i) /\
  prs (pt3 i) (Mn i) = pt3 i * Rpower (isen air_gam (Mn i)) (- air_gam / (air_gam - 1)) /\
  dns (Tt3 i) (pt3 i) (Mn i) = prs (pt3 i) (Mn i) / air_R / tmp (Tt3 i) (Mn i) /\
  snd_speed (tmp (Tt3 i) (Mn i)) = sqrt (air_gam * air_R * warm (tmp (Tt3 i) (Mn i))) /\
  m = Mn i * snd_speed (tmp (Tt3 i) (Mn i)) * An i * dns (Tt3 i) (pt3 i) (Mn i).
Proof.
  intro Hi. destruct (hxd_s3 i Hi) as [L [E _]]. pose proof hxd_Tt0 as H0. pose proof hxd_pf as H1.
  assert (P3 : pf <= pt3 i) by (unfold pt3; rewrite <- (Rmult_1_r pf) at 1; apply Rmult_le_compat_l; lra).
  assert (R0 : 0 < ratio i < 1).
  { unfold ratio. split; [apply quot_pos; lra|]. apply (Rmult_lt_reg_r (pt3 i)); [lra|]. unfold Rdiv. rewrite Rmult_assoc, Rinv_l; lra. }
  repeat match goal with |- _ /\ _ => split end; try reflexivity; try lra.
  - apply hxd_area; [destruct (hxd_heat i Hi); lra|lra|now apply exit_mach_pos].
Qed.
Lemma hxd_name x i : V (hx_in_duct x) i = W x i.
Proof.
  unfold hx_in_duct. destruct (String.eqb_spec x "mdot_cold") as [->|_]; [exact (eq_sym (Wm i))|].
  destruct (String.eqb_spec x "T_in_cold") as [->|_]; [exact (eq_sym (WT i))|]. destruct (String.eqb_spec x "rho_cold") as [->|_]; [exact (eq_sym (Wr i))|].
  match goal with |- context [existsb ?f ?l] => destruct (existsb f l) eqn:E end; [|reflexivity].
  apply existsb_exists in E. destruct E as [y [Hy Ey]]. apply String.eqb_eq in Ey. subst y. unfold In in Hy.
  repeat (destruct Hy as [<-|Hy]; [reflexivity|]). destruct Hy.
Qed.
Lemma hxd_solution : solution (ImplicitCompressibleDuct nn cfg) V.
Proof.
  pose proof hxd_m as Qm. pose proof hxd_cp as Qc. pose proof hxd_Tt0 as QT. pose proof hxd_pf as Qp.
  assert (L0 : forall i, (i < nn)%nat -> pf <= 10 ^ 8).
  { intros i Hi. destruct (hxd_s3 i Hi) as [L1 [_ L3]]. unfold pt3 in L3. apply Rle_trans with (2 := L3). rewrite <- (Rmult_1_r pf) at 1. apply Rmult_le_compat_l; lra. }
  intros s Hs. unfold ImplicitCompressibleDuct in Hs; cbn [g_subs In] in Hs. repeat (destruct Hs as [<-|Hs]); [..|destruct Hs].
  - exact I.
  - intros o k f i A Hi; by_out A. exact (Rminus_diag_eq m m eq_refl).
  - unfold subgroup, nested; cbn [gs_rel]. exists (fun x => V (source (ImplicitCompressibleDuct nn cfg) (gname "inlet" [As "p" "p_inf"; As "T" "T_inf"; P "Utrue"] x))).
    split; [|split; [reflexivity|intros x i Hx; cbn in Hx; repeat (destruct Hx as [<-|Hx]; [reflexivity|]); destruct Hx]].
    intros s Hs. unfold Inlet in Hs; cbn [g_subs In] in Hs; repeat (destruct Hs as [<-|Hs]); [..|destruct Hs]; intros o k f i A Hi; by_out A; try reflexivity.
    exact (eq_sym (Rmult_1_r pf)).
  - unfold duct_sta1, subgroup, nested; cbn [gs_rel]. exists (fun x => V (source (ImplicitCompressibleDuct nn cfg) (gname "sta1" [P "mdot"; P "cp"; As "area" "area_1"; As "delta_p" "delta_p_1"; As "heat_in" "heat_in_1"; As "pressure_recovery" "pressure_recovery_1"] x))).
    split; [|split; [reflexivity|intros x i Hx; cbn in Hx; repeat (destruct Hx as [<-|Hx]; [reflexivity|]); destruct Hx]].
    apply station_of. intros i Hi. apply (hxd_stn Tt0 pf 1 0 0 (are Tt0 pf M1) Tt0 pf M1 Qm (L0 i Hi)); [field; lra|ring|apply hxd_area; lra].
  - unfold duct_sta2, subgroup, nested; cbn [gs_rel]. exists (fun x => V (source (ImplicitCompressibleDuct nn cfg) (gname "sta2" [P "mdot"; P "cp"; As "area" "area_2"; As "delta_p" "delta_p_2"; As "heat_in" "heat_in_2"; As "pressure_recovery" "pressure_recovery_2"] x))).
    split; [|split; [reflexivity|intros x i Hx; cbn in Hx; repeat (destruct Hx as [<-|Hx]; [reflexivity|]); destruct Hx]].
    apply station_of. intros i Hi. apply (hxd_stn Tt0 pf 1 0 0 (W "frontal_area" 0%nat) Tt0 pf M2 Qm (L0 i Hi)); [field; lra|ring|rewrite WA; reflexivity].
  - unfold subgroup, nested; cbn [gs_rel]. exists W. split; [exact SW|]. split.
    + intros x i Hx. rewrite <- hxd_name.
      assert (A : forallb (fun x => String.eqb (source (ImplicitCompressibleDuct nn cfg) (gname "hx" [As "mdot_cold" "mdot"; P "mdot_hot"; P "T_in_hot"; P "rho_hot"; P "ac|propulsion|thermal|hx|n_wide_cold"] x)) (hx_in_duct x)) (free_ins (HXGroup nn)) = true) by reflexivity.
      rewrite forallb_forall in A. specialize (A x Hx). apply String.eqb_eq in A. unfold reads. cbn [gs_name gs_pin]. now rewrite A.
    + intros x i Hx. rewrite <- hxd_name.
      assert (A : forallb (fun x => String.eqb (gname "hx" [P "T_out_hot"] x) (hx_in_duct x)) (group_outs (HXGroup nn)) = true) by reflexivity.
      rewrite forallb_forall in A. specialize (A x Hx). apply String.eqb_eq in A. unfold writes. cbn [gs_name gs_pout]. now rewrite A.
  - unfold duct_sta3, subgroup, nested; cbn [gs_rel]. exists (fun x => V (source (ImplicitCompressibleDuct nn cfg) (gname "sta3" [P "mdot"; P "cp"; As "pressure_recovery" "pressure_recovery_3"; As "area" "area_3"] x))).
    split; [|split; [reflexivity|intros x i Hx; cbn in Hx; repeat (destruct Hx as [<-|Hx]; [reflexivity|]); destruct Hx]].
    apply station_of. intros i Hi. destruct (hxd_s3 i Hi) as [L1 [_ L3]].
    apply (hxd_stn Tt0 pf (r3 i) (W "heat_transfer" i) (W "delta_p_cold" i) (W "frontal_area" 0%nat) (Tt3 i) (pt3 i) M2 Qm L3); [reflexivity|unfold r3; field; lra|rewrite WA; now apply hxd_flow3].
  - intros i Hi. rewrite exit_pressure_value by lia. f_equal. exact (Rplus_0_r p).
  - unfold subgroup, nested; cbn [gs_rel]. exists (fun x => if String.eqb x "mdot_actual" then V x else V (source (ImplicitCompressibleDuct nn cfg) (gname "nozzle" [P "mdot"; P "p_exit"; As "area" "area_nozzle"] x))).
    split; [|split; intros x i Hx; cbn in Hx; repeat (destruct Hx as [<-|Hx]; [reflexivity|]); destruct Hx].
    apply nozzle_of. intros i Hi. exact (hxd_noz i Hi).
  - intros o k f i A Hi; by_out A. reflexivity.
Qed.
End HxDesign.

(** For every heat exchanger (sizes, fluids and hot flow [X], positive), free stream in
    motion and liquid at least as warm as the air: a converged duct exists, with the
    chosen Mach numbers in front of and at the exchanger. *)
Theorem C59_hx_design nn cfg T p U M1 M2 X : 0 < T -> 0 < p -> 0 < U -> 0 < M1 -> 0 < M2 ->
  (forall x, In x hx_scalars -> 0 < X x 0%nat) -> (forall i, (i < nn)%nat -> 0 < X "mdot_hot" i /\ 0 < X "rho_hot" i) ->
  let M := U / sqrt (gamma_air * R_air * T) in
  let Tt := T * (1 + (gamma_air - 1) / 2 * M ^ 2) in
  let pt := p * Rpower (1 + (gamma_air - 1) / 2 * M ^ 2) (gamma_air / (gamma_air - 1)) in
  let T2 := Tt * / (1 + (gamma_air - 1) / 2 * M2 ^ 2) in
  (forall i, (i < nn)%nat -> T2 <= X "T_in_hot" i /\ pt * sqrt ((Tt + X "T_in_hot" i - T2) / Tt) <= 10 ^ 8) ->
  exists V, solution (ImplicitCompressibleDuct nn cfg) V /\ hx_positive nn (fun x => V (hx_in_duct x)) /\ 0 < V "cp" 0%nat /\
    (forall x i, In x (app hx_scalars ["mdot_hot"; "rho_hot"; "T_in_hot"]) -> V (hx_in_duct x) i = X x i) /\
    (forall i, V "T_inf" i = T /\ V "p_inf" i = p /\ V "Utrue" i = U /\ V "sta1.M" i = M1 /\ V "sta2.M" i = M2 /\ V "sta2.T" i = T2) /\
    (forall x i, In x ["mdot"; "sta2.rho"; "area_1"; "inlet.Tt"; "inlet.pt"] -> V x i = V x 0%nat).
Proof.
  intros HT Hp HU N1 N2 PX PH M Tt pt T2 Hh.
  assert (Ew : warm T = T) by (unfold warm; destruct Rlt_dec; lra).
  assert (EM : M = U / sqrt (air_gam * air_R * warm T)) by (rewrite Ew; reflexivity). clearbody M. subst M.
  set (Xc := fun (a b c : R) (x : string) (i : nat) => if String.eqb x "mdot_cold" then a else if String.eqb x "rho_cold" then b else if String.eqb x "T_in_cold" then c else X x i).
  assert (PXc : forall a b c, 0 < a -> 0 < b -> hx_positive nn (Xc a b c)).
  { intros a b t Ha Hb. split.
    - intros x Hx. replace (Xc a b t x 0%nat) with (X x 0%nat); [now apply PX|]. unfold hx_scalars in Hx. cbn [In] in Hx. repeat (destruct Hx as [<-|Hx]; [reflexivity|]). destruct Hx.
    - intros x i Hx Hi. unfold hx_flows in Hx. cbn [In] in Hx. repeat (destruct Hx as [<-|Hx]; [first [exact Ha|exact Hb|apply (PH i Hi)]|]). destruct Hx. }
  destruct (C51_solvable nn (Xc 1 1 1) (PXc 1 1 1 ltac:(lra) ltac:(lra))) as [_ [W0 [S0 [P0 A0]]]].
  set (Af := W0 "frontal_area" 0%nat).
  assert (HA : 0 < Af). { apply (osf_positive nn W0 (plain_of_checked nn W0 S0) P0). inl. }
  set (m := M2 * sqrt (air_gam * air_R * warm T2) * Af * (pt * Rpower (isen air_gam M2) (- air_gam / (air_gam - 1)) / air_R / T2)).
  set (rho := pt * Rpower (isen air_gam M2) (- air_gam / (air_gam - 1)) / air_R / T2) in m.
  assert (HTt : 0 < Tt) by (unfold Tt; apply Rmult_lt_0_compat; [assumption|apply (isen_pos air_gam (U / sqrt (air_gam * air_R * warm T))); unfold air_gam; lra]).
  assert (HT2 : 0 < T2) by (unfold T2; apply Rmult_lt_0_compat; [assumption|apply Rinv_0_lt_compat, (isen_pos air_gam M2); unfold air_gam; lra]).
  assert (Hpt : 0 < pt) by (unfold pt; apply Rmult_lt_0_compat; [assumption|apply Rpower_pos]).
  assert (Hr : 0 < rho). { unfold rho. apply quot_pos; [|assumption]. apply quot_pos; [|unfold air_R; lra]. apply Rmult_lt_0_compat; [assumption|apply Rpower_pos]. }
  assert (Hm : 0 < m). { unfold m. apply Rmult_lt_0_compat; [|assumption]. apply Rmult_lt_0_compat; [|assumption]. apply Rmult_lt_0_compat; [assumption|].
    apply sqrt_lt_R0. rewrite warm_pos by assumption. unfold air_gam, air_R. lra. }
  destruct (C51_solvable nn (Xc m rho T2) (PXc m rho T2 Hm Hr)) as [_ [W [S [PW A]]]].
  assert (WA : W "frontal_area" 0%nat = Af).
  { unfold Af.
    assert (Fin : exists f, In ("frontal_area", (Sca, f)) osf_outs /\ forall e e', (forall x, In x (map fst osf_ins) -> e x = e' x) -> f e = f e').
    { eexists. split; [do 4 right; left; reflexivity|]. intros e e' He. cbv beta zeta. cbn [osf_ins map fst In] in He.
      rewrite !He by tauto. reflexivity. }
    destruct Fin as [f [Ff Fe]].
    rewrite (osf_value nn W "frontal_area" Sca f (plain_of_checked nn W S) Ff), (osf_value nn W0 "frontal_area" Sca f (plain_of_checked nn W0 S0) Ff).
    apply Fe. intros x Hx. destruct (plain_counts nn W (plain_of_checked nn W S) 0%nat) as [C1 [C2 C3]].
    destruct (plain_counts nn W0 (plain_of_checked nn W0 S0) 0%nat) as [D1 [D2 D3]].
    cbn [osf_ins map fst In] in Hx. repeat (destruct Hx as [<-|Hx]; [rewrite ?C1, ?C2, ?C3, ?D1, ?D2, ?D3, A, A0; first [reflexivity|inl]|]). destruct Hx. }
  pose proof (hxd_solution nn cfg T p U M1 M2 W Af HT Hp HU N1 N2 HA S PW WA) as Q. cbv zeta in Q.
  match type of Q with _ -> _ -> _ -> _ -> _ -> solution _ ?v => set (V := v) in Q; exists V end.
  assert (Wm : forall i, W "mdot_cold" i = m) by (intro i; rewrite A; [reflexivity|inl]).
  assert (WT : forall i, W "T_in_cold" i = T2) by (intro i; rewrite A; [reflexivity|inl]).
  assert (Wr : forall i, W "rho_cold" i = rho) by (intro i; rewrite A; [reflexivity|inl]).
  assert (Wh : forall i, W "T_in_hot" i = X "T_in_hot" i) by (intro i; rewrite A; [reflexivity|inl]).
  assert (SV : solution (ImplicitCompressibleDuct nn cfg) V).
  { apply Q; [exact Wm|exact WT|exact Wr|..]; intros i Hi; rewrite Wh; apply (Hh i Hi). }
  pose proof (hxd_name cfg T p U M1 M2 W Af Wm WT Wr) as Nm.
  split; [exact SV|]. split.
  { split; [intros x Hx; rewrite (Nm x 0%nat : V (hx_in_duct x) 0%nat = _); now apply (proj1 PW)|intros x i Hx Hi; rewrite (Nm x i : V (hx_in_duct x) i = _); now apply (proj2 PW)]. }
  split; [exact (proj1 PW "cp_cold" ltac:(inl))|]. split.
  { intros x i Hx. rewrite (Nm x i : V (hx_in_duct x) i = _). apply in_app_or in Hx. destruct Hx as [Hx|Hx].
    - rewrite A by (apply in_or_app; now left). unfold hx_scalars in Hx. cbn [In] in Hx. repeat (destruct Hx as [<-|Hx]; [reflexivity|]). destruct Hx.
    - cbn [In] in Hx. repeat (destruct Hx as [<-|Hx]; [rewrite A; [reflexivity|inl]|]). destruct Hx. }
  split; [intro i; repeat match goal with |- _ /\ _ => split end; reflexivity|].
  intros x i Hx. cbn [In] in Hx. repeat (destruct Hx as [<-|Hx]; [reflexivity|]). destruct Hx.
Qed.
Print Assumptions C59_hx_design.
(** Cruise at 170 m/s through a duct with a 340 K liquid. *)
Example C59_hx_met cfg : exists V, solution (ImplicitCompressibleDuct 2 cfg) V /\ hx_positive 2 (fun x => V (hx_in_duct x)) /\ 0 < V "cp" 0%nat /\
  forall i, V "sta2.T" i < V "T_in_hot" i /\ V "Utrue" i = 170.
Proof.
  pose proof design_numbers as [X P]. cbv zeta in X, P.
  destruct (C59_hx_design 2 cfg 288 101325 170 (1/2) (1/10) hx_example) as [V [S [HX [Hc [A [B _]]]]]]; try lra.
  - intros x Hx. now apply (proj1 (proj1 C51_met)).
  - intros i Hi. split; apply (proj2 (proj1 C51_met)); auto; cbn; tauto.
  - set (x := 1 + (gamma_air - 1) / 2 * (170 / sqrt (gamma_air * R_air * 288)) ^ 2) in *.
    set (y := Rpower x (gamma_air / (gamma_air - 1))) in *. clearbody y. clearbody x.
    intros i Hi. change (hx_example "T_in_hot" i) with 340. unfold gamma_air. split; [lra|].
    apply Rle_trans with (101325 * (125/100) * sqrt (2 ^ 2)).
    + apply Rmult_le_compat; [lra|apply sqrt_pos|lra|]. apply sqrt_le_1_alt. apply (Rmult_le_reg_r (288 * x)); [lra|].
      unfold Rdiv at 1. rewrite Rmult_assoc, Rinv_l by lra. lra.
    + rewrite sqrt_pow2 by lra. lra.
  - exists V. split; [exact S|]. split; [exact HX|]. split; [exact Hc|]. intro i. destruct (B i) as [_ [_ [E [_ [_ E2]]]]].
    split; [|exact E]. pose proof (A "T_in_hot" i ltac:(inl)) as E3. cbn in E3. rewrite E3, E2.
    set (x := 1 + (gamma_air - 1) / 2 * (170 / sqrt (gamma_air * R_air * 288)) ^ 2) in *. clearbody x. unfold gamma_air. lra.
Qed.
