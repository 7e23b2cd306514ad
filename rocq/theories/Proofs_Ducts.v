(** Lemmas about the ducts. *)
From Coq Require Import Reals List Bool PeanoNat String Lra Lia.
From Verif Require Import Base Py RSum Calc Model_Algebra Spec_Algebra Proofs_Algebra Model_Vectors Model_Net Proofs_Net Model_Thermal Proofs_Thermal Proofs_Cs
  Model_HX Model_Ducts Spec_Ducts.
Import ListNotations.
Open Scope R_scope.
Open Scope string_scope.

(** ** Real analysis *)
Lemma isen_ge gam M : 1 < gam -> 1 <= isen gam M.
Proof. intro H. unfold isen. assert (0 <= M ^ 2) by (replace (M ^ 2) with (M * M) by ring; apply Rle_0_sqr). assert (0 <= (gam - 1) / 2 * M ^ 2) by (apply Rmult_le_pos; lra). lra. Qed.
Lemma isen_pos gam M : 1 < gam -> 0 < isen gam M.
Proof. intro H. pose proof (isen_ge gam M H). lra. Qed.
Lemma Rpower_ge1 x a : 1 <= x -> 0 <= a -> 1 <= Rpower x a.
Proof. intros H Ha. rewrite <- (Rpower_O x) by lra. apply Rle_Rpower; lra. Qed.
Lemma expo_neg gam : - gam / (gam - 1) = - (gam / (gam - 1)).
Proof. unfold Rdiv. ring. Qed.
Lemma expo_pos gam : 1 < gam -> 0 < gam / (gam - 1).
Proof. intro. apply quot_pos; lra. Qed.

Lemma crit_pos gam : 0 < critical_ratio gam.
Proof. apply Rpower_pos. Qed.
Lemma crit_lt1 gam : 1 < gam -> critical_ratio gam < 1.
Proof.
  intro H. unfold critical_ratio. pose proof (expo_pos gam H) as X.
  assert (L : 0 < 2 / (gam + 1) < 1). { split; [apply quot_pos; lra|]. apply (Rmult_lt_reg_r (gam + 1)); [lra|]. unfold Rdiv. rewrite Rmult_assoc, Rinv_l by lra. lra. }
  set (x := gam / (gam - 1)) in *. set (y := 2 / (gam + 1)) in *. clearbody x y.
  unfold Rpower. apply Rlt_le_trans with (exp 0); [|rewrite exp_0; lra]. apply exp_increasing.
  assert (ln y < 0) by (rewrite <- ln_1; apply ln_increasing; lra). nra.
Qed.
Lemma crit_power gam : 1 < gam -> Rpower (critical_ratio gam) ((1 - gam) / gam) = (gam + 1) / 2.
Proof.
  intro H. unfold critical_ratio. rewrite Rpower_mult. replace (gam / (gam - 1) * ((1 - gam) / gam)) with (- (1)) by (field; lra).
  rewrite Rpower_Ropp, Rpower_1 by (apply quot_pos; lra). field. lra.
Qed.
(** [r ^ ((1-gam)/gam)] is decreasing. *)
Lemma ratio_decreasing gam a b : 1 < gam -> 0 < a -> a < b -> Rpower b ((1 - gam) / gam) < Rpower a ((1 - gam) / gam).
Proof.
  intros H Ha Hab. unfold Rpower. apply exp_increasing. assert (ln a < ln b) by (apply ln_increasing; lra).
  assert ((1 - gam) / gam < 0). { replace ((1 - gam) / gam) with (- ((gam - 1) / gam)) by (field; lra). assert (0 < (gam - 1) / gam) by (apply quot_pos; lra). lra. }
  generalize dependent (ln a). intro la. generalize dependent (ln b). intro lb. generalize dependent ((1 - gam) / gam). intros c L. intros. nra.
Qed.
Lemma ratio_one x : Rpower 1 x = 1.
Proof. unfold Rpower. rewrite ln_1, Rmult_0_r. apply exp_0. Qed.
Lemma ratio_ge1 gam r : 1 < gam -> 0 < r <= 1 -> 1 <= Rpower r ((1 - gam) / gam).
Proof.
  intros H Hr. destruct (Req_dec r 1) as [->|N]; [rewrite ratio_one; lra|].
  pose proof (ratio_decreasing gam r 1 H ltac:(lra) ltac:(lra)) as X. rewrite ratio_one in X. lra.
Qed.

Definition exit_mach (gam r : R) : R :=
  if Rle_dec r (critical_ratio gam) then 1 else sqrt ((Rpower r ((1 - gam) / gam) - 1) * 2 / (gam - 1)).
Lemma exit_unchoked_sq gam r : 1 < gam -> critical_ratio gam <= r <= 1 ->
  exit_mach gam r ^ 2 = (Rpower r ((1 - gam) / gam) - 1) * 2 / (gam - 1).
Proof.
  intros H [H1 H2]. pose proof (crit_pos gam) as Hc. unfold exit_mach. destruct (Rle_dec r (critical_ratio gam)) as [L|L].
  - assert (E : r = critical_ratio gam) by lra. rewrite E, crit_power by lra. field. lra.
  - rewrite pow2_sqrt; auto. pose proof (ratio_ge1 gam r H ltac:(lra)). unfold Rdiv. rewrite Rmult_assoc.
    apply Rmult_le_pos; [lra|]. assert (0 < / (gam - 1)) by (apply Rinv_0_lt_compat; lra). lra.
Qed.
Lemma exit_nonneg gam r : 0 <= exit_mach gam r.
Proof. unfold exit_mach. destruct Rle_dec; [lra|apply sqrt_pos]. Qed.
Lemma exit_isen gam r : 1 < gam -> critical_ratio gam <= r <= 1 -> isen gam (exit_mach gam r) = Rpower r ((1 - gam) / gam).
Proof. intros H Hr. unfold isen. rewrite exit_unchoked_sq by auto. field. lra. Qed.
(** Unchoked: expanding from total pressure at the exit Mach number gives the exit pressure. *)
Lemma exit_pressure_matched gam r : 1 < gam -> critical_ratio gam <= r <= 1 ->
  Rpower (isen gam (exit_mach gam r)) (- gam / (gam - 1)) = r.
Proof.
  intros H Hr. pose proof (crit_pos gam). rewrite exit_isen by auto. rewrite Rpower_mult.
  replace ((1 - gam) / gam * (- gam / (gam - 1))) with 1 by (field; lra). apply Rpower_1. lra.
Qed.
Lemma exit_le1 gam r : 1 < gam -> 0 < r <= 1 -> exit_mach gam r <= 1.
Proof.
  intros H Hr. destruct (Rle_dec r (critical_ratio gam)) as [L|L]; [unfold exit_mach; destruct Rle_dec; lra|].
  assert (E := exit_unchoked_sq gam r H ltac:(lra)). pose proof (ratio_decreasing gam (critical_ratio gam) r H (crit_pos gam) ltac:(lra)) as X.
  rewrite crit_power in X by auto. pose proof (exit_nonneg gam r) as N.
  assert (S : exit_mach gam r ^ 2 <= 1).
  { rewrite E. apply (Rmult_le_reg_r (gam - 1)); [lra|]. unfold Rdiv. rewrite Rmult_assoc, Rinv_l by lra. lra. }
  nra.
Qed.
Lemma exit_lt1 gam r : 1 < gam -> critical_ratio gam < r <= 1 -> exit_mach gam r < 1.
Proof.
  intros H Hr. pose proof (crit_pos gam) as Hc. assert (E := exit_unchoked_sq gam r H ltac:(lra)). pose proof (ratio_decreasing gam (critical_ratio gam) r H (crit_pos gam) ltac:(lra)) as X.
  rewrite crit_power in X by auto. pose proof (exit_nonneg gam r) as N.
  assert (S : exit_mach gam r ^ 2 < 1).
  { rewrite E. apply (Rmult_lt_reg_r (gam - 1)); [lra|]. unfold Rdiv. rewrite Rmult_assoc, Rinv_l by lra. lra. }
  nra.
Qed.
Lemma exit_antitone gam r s : 1 < gam -> 0 < r -> r <= s -> s <= 1 -> exit_mach gam s <= exit_mach gam r.
Proof.
  intros H H0 H1 H2. destruct (Rle_dec r (critical_ratio gam)) as [L|L].
  - replace (exit_mach gam r) with 1 by (unfold exit_mach; destruct Rle_dec; [reflexivity|contradiction]). apply exit_le1; lra.
  - pose proof (crit_pos gam) as Hc. assert (E1 := exit_unchoked_sq gam r H ltac:(lra)). assert (E2 := exit_unchoked_sq gam s H ltac:(lra)).
    assert (X : Rpower s ((1 - gam) / gam) <= Rpower r ((1 - gam) / gam)).
    { destruct (Req_dec r s) as [->|N]; [lra|]. left. apply ratio_decreasing; lra. }
    assert (S : exit_mach gam s ^ 2 <= exit_mach gam r ^ 2).
    { rewrite E1, E2. unfold Rdiv. apply Rmult_le_compat_r; [left; apply Rinv_0_lt_compat; lra|]. lra. }
    pose proof (exit_nonneg gam r). pose proof (exit_nonneg gam s). nra.
Qed.
(** A flow of Mach number [m <= 1] expanded back to its own static pressure leaves at [m]. *)
Lemma exit_inverse gam m : 1 < gam -> 0 <= m <= 1 -> exit_mach gam (Rpower (isen gam m) (- gam / (gam - 1))) = m.
Proof.
  intros H Hm. set (r := Rpower _ _). pose proof (isen_ge gam m H) as I. assert (R0 : 0 < r) by apply Rpower_pos.
  assert (E : Rpower r ((1 - gam) / gam) = isen gam m).
  { unfold r. rewrite Rpower_mult. replace (- gam / (gam - 1) * ((1 - gam) / gam)) with 1 by (field; lra). apply Rpower_1. lra. }
  assert (R1 : r <= 1).
  { destruct (Rle_dec r 1) as [L|L]; auto. exfalso. pose proof (ratio_decreasing gam 1 r H ltac:(lra) ltac:(lra)) as X. rewrite ratio_one, E in X. lra. }
  assert (RC : critical_ratio gam <= r).
  { destruct (Rle_dec (critical_ratio gam) r) as [L|L]; auto. exfalso.
    pose proof (ratio_decreasing gam r (critical_ratio gam) H R0 ltac:(lra)) as X. rewrite crit_power, E in X by auto. unfold isen in X.
    assert (m ^ 2 <= 1) by nra. assert (0 <= (gam - 1) / 2 * (1 - m ^ 2)) by (apply Rmult_le_pos; lra). lra. }
  pose proof (exit_unchoked_sq gam r H (conj RC R1)) as S. rewrite E in S.
  assert (S2 : exit_mach gam r ^ 2 = m ^ 2). { rewrite S. unfold isen. field. lra. }
  pose proof (exit_nonneg gam r). nra.
Qed.

(** ** Partials *)
Ltac cs_start E i := intros; apply cs_jac; [assumption|];
  let o := fresh "o" in let ko := fresh "ko" in let f := fresh "f" in let Ho := fresh "Ho" in let Hi := fresh "Hi" in
  let x := fresh "x" in let kx := fresh "kx" in let Hx := fresh "Hx" in
  intros i o ko f Hi Ho x kx Hx; cbv zeta;
  repeat match goal with H : forall j, (j < ?n)%nat -> _ |- _ => specialize (H i Hi) end;
  apply assoc_In in Ho; each_in Ho.

Lemma pisen_jac n E gam : (0 < n)%nat -> 1 < gam -> jac_correct n (PressureIsentropic gam) E.
Proof.
  cs_start E i. set (e := node _ E i). unfold isen. exd; [lra|]. change (0 < isen gam (e "M")). now apply isen_pos.
Qed.
Lemma rho_jac n E Rg : (0 < n)%nat -> Rg <> 0 -> (forall i, (i < n)%nat -> E "T" i <> 0) -> jac_correct n (DensityIdealGas Rg) E.
Proof.
  cs_start E i. match goal with H : E "T" i <> 0 |- _ => rename H into HT end. set (e := node _ E i). change (e "T" <> 0) in HT. clearbody e. exd; auto.
Qed.
Lemma machU_jac n E : (0 < n)%nat -> (forall i, (i < n)%nat -> E "a" i <> 0) -> jac_correct n MachNumberfromSpeed E.
Proof.
  cs_start E i. match goal with H : E "a" i <> 0 |- _ => rename H into HT end. set (e := node _ E i). change (e "a" <> 0) in HT. clearbody e. exd; auto.
Qed.
Lemma force_jac n E cfg : (0 < n)%nat -> (forall i, (i < n)%nat -> E "area_nozzle" i <> 0) -> (forall i, (i < n)%nat -> E "rho_nozzle" i <> 0) ->
  jac_correct n (NetForce cfg) E.
Proof.
  cs_start E i. match goal with H : E "area_nozzle" i <> 0 |- _ => rename H into HA end. match goal with H : E "rho_nozzle" i <> 0 |- _ => rename H into HR end.
  set (e := node _ E i). change (e "area_nozzle" <> 0) in HA. change (e "rho_nozzle" <> 0) in HR. clearbody e. exd; auto.
Qed.
Lemma ex_near (f g : R -> R) x : locally x (fun t => f t = g t) -> ex_derive g x -> ex_derive f x.
Proof. intros L [d D]. exists d. eapply is_derive_ext_loc; [|exact D]. apply filter_imp with (2 := L). intros t H. now rewrite H. Qed.
Lemma exit_jac n E gam : (0 < n)%nat -> 1 < gam ->
  (forall i, (i < n)%nat -> 0 < E "nozzle_pressure_ratio" i < 1 /\ E "nozzle_pressure_ratio" i <> critical_ratio gam) ->
  jac_correct n (DuctExitMachNumber gam) E.
Proof.
  cs_start E i. match goal with H : 0 < _ < 1 /\ _ |- _ => destruct H as [Hr Hc] end.
  match goal with H : 1 < gam |- _ => rename H into Hg end.
  set (e := node _ E i). change (E "nozzle_pressure_ratio" i) with (e "nozzle_pressure_ratio") in *. clearbody e.
  set (c := critical_ratio gam) in *. assert (C : continuous (fun t => upd e x t "nozzle_pressure_ratio") (e x)) by (apply cont_ex, upd_ex).
  destruct (Rtotal_order (e "nozzle_pressure_ratio") c) as [L|[L|L]]; [|contradiction|].
  - apply (ex_near _ (fun _ => 1)); [|apply ex_derive_const].
    assert (N := near_lt_c (fun t => upd e x t "nozzle_pressure_ratio") (e x) c C ltac:(cbv beta; rewrite upd_same; exact L)).
    apply filter_imp with (2 := N). intros t Ht. destruct Rle_dec; [reflexivity|lra].
  - apply (ex_near _ (fun t => sqrt ((Rpower (upd e x t "nozzle_pressure_ratio") ((1 - gam) / gam) - 1) * 2 / (gam - 1)))).
    + assert (N := near_gt_c (fun t => upd e x t "nozzle_pressure_ratio") (e x) c C ltac:(cbv beta; rewrite upd_same; exact L)).
      apply filter_imp with (2 := N). intros t Ht. destruct Rle_dec; [lra|reflexivity].
    + exd; try lra. assert (X := ratio_decreasing gam (e "nozzle_pressure_ratio") 1 Hg ltac:(lra) ltac:(lra)). rewrite ratio_one in X.
      unfold Rdiv. apply Rmult_lt_0_compat; [lra|apply Rinv_0_lt_compat; lra].
Qed.
Lemma incomp_jac n E loss cfg : (0 < n)%nat -> -1 < loss ->
  (forall i, (i < n)%nat -> 0 < E "area_nozzle" i) -> (forall i, (i < n)%nat -> E "fltcond|rho" i <> 0) ->
  (forall i, (i < n)%nat -> 0 < E "fltcond|rho" i ^ 2 * E "fltcond|Utrue" i ^ 2 + 2 * E "fltcond|rho" i * E "delta_p_hex" i) ->
  jac_correct n (ExplicitIncompressibleDuct loss cfg) E.
Proof.
  intros Hn Hl HA HR HI. apply cs_jac; [assumption|]. intros i o ko f Hi Ho x kx Hx. cbv zeta.
  specialize (HA i Hi). specialize (HR i Hi). specialize (HI i Hi). set (ins := [("fltcond|Utrue", Vec); _; _; _]) in *.
  set (e := node _ E i). change (0 < e "area_nozzle") in HA. change (e "fltcond|rho" <> 0) in HR.
  change (0 < e "fltcond|rho" ^ 2 * e "fltcond|Utrue" ^ 2 + 2 * e "fltcond|rho" * e "delta_p_hex") in HI.
  assert (P : forall t, t = e x -> 0 < duct_interior loss (upd e x t "fltcond|rho") (upd e x t "fltcond|Utrue") (upd e x t "delta_p_hex")).
  { intros t ->. rewrite !upd_same. unfold duct_interior. apply quot_pos; [exact HI|lra]. }
  assert (D1 : ex_derive (fun t => duct_interior loss (upd e x t "fltcond|rho") (upd e x t "fltcond|Utrue") (upd e x t "delta_p_hex")) (e x)).
  { unfold duct_interior. exd. lra. }
  assert (D2 : ex_derive (fun t => upd e x t "area_nozzle" * sqrt (duct_interior loss (upd e x t "fltcond|rho") (upd e x t "fltcond|Utrue") (upd e x t "delta_p_hex"))) (e x)).
  { apply ex_mult; [apply upd_ex|]. apply ex_sqrt; [exact D1|]. now apply P. }
  assert (D : ex_derive (fun t => unspurious (upd e x t "area_nozzle" *
    sqrt (unspurious (duct_interior loss (upd e x t "fltcond|rho") (upd e x t "fltcond|Utrue") (upd e x t "delta_p_hex"))))) (e x)).
  { eapply ex_near; [|exact D2].
    pose proof (near_gt_c _ (e x) 0 (cont_ex _ _ D1) (P _ eq_refl)) as N1.
    assert (P2 : 0 < upd e x (e x) "area_nozzle" * sqrt (duct_interior loss (upd e x (e x) "fltcond|rho") (upd e x (e x) "fltcond|Utrue") (upd e x (e x) "delta_p_hex"))).
    { rewrite upd_same at 1. apply Rmult_lt_0_compat; [exact HA|]. apply sqrt_lt_R0. now apply P. }
    pose proof (near_gt_c _ (e x) 0 (cont_ex _ _ D2) P2) as N2.
    apply filter_imp with (2 := filter_and _ _ N1 N2). intros t [Ht1 Ht2]. unfold unspurious at 2.
    destruct Rlt_dec; [lra|]. unfold unspurious. destruct Rlt_dec; [lra|reflexivity]. }
  apply assoc_In in Ho. each_in Ho; [exact D|].
  apply ex_mult; [exact D|]. apply ex_minus; [apply upd_ex|]. apply ex_div; [|apply upd_ex|rewrite upd_same; exact HR].
  apply ex_div; [|apply upd_ex|rewrite upd_same; lra]. apply ex_mult; [apply ex_derive_const|exact D].
Qed.

Lemma tisen_jac n E gam : (0 < n)%nat -> 1 < gam -> jac_correct n (TemperatureIsentropic gam) E.
Proof.
  to_node. set (e := node _ E i). clearbody e. pose proof (isen_pos gam (e "M") H0) as P. split_jac TemperatureIsentropic.
  - auto_derive; [exact I|]. ring.
  - unfold isen in *. auto_derive; [lra|]. field. lra.
Qed.
Lemma ttisen_jac n E gam : (0 < n)%nat -> jac_correct n (TotalTemperatureIsentropic gam) E.
Proof.
  to_node. set (e := node _ E i). clearbody e. split_jac TotalTemperatureIsentropic; unfold isen; auto_derive; try exact I; field.
Qed.
Lemma ptisen_jac n E gam : (0 < n)%nat -> 1 < gam -> jac_correct n (TotalPressureIsentropic gam) E.
Proof.
  to_node. set (e := node _ E i). clearbody e. pose proof (isen_pos gam (e "M") H0) as P. split_jac TotalPressureIsentropic.
  - auto_derive; [exact I|]. ring.
  - eapply derive_eq. { apply derive_mull. apply (derive_comp (fun u => Rpower u (gam / (gam - 1))) (fun t => isen gam t)).
      - apply Rpower_derive. exact P.
      - unfold isen. auto_derive; [exact I|reflexivity]. }
    unfold isen. set (y := Rpower _ _). field. lra.
Qed.
Lemma warm_pos T : 0 < T -> warm T = T.
Proof. intro. unfold warm. destruct Rlt_dec; lra. Qed.
Lemma sound_jac n E Rg gam : (0 < n)%nat -> 0 < Rg -> 0 < gam -> (forall i, (i < n)%nat -> 0 < E "T" i) -> jac_correct n (SpeedOfSound Rg gam) E.
Proof.
  intros Hn HR Hg HT. to_node. change (E "T" i) with (node (SpeedOfSound Rg gam) E i "T") in HT. set (e := node _ E i) in *. clearbody e.
  split_jac SpeedOfSound. assert (P : 0 < gam * Rg) by (now apply Rmult_lt_0_compat).
  apply (derive_near (fun t => sqrt (gam * Rg * t)) _ (fun t => 0 < t)).
  - apply (near_gt_c (fun t => t)); [apply cont_ex, ex_derive_id|exact HT].
  - intros t Ht. now rewrite warm_pos.
  - eapply derive_eq. { apply (derive_sqrt (fun t => gam * Rg * t) (e "T") (gam * Rg)); [auto_derive; [exact I|ring]|]. now apply Rmult_lt_0_compat. }
    rewrite warm_pos by auto. rewrite sqrt_mult by lra. rewrite <- (sqrt_sqrt (gam * Rg)) at 1 by lra.
    assert (0 < sqrt (gam * Rg)) by now apply sqrt_lt_R0. assert (0 < sqrt (e "T")) by now apply sqrt_lt_R0. field. lra.
Qed.
Lemma heat_jac n E : (0 < n)%nat -> E "cp" 0%nat <> 0 -> E "area" 0%nat <> 0 -> (forall i, (i < n)%nat -> E "mdot" i <> 0) ->
  (forall i, (i < n)%nat -> E "rho" i <> 0) -> jac_correct n HeatAdditionPressureLoss E.
Proof.
  intros Hn Hc HA Hm Hr. to_node. set (e := node HeatAdditionPressureLoss E i).
  change (E "cp" 0%nat) with (e "cp") in *. change (E "area" 0%nat) with (e "area") in *. change (E "mdot" i) with (e "mdot") in *.
  change (E "rho" i) with (e "rho") in *. clearbody e. split_jac HeatAdditionPressureLoss;
  match goal with |- is_derive ?f ?x ?l => idtac end; auto_derive; try exact I; try (repeat split; auto; apply Rmult_integral_contrapositive_currified; auto; apply Rmult_integral_contrapositive_currified; auto; lra); try (field; auto); try ring.
Qed.
Lemma loss_jac n E : (0 < n)%nat -> (forall i, (i < n)%nat -> E "area" i <> 0) -> 
  (forall i, (i < n)%nat -> E "rho" i <> 0) -> jac_correct n NozzlePressureLoss E.
Proof.
  intros Hn HA Hr. to_node. set (e := node NozzlePressureLoss E i).
  change (E "area" i) with (e "area") in *. 
  change (E "rho" i) with (e "rho") in *. clearbody e. split_jac NozzlePressureLoss;
  auto_derive; try exact I; try (repeat split; auto; apply Rmult_integral_contrapositive_currified; auto; apply Rmult_integral_contrapositive_currified; auto; lra); try (field; auto); try ring.
Qed.
Lemma massflow_jac n E : (0 < n)%nat -> jac_correct n MassFlow E.
Proof. to_node. set (e := node _ E i). clearbody e. split_jac MassFlow; auto_derive; try exact I; ring. Qed.
Lemma machduct_jac n E : (0 < n)%nat -> jac_correct n MachNumberDuct E.
Proof. to_node. set (e := node _ E i). clearbody e. split_jac MachNumberDuct; auto_derive; try exact I; ring. Qed.
Lemma npr_jac n E : (0 < n)%nat -> (forall i, (i < n)%nat -> E "pt" i <> 0) -> jac_correct n DuctExitPressureRatioImplicit E.
Proof.
  intros Hn Hp. to_node. set (e := node DuctExitPressureRatioImplicit E i). change (E "pt" i) with (e "pt") in *. clearbody e.
  split_jac DuctExitPressureRatioImplicit; auto_derive; auto; field; auto.
Qed.
Lemma matcher_jac n E : (0 < n)%nat -> jac_correct n FlowMatcher E.
Proof. to_node. set (e := node _ E i). clearbody e. split_jac FlowMatcher; auto_derive; try exact I; ring. Qed.
Lemma ram_jac n E : (0 < n)%nat -> jac_correct n ram_recovery E.
Proof. to_node. set (e := node _ E i). clearbody e. split_jac ram_recovery; auto_derive; try exact I; ring. Qed.

(** ** Groups *)
Lemma sol_nested G V name g ins outs pin pout : solution G V -> In (nested name g ins outs pin pout) (g_subs G) ->
  exists W, solution g W /\ (forall x i, In x ins -> W x i = V (source G (gname name pin x)) i) /\
    (forall o i, In o outs -> W o i = V (gname name pout o) i).
Proof. intros S I. exact (S _ I). Qed.
Lemma checked_ok G V nn name C run pin pout : solution G V -> In (checked nn name C run pin pout) (g_subs G) ->
  exists F, run nn (fun x => V (source G (gname name pin x))) = Ok F /\
    forall o k f i, assoc o (pc_outs C) = Some (k, f) -> (i < size nn k)%nat -> V (gname name pout o) i = F o i.
Proof. intros S I. exact (S _ I). Qed.
Lemma anyb_false_iff nn p : anyb nn p = false <-> forall i, (i < nn)%nat -> p i = false.
Proof.
  unfold anyb. split.
  - intros H i Hi. destruct (p i) eqn:E; auto. rewrite <- H. symmetry. apply existsb_exists. exists i. split; auto. apply in_seq. lia.
  - intro H. destruct (existsb p (seq 0 nn)) eqn:E; auto. apply existsb_exists in E. destruct E as [i [I P]]. apply in_seq in I. rewrite H in P by lia. discriminate.
Qed.
Lemma nonpos_false nn v : nonpos nn v = false <-> forall i, (i < nn)%nat -> 0 < v i.
Proof.
  unfold nonpos. rewrite anyb_false_iff. split; intros H i Hi; specialize (H i Hi); destruct Rle_dec; try lra; discriminate.
Qed.
Lemma heat_run_ok nn E F : heat_run nn E = Ok F <->
  (forall i, (i < nn)%nat -> 0 < E "mdot" i) /\ (forall i, (i < nn)%nat -> vcompute HeatAdditionPressureLoss E "pt_out" i <= 10 ^ 8) /\
  F = vcompute HeatAdditionPressureLoss E.
Proof.
  unfold heat_run. destruct (nonpos nn (E "mdot")) eqn:N.
  - split; [discriminate|]. intros [H _]. apply nonpos_false in H. congruence.
  - rewrite nonpos_false in N. destruct (anyb nn _) eqn:A.
    + split; [discriminate|]. intros [_ [H _]]. exfalso. revert A. apply Bool.not_true_iff_false. apply anyb_false_iff. intros i Hi.
      destruct Rlt_dec as [L|]; auto. specialize (H i Hi). exfalso. apply (Rlt_irrefl (10 ^ 8)). eapply Rlt_le_trans; [exact L|exact H].
    + split.
      * intro H. inversion H. split; auto. split; auto. intros i Hi. rewrite anyb_false_iff in A. specialize (A i Hi).
        destruct Rlt_dec as [|L]; [discriminate|]. now apply Rnot_lt_le.
      * intros [_ [_ ->]]. reflexivity.
Qed.
Lemma exit_run_ok gam nn E F : exit_run gam nn E = Ok F <->
  (forall i, (i < nn)%nat -> 0 < E "nozzle_pressure_ratio" i) /\ F = vcompute (DuctExitMachNumber gam) E.
Proof.
  unfold exit_run. destruct (nonpos nn _) eqn:N.
  - split; [discriminate|]. intros [H _]. apply nonpos_false in H. congruence.
  - rewrite nonpos_false in N. split; [intro H; inversion H; auto|intros [_ ->]; reflexivity].
Qed.

Lemma station_facts nn V i : solution (DuctStation nn) V -> (i < nn)%nat ->
  0 < V "mdot" i /\ V "pt_out" i <= 10 ^ 8 /\
  V "Tt_out" i = V "Tt_in" i + V "heat_in" i / V "cp" 0%nat / V "mdot" i /\
  V "pt_out" i = V "pt_in" i * V "pressure_recovery" i -
    (1/2) * V "mdot" i ^ 2 / V "rho" i / V "area" 0%nat ^ 2 * V "dynamic_pressure_loss_factor" 0%nat + V "delta_p" i /\
  V "T" i = V "Tt_out" i * / isen air_gam (V "M" i) /\
  V "p" i = V "pt_out" i * Rpower (isen air_gam (V "M" i)) (- air_gam / (air_gam - 1)) /\
  V "rho" i = V "p" i / air_R / V "T" i /\
  V "a" i = sqrt (air_gam * air_R * warm (V "T" i)) /\
  V "mdot" i - V "M" i * V "a" i * V "area" 0%nat * V "rho" i = 0.
Proof.
  intros S Hi.
  destruct (checked_ok (DuctStation nn) V nn "totals" HeatAdditionPressureLoss heat_run _ _ S ltac:(left; reflexivity)) as [F [HF HV]].
  apply heat_run_ok in HF. destruct HF as [Hm [Hp ->]]. pose proof (Hm i Hi) as M1. pose proof (Hp i Hi) as P1.
  pose proof (HV "Tt_out" Vec _ i eq_refl Hi) as B1. pose proof (HV "pt_out" Vec _ i eq_refl Hi) as B2.
  assert (E2 : V "pt_out" i = vcompute HeatAdditionPressureLoss (fun x => V (source (DuctStation nn) (gname "totals" [P "*"] x))) "pt_out" i) by exact B2.
  rewrite <- E2 in P1. clear E2.
  split; [exact M1|]. split; [exact P1|]. split; [exact B1|]. split; [exact B2|].
  split; [exact (sol_comp (DuctStation nn) V nn "temp" (TemperatureIsentropic air_gam) _ _ "T" Vec _ i S ltac:(right; left; reflexivity) eq_refl Hi)|].
  split; [exact (sol_comp (DuctStation nn) V nn "pressure" (PressureIsentropic air_gam) _ _ "p" Vec _ i S ltac:(right; right; left; reflexivity) eq_refl Hi)|].
  split; [exact (sol_comp (DuctStation nn) V nn "density" (DensityIdealGas air_R) _ _ "rho" Vec _ i S ltac:(do 3 right; left; reflexivity) eq_refl Hi)|].
  split; [exact (sol_comp (DuctStation nn) V nn "speedsound" (SpeedOfSound air_R air_gam) _ _ "a" Vec _ i S ltac:(do 4 right; left; reflexivity) eq_refl Hi)|].
  exact (S (implicit nn "mach" MachNumberDuct [P "*"] [P "*"]) ltac:(do 5 right; left; reflexivity) "M" Vec _ i eq_refl Hi).
Qed.
Lemma inlet_facts nn V i : solution (Inlet nn) V -> (i < nn)%nat ->
  V "a" i = sqrt (air_gam * air_R * warm (V "T" i)) /\ V "M" i = V "Utrue" i / V "a" i /\
  V "Tt" i = V "T" i * isen air_gam (V "M" i) /\
  V "pt" i = V "p" i * Rpower (isen air_gam (V "M" i)) (air_gam / (air_gam - 1)) * V "totalpressure.eta_ram" i.
Proof.
  intros S Hi.
  split; [exact (sol_comp (Inlet nn) V nn "speedsound" (SpeedOfSound air_R air_gam) _ _ "a" Vec _ i S ltac:(left; reflexivity) eq_refl Hi)|].
  split; [exact (sol_comp (Inlet nn) V nn "mach" MachNumberfromSpeed _ _ "M" Vec _ i S ltac:(right; left; reflexivity) eq_refl Hi)|].
  split; [exact (sol_comp (Inlet nn) V nn "freestreamtotaltemperature" (TotalTemperatureIsentropic air_gam) _ _ "Tt" Vec _ i S ltac:(do 2 right; left; reflexivity) eq_refl Hi)|].
  pose proof (sol_comp (Inlet nn) V nn "freestreamtotalpressure" (TotalPressureIsentropic air_gam) _ _ "pt" Vec _ i S ltac:(do 3 right; left; reflexivity) eq_refl Hi) as B1.
  pose proof (sol_comp (Inlet nn) V nn "totalpressure" ram_recovery _ _ "pt" Vec _ i S ltac:(do 4 right; left; reflexivity) eq_refl Hi) as B2.
  change (V "pt" i = V "freestreamtotalpressure.pt" i * V "totalpressure.eta_ram" i) in B2. rewrite B2. f_equal. exact B1.
Qed.
Lemma nozzle_facts nn V i : solution (OutletNozzle nn) V -> (i < nn)%nat ->
  V "pt" i = V "pt_in" i - (1/2) * V "mdot" i ^ 2 / V "rho" i / V "area" i ^ 2 * V "dynamic_pressure_loss_factor" 0%nat /\
  V "nozzle_pressure_ratio" i - V "p_exit" i / V "pt" i = 0 /\ 0 < V "nozzle_pressure_ratio" i /\
  V "M" i = exit_mach air_gam (V "nozzle_pressure_ratio" i) /\
  V "T" i = V "Tt" i * / isen air_gam (V "M" i) /\
  V "p" i = V "pt" i * Rpower (isen air_gam (V "M" i)) (- air_gam / (air_gam - 1)) /\
  V "rho" i = V "p" i / air_R / V "T" i /\
  V "a" i = sqrt (air_gam * air_R * warm (V "T" i)) /\
  V "mdot_actual" i = V "M" i * V "a" i * V "area" i * V "rho" i.
Proof.
  intros S Hi.
  split; [exact (sol_comp (OutletNozzle nn) V nn "pressureloss" NozzlePressureLoss _ _ "pt" Vec _ i S ltac:(left; reflexivity) eq_refl Hi)|].
  split; [exact (S (implicit nn "pressureratio" DuctExitPressureRatioImplicit [P "*"] [P "*"]) ltac:(right; left; reflexivity) "nozzle_pressure_ratio" Vec _ i eq_refl Hi)|].
  destruct (checked_ok (OutletNozzle nn) V nn "machimplicit" (DuctExitMachNumber air_gam) (exit_run air_gam) _ _ S ltac:(do 2 right; left; reflexivity)) as [F [HF HV]].
  apply exit_run_ok in HF. destruct HF as [Hm ->]. 
  split; [exact (Hm i Hi)|]. split; [exact (HV "M" Vec _ i eq_refl Hi)|].
  split; [exact (sol_comp (OutletNozzle nn) V nn "temp" (TemperatureIsentropic air_gam) _ _ "T" Vec _ i S ltac:(do 3 right; left; reflexivity) eq_refl Hi)|].
  split; [exact (sol_comp (OutletNozzle nn) V nn "pressure" (PressureIsentropic air_gam) _ _ "p" Vec _ i S ltac:(do 4 right; left; reflexivity) eq_refl Hi)|].
  split; [exact (sol_comp (OutletNozzle nn) V nn "density" (DensityIdealGas air_R) _ _ "rho" Vec _ i S ltac:(do 5 right; left; reflexivity) eq_refl Hi)|].
  split; [exact (sol_comp (OutletNozzle nn) V nn "speedsound" (SpeedOfSound air_R air_gam) _ _ "a" Vec _ i S ltac:(do 6 right; left; reflexivity) eq_refl Hi)|].
  exact (sol_comp (OutletNozzle nn) V nn "massflow" MassFlow _ [As "mdot" "mdot_actual"] "mdot" Vec _ i S ltac:(do 7 right; left; reflexivity) eq_refl Hi).
Qed.

(** ** Streams of air *)
Lemma stream_of T p M : 0 < T -> 0 < p ->
  air_stream T p (p / air_R / T) (sqrt (air_gam * air_R * T)) M (M * sqrt (air_gam * air_R * T)) (T * isen air_gam M)
    (p * Rpower (isen air_gam M) (air_gam / (air_gam - 1))).
Proof.
  intros HT Hp. assert (G : 1 < air_gam) by (unfold air_gam; lra). assert (Q : 0 < air_gam * air_R * T) by (unfold air_gam, air_R; nra).
  constructor; auto.
  - change R_air with air_R. field. unfold air_R. lra.
  - split; [now apply sqrt_lt_R0|]. rewrite pow2_sqrt by lra. reflexivity.
  - rewrite Rpow_mult_distr, pow2_sqrt by lra. unfold cp_air, gamma_air, R_air, isen, air_gam, air_R. field.
  - replace (T * isen air_gam M / T) with (isen air_gam M) by (field; lra).
    change gamma_air with air_gam. field. lra.
Qed.
(** The state reached from total values. *)
Lemma stream_from_total Tt pt M T p rho a : 0 < Tt -> 0 < pt -> T = Tt * / isen air_gam M ->
  p = pt * Rpower (isen air_gam M) (- air_gam / (air_gam - 1)) -> rho = p / air_R / T -> a = sqrt (air_gam * air_R * warm T) ->
  air_stream T p rho a M (M * a) Tt pt.
Proof.
  intros HT Hp ET Ep Er Ea. assert (G : 1 < air_gam) by (unfold air_gam; lra). pose proof (isen_pos air_gam M G) as I.
  assert (T0 : 0 < T) by (rewrite ET; apply Rmult_lt_0_compat; [auto|now apply Rinv_0_lt_compat]).
  assert (p0 : 0 < p) by (rewrite Ep; apply Rmult_lt_0_compat; [auto|apply Rpower_pos]).
  rewrite (warm_pos T T0) in Ea.
  replace Tt with (T * isen air_gam M) by (rewrite ET; field; lra).
  replace pt with (p * Rpower (isen air_gam M) (air_gam / (air_gam - 1))).
  2:{ rewrite Ep, expo_neg, Rpower_Ropp, Rmult_assoc, Rinv_l, Rmult_1_r; [reflexivity|]. pose proof (Rpower_pos (isen air_gam M) (air_gam / (air_gam - 1))). lra. }
  subst rho a. now apply stream_of.
Qed.
(** Speed from Mach number and total temperature. *)
Lemma speed_sq Tt M T a : 0 < Tt -> T = Tt * / isen air_gam M -> a = sqrt (air_gam * air_R * warm T) ->
  (M * a) ^ 2 = air_gam * air_R * Tt * (M ^ 2 * / isen air_gam M).
Proof.
  intros HT ET Ea. assert (G : 1 < air_gam) by (unfold air_gam; lra). pose proof (isen_pos air_gam M G) as I.
  assert (T0 : 0 < T) by (rewrite ET; apply Rmult_lt_0_compat; [auto|now apply Rinv_0_lt_compat]).
  rewrite (warm_pos T T0) in Ea. subst a. rewrite Rpow_mult_distr, pow2_sqrt by (unfold air_gam, air_R; nra). rewrite ET. ring.
Qed.
Lemma mach_fraction_mono M N : 0 <= M <= N -> M ^ 2 * / isen air_gam M <= N ^ 2 * / isen air_gam N.
Proof.
  intro H. assert (G : 1 < air_gam) by (unfold air_gam; lra). pose proof (isen_pos air_gam M G) as I. pose proof (isen_pos air_gam N G) as J.
  apply (Rmult_le_reg_r (isen air_gam M * isen air_gam N)); [now apply Rmult_lt_0_compat|].
  replace (M ^ 2 * / isen air_gam M * (isen air_gam M * isen air_gam N)) with (M ^ 2 * isen air_gam N) by (field; lra).
  replace (N ^ 2 * / isen air_gam N * (isen air_gam M * isen air_gam N)) with (N ^ 2 * isen air_gam M) by (field; lra).
  unfold isen. assert (M ^ 2 <= N ^ 2) by nra. lra.
Qed.

(** ** Groups inside the ducts: the same facts, in the enclosing group's names. *)
Ltac inl := apply mem_In; reflexivity.
Lemma station_in G V nn name pin pout i : solution G V -> In (subgroup name (DuctStation nn) pin pout) (g_subs G) -> (i < nn)%nat ->
  let r x := V (source G (gname name pin x)) in let w x := V (gname name pout x) in
  0 < r "mdot" i /\ w "pt_out" i <= 10 ^ 8 /\
  w "Tt_out" i = r "Tt_in" i + r "heat_in" i / r "cp" 0%nat / r "mdot" i /\
  w "pt_out" i = r "pt_in" i * r "pressure_recovery" i -
    (1/2) * r "mdot" i ^ 2 / w "rho" i / r "area" 0%nat ^ 2 * r "dynamic_pressure_loss_factor" 0%nat + r "delta_p" i /\
  w "T" i = w "Tt_out" i * / isen air_gam (w "M" i) /\
  w "p" i = w "pt_out" i * Rpower (isen air_gam (w "M" i)) (- air_gam / (air_gam - 1)) /\
  w "rho" i = w "p" i / air_R / w "T" i /\
  w "a" i = sqrt (air_gam * air_R * warm (w "T" i)) /\
  r "mdot" i - w "M" i * w "a" i * r "area" 0%nat * w "rho" i = 0.
Proof.
  intros S I Hi. destruct (sol_nested _ _ _ _ _ _ _ _ S I) as [W [SW [HI HO]]]. pose proof (station_facts nn W i SW Hi) as F.
  rewrite !(HO "pt_out" i ltac:(inl)), !(HO "Tt_out" i ltac:(inl)), !(HO "rho" i ltac:(inl)), !(HO "T" i ltac:(inl)), !(HO "p" i ltac:(inl)),
    !(HO "M" i ltac:(inl)), !(HO "a" i ltac:(inl)), !(HI "mdot" i ltac:(inl)), !(HI "Tt_in" i ltac:(inl)), !(HI "heat_in" i ltac:(inl)),
    !(HI "cp" 0%nat ltac:(inl)), !(HI "pt_in" i ltac:(inl)), !(HI "pressure_recovery" i ltac:(inl)), !(HI "area" 0%nat ltac:(inl)),
    !(HI "dynamic_pressure_loss_factor" 0%nat ltac:(inl)), !(HI "delta_p" i ltac:(inl)) in F. exact F.
Qed.
Lemma inlet_in G V nn name pin pout i : solution G V -> In (subgroup name (Inlet nn) pin pout) (g_subs G) -> (i < nn)%nat ->
  let r x := V (source G (gname name pin x)) in let w x := V (gname name pout x) in
  w "a" i = sqrt (air_gam * air_R * warm (r "T" i)) /\ w "M" i = r "Utrue" i / w "a" i /\
  w "Tt" i = r "T" i * isen air_gam (w "M" i) /\
  w "pt" i = r "p" i * Rpower (isen air_gam (w "M" i)) (air_gam / (air_gam - 1)) * r "totalpressure.eta_ram" i.
Proof.
  intros S I Hi. destruct (sol_nested _ _ _ _ _ _ _ _ S I) as [W [SW [HI HO]]]. pose proof (inlet_facts nn W i SW Hi) as F.
  rewrite !(HO "a" i ltac:(inl)), !(HO "M" i ltac:(inl)), !(HO "Tt" i ltac:(inl)), !(HO "pt" i ltac:(inl)),
    !(HI "T" i ltac:(inl)), !(HI "Utrue" i ltac:(inl)), !(HI "p" i ltac:(inl)), !(HI "totalpressure.eta_ram" i ltac:(inl)) in F. exact F.
Qed.
Lemma nozzle_in G V nn name pin pout i : solution G V -> In (subgroup name (OutletNozzle nn) pin pout) (g_subs G) -> (i < nn)%nat ->
  let r x := V (source G (gname name pin x)) in let w x := V (gname name pout x) in
  w "pt" i = r "pt_in" i - (1/2) * r "mdot" i ^ 2 / w "rho" i / r "area" i ^ 2 * r "dynamic_pressure_loss_factor" 0%nat /\
  w "nozzle_pressure_ratio" i - r "p_exit" i / w "pt" i = 0 /\ 0 < w "nozzle_pressure_ratio" i /\
  w "M" i = exit_mach air_gam (w "nozzle_pressure_ratio" i) /\
  w "T" i = r "Tt" i * / isen air_gam (w "M" i) /\
  w "p" i = w "pt" i * Rpower (isen air_gam (w "M" i)) (- air_gam / (air_gam - 1)) /\
  w "rho" i = w "p" i / air_R / w "T" i /\
  w "a" i = sqrt (air_gam * air_R * warm (w "T" i)) /\
  w "mdot_actual" i = w "M" i * w "a" i * r "area" i * w "rho" i.
Proof.
  intros S I Hi. destruct (sol_nested _ _ _ _ _ _ _ _ S I) as [W [SW [HI HO]]]. pose proof (nozzle_facts nn W i SW Hi) as F.
  rewrite !(HO "pt" i ltac:(inl)), !(HO "rho" i ltac:(inl)), !(HO "T" i ltac:(inl)), !(HO "p" i ltac:(inl)),
    !(HO "M" i ltac:(inl)), !(HO "a" i ltac:(inl)), !(HO "nozzle_pressure_ratio" i ltac:(inl)), !(HO "mdot_actual" i ltac:(inl)),
    !(HI "mdot" i ltac:(inl)), !(HI "Tt" i ltac:(inl)), !(HI "p_exit" i ltac:(inl)),
    !(HI "pt_in" i ltac:(inl)), !(HI "area" i ltac:(inl)),
    !(HI "dynamic_pressure_loss_factor" 0%nat ltac:(inl)) in F. exact F.
Qed.

(** Exit pressure: ambient pressure plus [convergence_hack]. *)
Lemma exit_pressure_value nn E i : (0 < nn)%nat -> (i < nn)%nat ->
  add_compute (exit_pressure nn) E i = Ok (E "p_inf" i + E "convergence_hack" 0%nat).
Proof.
  intros Hn Hi.
  assert (W : add_wf (exit_pressure nn)).
  { split; [|exact I]. unfold sizes_wf. simpl. split; [discriminate|]. split; [reflexivity|].
    intros k [<-|[<-|[]]]; [right; lia|now left]. }
  assert (Rw : row_of nn i = i). { unfold row_of. destruct (Nat.eqb_spec nn 1); lia. }
  pose proof (add_value _ E i 0 W ltac:(simpl; lia)) as V1.
  change (as_len (exit_pressure nn)) with 1%nat in V1. replace (i * 1 + 0)%nat with i in V1 by lia.
  rewrite V1. f_equal. cbn [as_ins exit_pressure List.length rsum nth in_size as_vec]. unfold entry, factor. cbn [as_sf exit_pressure].
  rewrite Rw. unfold row_of. simpl Nat.eqb. cbv iota. cbn [Nat.mul Nat.add]. rewrite Nat.mul_1_r, Nat.add_0_r. ring.
Qed.

(** What holds in a converged duct at point [i]; [dp3], [q3], [a2], [a3] name the sources
    of the third station's pressure change and heat and of the two face areas. *)
Definition station_eqs (V : env) (i : nat) (sta Tin pin q K rec A dp : string) : Prop :=
  let w x := V (String.append sta (String.append "." x)) i in
  0 < V "mdot" i /\ w "pt_out" <= 10 ^ 8 /\
  w "Tt_out" = V Tin i + V q i / V "cp" 0%nat / V "mdot" i /\
  w "pt_out" = V pin i * V rec i - (1/2) * V "mdot" i ^ 2 / w "rho" / V A 0%nat ^ 2 * V K 0%nat + V dp i /\
  w "T" = w "Tt_out" * / isen air_gam (w "M") /\
  w "p" = w "pt_out" * Rpower (isen air_gam (w "M")) (- air_gam / (air_gam - 1)) /\
  w "rho" = w "p" / air_R / w "T" /\ w "a" = sqrt (air_gam * air_R * warm (w "T")) /\
  V "mdot" i - w "M" * w "a" * V A 0%nat * w "rho" = 0.
Record duct_eqs (cfg : R) (V : env) (i : nat) (dp3 q3 a2 a3 : string) : Prop := {
  d_in : V "inlet.a" i = sqrt (air_gam * air_R * warm (V "T_inf" i)) /\ V "inlet.M" i = V "Utrue" i / V "inlet.a" i /\
    V "inlet.Tt" i = V "T_inf" i * isen air_gam (V "inlet.M" i) /\
    V "inlet.pt" i = V "p_inf" i * Rpower (isen air_gam (V "inlet.M" i)) (air_gam / (air_gam - 1)) * V "inlet.totalpressure.eta_ram" i;
  d_1 : station_eqs V i "sta1" "inlet.Tt" "inlet.pt" "heat_in_1" "loss_factor_1" "pressure_recovery_1" "area_1" "delta_p_1";
  d_2 : station_eqs V i "sta2" "sta1.Tt_out" "sta1.pt_out" "heat_in_2" "sta2.dynamic_pressure_loss_factor" "pressure_recovery_2" a2 "delta_p_2";
  d_3 : station_eqs V i "sta3" "sta2.Tt_out" "sta2.pt_out" q3 "sta3.dynamic_pressure_loss_factor" "pressure_recovery_3" a3 dp3;
  d_n : let w x := V (String.append "nozzle." x) i in
    w "pt" = V "sta3.pt_out" i - (1/2) * V "mdot" i ^ 2 / w "rho" / V "area_nozzle" i ^ 2 * V "nozzle.dynamic_pressure_loss_factor" 0%nat /\
    w "nozzle_pressure_ratio" - V "p_exit" i / w "pt" = 0 /\ 0 < w "nozzle_pressure_ratio" /\
    w "M" = exit_mach air_gam (w "nozzle_pressure_ratio") /\
    w "T" = V "sta3.Tt_out" i * / isen air_gam (w "M") /\
    w "p" = w "pt" * Rpower (isen air_gam (w "M")) (- air_gam / (air_gam - 1)) /\
    w "rho" = w "p" / air_R / w "T" /\ w "a" = sqrt (air_gam * air_R * warm (w "T")) /\
    V "mdot_actual" i = w "M" * w "a" * V "area_nozzle" i * w "rho";
  d_pe : V "p_exit" i = V "p_inf" i + V "convergence_hack" 0%nat;
  d_match : V "mdot_actual" i - V "mdot" i = 0;
  d_F : V "force.F_net" i = V "mdot" i * (V "mdot" i / V "area_nozzle" i / V "nozzle.rho" i * cfg - V "Utrue" i) +
    V "area_nozzle" i * cfg * (V "nozzle.p" i - V "p_inf" i)
}.
Lemma duct_eqs_hx nn cfg V i : solution (ImplicitCompressibleDuct nn cfg) V -> (i < nn)%nat ->
  duct_eqs cfg V i "hx.delta_p_cold" "hx.heat_transfer" "hx.frontal_area" "hx.frontal_area".
Proof.
  intros S Hi. set (G := ImplicitCompressibleDuct nn cfg) in *. constructor.
  - exact (inlet_in G V nn "inlet" _ _ i S ltac:(do 2 right; left; reflexivity) Hi).
  - exact (station_in G V nn "sta1" _ _ i S ltac:(do 3 right; left; reflexivity) Hi).
  - exact (station_in G V nn "sta2" _ _ i S ltac:(do 4 right; left; reflexivity) Hi).
  - exact (station_in G V nn "sta3" _ _ i S ltac:(do 6 right; left; reflexivity) Hi).
  - exact (nozzle_in G V nn "nozzle" _ _ i S ltac:(do 8 right; left; reflexivity) Hi).
  - pose proof (S _ ltac:(do 7 right; left; reflexivity) i Hi) as B. cbv beta in B. rewrite exit_pressure_value in B by lia. inversion B as [B']. symmetry. exact B'.
  - exact (S _ ltac:(right; left; reflexivity) "mdot" Vec _ i eq_refl Hi).
  - exact (sol_comp G V nn "force" (NetForce cfg) _ _ "F_net" Vec _ i S ltac:(do 9 right; left; reflexivity) eq_refl Hi).
Qed.
Lemma duct_eqs_ext nn cfg V i : solution (ImplicitCompressibleDuct_ExternalHX nn cfg) V -> (i < nn)%nat ->
  duct_eqs cfg V i "sta3.delta_p" "sta3.heat_in" "area_2" "area_3".
Proof.
  intros S Hi. set (G := ImplicitCompressibleDuct_ExternalHX nn cfg) in *. constructor.
  - exact (inlet_in G V nn "inlet" _ _ i S ltac:(do 3 right; left; reflexivity) Hi).
  - exact (station_in G V nn "sta1" _ _ i S ltac:(do 4 right; left; reflexivity) Hi).
  - exact (station_in G V nn "sta2" _ _ i S ltac:(do 5 right; left; reflexivity) Hi).
  - exact (station_in G V nn "sta3" _ _ i S ltac:(do 6 right; left; reflexivity) Hi).
  - exact (nozzle_in G V nn "nozzle" _ _ i S ltac:(do 8 right; left; reflexivity) Hi).
  - pose proof (S _ ltac:(do 7 right; left; reflexivity) i Hi) as B. cbv beta in B. rewrite exit_pressure_value in B by lia. inversion B as [B']. symmetry. exact B'.
  - exact (S _ ltac:(do 2 right; left; reflexivity) "mdot" Vec _ i eq_refl Hi).
  - exact (sol_comp G V nn "force" (NetForce cfg) _ _ "F_net" Vec _ i S ltac:(do 9 right; left; reflexivity) eq_refl Hi).
Qed.

Lemma ratio_bounds gam m : 1 < gam -> 0 <= m <= 1 -> critical_ratio gam <= Rpower (isen gam m) (- gam / (gam - 1)) <= 1.
Proof.
  intros H Hm. set (r := Rpower _ _). pose proof (isen_ge gam m H) as I. assert (R0 : 0 < r) by apply Rpower_pos.
  assert (E : Rpower r ((1 - gam) / gam) = isen gam m).
  { unfold r. rewrite Rpower_mult. replace (- gam / (gam - 1) * ((1 - gam) / gam)) with 1 by (field; lra). apply Rpower_1. lra. }
  split.
  - destruct (Rle_dec (critical_ratio gam) r) as [L|L]; auto. exfalso.
    pose proof (ratio_decreasing gam r (critical_ratio gam) H R0 ltac:(lra)) as X. rewrite crit_power, E in X by auto. unfold isen in X.
    assert (m ^ 2 <= 1) by nra. assert (0 <= (gam - 1) / 2 * (1 - m ^ 2)) by (apply Rmult_le_pos; lra). lra.
  - destruct (Rle_dec r 1) as [L|L]; auto. exfalso. pose proof (ratio_decreasing gam 1 r H ltac:(lra) ltac:(lra)) as X. rewrite ratio_one, E in X. lra.
Qed.

Section Duct.
  Context (cfg : R) (V : env) (i : nat) (dp3 q3 a2 a3 : string) (D : duct_eqs cfg V i dp3 q3 a2 a3).
  Let G1 : 1 < air_gam. Proof. unfold air_gam. lra. Qed.

  Lemma station_rho sta Tin pin q K rec A dp : station_eqs V i sta Tin pin q K rec A dp ->
    0 < V (String.append sta ".Tt_out") i -> 0 < V (String.append sta ".pt_out") i ->
    0 < V (String.append sta ".rho") i /\ V A 0%nat <> 0.
  Proof.
    intros [Hm [_ [_ [_ [ET [Ep [Er [_ Ef]]]]]]]] HT Hp. cbv zeta in *.
    assert (E1 : forall x, String.append sta (String.append "." x) = String.append sta (String.append "." x)) by reflexivity.
    change ("." ++ "Tt_out")%string with ".Tt_out" in *. change ("." ++ "pt_out")%string with ".pt_out" in *.
    change ("." ++ "rho")%string with ".rho" in *. set (M := V (sta ++ "." ++ "M")%string i) in *. pose proof (isen_pos air_gam M G1) as I.
    assert (T0 : 0 < V (sta ++ "." ++ "T")%string i). { rewrite ET. apply Rmult_lt_0_compat; [exact HT|now apply Rinv_0_lt_compat]. }
    assert (p0 : 0 < V (sta ++ "." ++ "p")%string i). { rewrite Ep. apply Rmult_lt_0_compat; [exact Hp|apply Rpower_pos]. }
    split.
    - rewrite Er. apply quot_pos; [apply quot_pos; [exact p0|unfold air_R; lra]|exact T0].
    - intro Z. rewrite Z in Ef. lra.
  Qed.
  (** With no pressure gain the total pressure does not rise across a station. *)
  Lemma station_loss sta Tin pin q K rec A dp : station_eqs V i sta Tin pin q K rec A dp ->
    0 < V (String.append sta ".Tt_out") i -> 0 < V (String.append sta ".pt_out") i ->
    0 <= V rec i <= 1 -> 0 <= V K 0%nat -> V dp i <= 0 -> V (String.append sta ".pt_out") i <= V pin i.
  Proof.
    intros S HT Hp Hr HK Hd. destruct (station_rho _ _ _ _ _ _ _ _ S HT Hp) as [R0 A0].
    destruct S as [Hm [_ [_ [E _]]]]. cbv zeta in E. change ("." ++ "pt_out")%string with ".pt_out" in *. change ("." ++ "rho")%string with ".rho" in *.
    set (P1 := V (sta ++ ".pt_out")%string i) in *. set (rho := V (sta ++ ".rho")%string i) in *. set (P0 := V pin i) in *.
    assert (Q : 0 <= (1/2) * V "mdot" i ^ 2 / rho / V A 0%nat ^ 2 * V K 0%nat).
    { assert (0 < V A 0%nat ^ 2) by (replace (V A 0%nat ^ 2) with (V A 0%nat * V A 0%nat) by ring; now apply Rsqr_pos_lt).
      apply Rmult_le_pos; [|exact HK]. left. apply quot_pos; [|assumption]. apply quot_pos; [|assumption]. nra. }
    assert (0 < P0 * V rec i) by lra. assert (0 < P0) by nra. nra.
  Qed.

  Let U := V "Utrue" i.
  Let Tinf := V "T_inf" i.
  Let pinf := V "p_inf" i.
  Let ptn := V "nozzle.pt" i.
  Let Tt3 := V "sta3.Tt_out" i.
  Context (HT : 0 < Tinf) (Hp : 0 < pinf) (HU : 0 <= U) (Hsub : U ^ 2 <= gamma_air * R_air * Tinf).
  Context (Hcfg : 0 <= cfg <= 1) (Hack : V "convergence_hack" 0%nat = 0).

  Lemma inlet_mach : 0 <= V "inlet.M" i <= 1 /\ V "inlet.M" i * V "inlet.a" i = U /\ 0 < V "inlet.a" i.
  Proof.
    destruct (d_in _ _ _ _ _ _ _ D) as [Ea [EM _]]. fold Tinf in Ea. rewrite (warm_pos _ HT) in Ea.
    assert (Q : 0 < air_gam * air_R * Tinf) by (unfold air_gam, air_R; nra).
    assert (A0 : 0 < V "inlet.a" i) by (rewrite Ea; now apply sqrt_lt_R0).
    assert (A2 : V "inlet.a" i ^ 2 = air_gam * air_R * Tinf) by (rewrite Ea, pow2_sqrt; [reflexivity|now left]).
    assert (UA : U <= V "inlet.a" i). { change (U ^ 2 <= air_gam * air_R * Tinf) in Hsub. nra. }
    fold U in EM. rewrite EM. repeat split; auto.
    - apply Rmult_le_pos; [exact HU|left; now apply Rinv_0_lt_compat].
    - apply (Rmult_le_reg_r (V "inlet.a" i)); [exact A0|]. unfold Rdiv. rewrite Rmult_assoc, Rinv_l by lra. lra.
    - field. lra.
  Qed.
  (** Total pressure of the free stream before the inlet. *)
  Definition P_free : R := pinf * Rpower (isen air_gam (V "inlet.M" i)) (air_gam / (air_gam - 1)).
  Lemma P_free_ratio : pinf / P_free = Rpower (isen air_gam (V "inlet.M" i)) (- air_gam / (air_gam - 1)).
  Proof.
    unfold P_free. rewrite expo_neg, Rpower_Ropp. pose proof (Rpower_pos (isen air_gam (V "inlet.M" i)) (air_gam / (air_gam - 1))). field. lra.
  Qed.
  Lemma P_free_pos : 0 < P_free.
  Proof. unfold P_free. apply Rmult_lt_0_compat; [exact Hp|apply Rpower_pos]. Qed.

  Context (Hpt : pinf <= ptn).
  Lemma nozzle_flow : 0 < Tt3 -> ptn <= P_free ->
    V "nozzle.M" i <= V "inlet.M" i /\ V "nozzle.p" i = pinf /\
    V "mdot" i / V "area_nozzle" i / V "nozzle.rho" i = V "nozzle.M" i * V "nozzle.a" i /\ 0 <= V "nozzle.M" i /\ 0 <= V "nozzle.a" i /\
    (V "nozzle.M" i * V "nozzle.a" i) ^ 2 = air_gam * air_R * Tt3 * (V "nozzle.M" i ^ 2 * / isen air_gam (V "nozzle.M" i)) /\
    V "nozzle.M" i = exit_mach air_gam (pinf / ptn).
  Proof.
    intros T3 HP. destruct inlet_mach as [IM _]. pose proof (ratio_bounds air_gam _ G1 IM) as RB. rewrite <- P_free_ratio in RB.
    destruct (d_n _ _ _ _ _ _ _ D) as [_ [Er [_ [EM [ET [Ep [Erho [Ea Em]]]]]]]]. cbn [String.append] in *.
    fold ptn in Er, Ep. fold Tt3 in ET.
    rewrite (d_pe _ _ _ _ _ _ _ D), Hack, Rplus_0_r in Er. fold pinf in Er.
    set (r := V "nozzle.nozzle_pressure_ratio" i) in *. assert (Rr : r = pinf / ptn) by lra. clear Er.
    assert (Pn : 0 < ptn) by lra.
    assert (B1 : pinf / P_free <= r). { rewrite Rr. unfold Rdiv. apply Rmult_le_compat_l; [lra|]. apply Rinv_le_contravar; lra. }
    assert (B2 : r <= 1). { rewrite Rr. apply (Rmult_le_reg_r ptn); [lra|]. unfold Rdiv. rewrite Rmult_assoc, Rinv_l by lra. lra. }
    assert (Pf := P_free_pos). assert (B3 : 0 < pinf / P_free) by (apply quot_pos; lra).
    assert (MM : V "nozzle.M" i <= V "inlet.M" i).
    { rewrite EM. rewrite <- (exit_inverse air_gam (V "inlet.M" i) G1 IM), <- P_free_ratio. apply exit_antitone; lra. }
    assert (PP : V "nozzle.p" i = pinf). { rewrite Ep, EM, exit_pressure_matched by lra. rewrite Rr. field. lra. }
    pose proof (d_match _ _ _ _ _ _ _ D) as Mt. destruct (d_1 _ _ _ _ _ _ _ D) as [Mp _].
    assert (Vel : V "mdot" i / V "area_nozzle" i / V "nozzle.rho" i = V "nozzle.M" i * V "nozzle.a" i).
    { replace (V "mdot" i) with (V "mdot_actual" i) by lra. rewrite Em. field.
      split; intro Z; rewrite Z in Em; lra. }
    split; [exact MM|]. split; [exact PP|]. split; [exact Vel|]. split; [rewrite EM; apply exit_nonneg|]. split; [rewrite Ea; apply sqrt_pos|].
    split; [|now rewrite <- Rr]. exact (speed_sq Tt3 _ _ _ T3 ET Ea).
  Qed.
  Lemma inlet_speed_sq : U ^ 2 = air_gam * air_R * V "inlet.Tt" i * (V "inlet.M" i ^ 2 * / isen air_gam (V "inlet.M" i)) /\ 0 < V "inlet.Tt" i.
  Proof.
    destruct inlet_mach as [IM [EU _]]. destruct (d_in _ _ _ _ _ _ _ D) as [Ea [_ [ETt _]]].
    pose proof (isen_pos air_gam (V "inlet.M" i) G1) as I.
    assert (P : 0 < V "inlet.Tt" i) by (rewrite ETt; now apply Rmult_lt_0_compat). split; [|exact P].
    rewrite <- EU. apply (speed_sq _ _ (V "T_inf" i)); auto. rewrite ETt. field. lra.
  Qed.
  Lemma duct_no_thrust : 0 < Tt3 -> ptn <= P_free -> Tt3 <= V "inlet.Tt" i -> V "force.F_net" i <= 0.
  Proof.
    intros T3 HP HTt. destruct (nozzle_flow T3 HP) as [MM [PP [Vel [M0 [A0 [SQ _]]]]]]. destruct inlet_speed_sq as [SU I0].
    pose proof (mach_fraction_mono _ _ (conj M0 MM)) as FM. pose proof (isen_pos air_gam (V "nozzle.M" i) G1) as I.
    rewrite (d_F _ _ _ _ _ _ _ D), Vel, PP. fold U pinf. unfold Rminus at 2. rewrite Rplus_opp_r, Rmult_0_r, Rplus_0_r.
    destruct (d_1 _ _ _ _ _ _ _ D) as [Mp _].
    set (v := V "nozzle.M" i * V "nozzle.a" i) in *. assert (v0 : 0 <= v) by (now apply Rmult_le_pos).
    set (f1 := V "nozzle.M" i ^ 2 * / isen air_gam (V "nozzle.M" i)) in *. set (f2 := V "inlet.M" i ^ 2 * / isen air_gam (V "inlet.M" i)) in *.
    assert (f0 : 0 <= f1). { unfold f1. apply Rmult_le_pos; [nra|left; now apply Rinv_0_lt_compat]. }
    assert (VU : v ^ 2 <= U ^ 2).
    { rewrite SQ, SU. rewrite !Rmult_assoc. apply Rmult_le_compat_l; [unfold air_gam; lra|]. apply Rmult_le_compat_l; [unfold air_R; lra|].
      apply Rmult_le_compat; lra. }
    assert (v <= U) by nra. assert (v * cfg <= v) by nra. nra.
  Qed.
  Lemma duct_lossless : ptn = P_free -> Tt3 = V "inlet.Tt" i ->
    V "nozzle.M" i = V "inlet.M" i /\ V "nozzle.T" i = Tinf /\ V "nozzle.p" i = pinf /\
    V "mdot" i = V "nozzle.rho" i * V "area_nozzle" i * U /\
    V "force.F_net" i = - (1 - cfg) * V "mdot" i * U.
  Proof.
    intros HP HTt. destruct inlet_speed_sq as [SU I0]. destruct (nozzle_flow ltac:(rewrite HTt; exact I0) ltac:(rewrite HP; apply Rle_refl)) as [_ [PP [Vel [_ [_ [SQ EM]]]]]].
    destruct inlet_mach as [IM [EU A0]]. destruct (d_in _ _ _ _ _ _ _ D) as [Ea [_ [ETt _]]].
    assert (M1 : V "nozzle.M" i = V "inlet.M" i). { rewrite EM, HP, P_free_ratio. now apply exit_inverse. }
    destruct (d_n _ _ _ _ _ _ _ D) as [_ [_ [_ [_ [ET [_ [_ [En Em]]]]]]]]. cbn [String.append] in *. fold Tt3 in ET.
    pose proof (isen_pos air_gam (V "inlet.M" i) G1) as I.
    assert (T1 : V "nozzle.T" i = Tinf). { rewrite ET, HTt, M1, ETt. unfold Tinf. field. lra. }
    assert (A1 : V "nozzle.a" i = V "inlet.a" i). { rewrite En, T1, Ea. reflexivity. }
    rewrite M1, A1 in *. split; [reflexivity|]. split; [exact T1|]. split; [exact PP|]. pose proof (d_match _ _ _ _ _ _ _ D) as Mt. split.
    - replace (V "mdot" i) with (V "mdot_actual" i) by lra. rewrite Em, <- EU. ring.
    - rewrite (d_F _ _ _ _ _ _ _ D), Vel, PP, EU. fold U pinf. ring.
  Qed.
End Duct.
