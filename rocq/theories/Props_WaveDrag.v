(** C74: wave drag of a wing region. *)
From Coq Require Import Reals List Bool PeanoNat String Lia Lra Psatz.
From Coquelicot Require Import Coquelicot.
From Verif Require Import Base RSum Model_Vectors Model_Aero Model_Drag Spec_WaveDrag.
From Verif Require Import Proofs_Deriv Proofs_Cs Proofs_HeatPipe Proofs_Friction.
Import ListNotations.
Open Scope R_scope.

(** ** The average thickness *)
Lemma linspace_at a b n k : (1 < n)%nat -> (k <= n - 1)%nat -> linspace a b n k = a + (b - a) * (INR k / INR (n - 1)).
Proof.
  intros Hn Hk. unfold linspace. destruct (Nat.eqb_spec n 1); [lia|]. assert (0 < INR (n - 1)) by (apply lt_0_INR; lia).
  destruct (Nat.eqb_spec k (n - 1)) as [->|]; [field; lra|field; lra].
Qed.
Lemma trapz_product n a a' b b' y y' : (1 < n)%nat ->
  trapz n (fun k => linspace a a' n k * linspace b b' n k) (fun k => linspace y y' n k) =
  (y' - y) * (a * b + (a * (b' - b) + b * (a' - a)) / 2 + (a' - a) * (b' - b) * (1 / 3 + 1 / (6 * INR (n - 1) ^ 2))).
Proof.
  intro Hn. set (N := INR (n - 1)). assert (HN : 0 < N) by (apply lt_0_INR; lia). unfold trapz.
  assert (G : forall m, (m <= n - 1)%nat -> rsum m (fun k => (linspace y y' n (k + 1) - linspace y y' n k) * (linspace a a' n (k + 1) * linspace b b' n (k + 1) + linspace a a' n k * linspace b b' n k) / 2)
    = (y' - y) * (a * b * (INR m / N) + (a * (b' - b) + b * (a' - a)) / 2 * (INR m / N) ^ 2 + (a' - a) * (b' - b) * ((INR m / N) ^ 3 / 3 + INR m / N / (6 * N ^ 2)))).
  { induction m as [|m IH]; intro Hm; [cbn; field; lra|]. cbn [rsum]. rewrite IH by lia. rewrite !linspace_at by lia. fold N.
    rewrite S_INR, plus_INR. cbn [INR]. field. lra. }
  rewrite G by lia. fold N. field. lra.
Qed.
Lemma line_int y0 y1 a b : y0 < y1 -> RInt (on_line y0 y1 a b) y0 y1 = (a + b) / 2 * (y1 - y0).
Proof.
  intro H. set (F := fun y => a * (y - y0) + (b - a) * (y - y0) ^ 2 / (2 * (y1 - y0))). apply is_RInt_unique.
  replace ((a + b) / 2 * (y1 - y0)) with (minus (F y1) (F y0)) by (unfold F, minus, plus, opp; cbn; field; lra).
  apply (is_RInt_derive (V := R_CompleteNormedModule) F).
  - intros y _. unfold on_line, F. auto_derive; [lra|]. field. lra.
  - intros y _. unfold on_line. apply (ex_derive_continuous (K := R_AbsRing) (V := R_NormedModule)). auto_derive. lra.
Qed.
Lemma line_prod_int y0 y1 a a' b b' : y0 < y1 -> RInt (fun y => on_line y0 y1 a a' y * on_line y0 y1 b b' y) y0 y1
  = (y1 - y0) * (a * b + (a * (b' - b) + b * (a' - a)) / 2 + (a' - a) * (b' - b) / 3).
Proof.
  intro H. set (F := fun y => a * b * (y - y0) + (a * (b' - b) + b * (a' - a)) * (y - y0) ^ 2 / (2 * (y1 - y0)) + (a' - a) * (b' - b) * (y - y0) ^ 3 / (3 * (y1 - y0) ^ 2)).
  apply is_RInt_unique. replace (_ * _) with (minus (F y1) (F y0)) by (unfold F, minus, plus, opp; cbn; field; lra).
  apply (is_RInt_derive (V := R_CompleteNormedModule) F).
  - intros y _. unfold on_line, F. auto_derive; [lra|]. field. lra.
  - intros y _. unfold on_line. apply (ex_derive_continuous (K := R_AbsRing) (V := R_NormedModule)). auto_derive. lra.
Qed.
Lemma panel_thickness_value tc s a : panel_thickness 500 tc s a =
  (full_y s (a + 1)%nat - full_y s a) * (tc a * sec_c s a + (tc a * (sec_c s (a + 1)%nat - sec_c s a) + sec_c s a * (tc (a + 1)%nat - tc a)) / 2 + (tc (a + 1)%nat - tc a) * (sec_c s (a + 1)%nat - sec_c s a) * (1 / 3 + 1 / (6 * 499 ^ 2))).
Proof. unfold panel_thickness. rewrite trapz_product by lia. replace (INR (500 - 1)) with 499 by (cbn [Nat.sub]; rewrite INR_IZR_INZ; reflexivity). reflexivity. Qed.
Lemma panel_area_int s start k : station s start k < station s start (S k) ->
  panel_area s (start + k) = RInt (on_line (station s start k) (station s start (S k)) (sec_c s (start + k)%nat) (sec_c s (start + S k)%nat)) (station s start k) (station s start (S k)).
Proof. intro H. rewrite line_int by assumption. unfold panel_area, station. replace (start + S k)%nat with (start + k + 1)%nat by lia. field. Qed.
Lemma side_area_eq s start p : (forall k, (k < p)%nat -> station s start k < station s start (S k)) -> rsum p (fun k => panel_area s (start + k)) = side_area s start p.
Proof. intro H. apply rsum_ext. intros k Hk. apply panel_area_int. now apply H. Qed.
Lemma panel_area_pos s start p k : proper_region s start p -> (k < p)%nat -> 0 < panel_area s (start + k).
Proof.
  intros (_ & H & C) Hk. unfold panel_area. pose proof (H k Hk) as H1. unfold station in H1. replace (start + S k)%nat with (start + k + 1)%nat in H1 by lia.
  pose proof (C k ltac:(lia)). pose proof (C (S k) ltac:(lia)) as C2. replace (start + S k)%nat with (start + k + 1)%nat in C2 by lia.
  apply Rmult_lt_0_compat; lra.
Qed.
Lemma rsum_pos n f : (0 < n)%nat -> (forall k, (k < n)%nat -> 0 < f k) -> 0 < rsum n f.
Proof.
  induction n as [|n IH]; intros Hn H; [lia|]. cbn [rsum]. pose proof (H n ltac:(lia)). destruct n as [|n]; [cbn; lra|]. pose proof (IH ltac:(lia) ltac:(intros; apply H; lia)). lra.
Qed.
Lemma side_area_pos s start p : proper_region s start p -> 0 < side_area s start p.
Proof. intro P. rewrite <- side_area_eq by apply P. apply rsum_pos; [apply P|]. intros. now apply (panel_area_pos s start p). Qed.
Lemma avg_value tc s start e : proper_region s start (n_panels s start e) ->
  avg_toverc tc start e s = rsum (n_panels s start e) (fun k => panel_thickness 500 tc s (start + k)) / side_area s start (n_panels s start e).
Proof.
  intro P. unfold avg_toverc. set (p := n_panels s start e) in *. rewrite side_area_eq by apply P. f_equal. apply rsum_ext. intros k Hk. pose proof (panel_area_pos _ _ _ _ P Hk). field. lra.
Qed.
(** The 500 point quadrature: its exact distance from the area-weighted mean. *)
Theorem C74_average_thickness tc s start e : proper_region s start (n_panels s start e) ->
  avg_toverc tc start e s - mean_toverc tc s start (n_panels s start e) =
  rsum (n_panels s start e) (fun k => (station s start (S k) - station s start k) * (tc (start + S k)%nat - tc (start + k)%nat) * (sec_c s (start + S k)%nat - sec_c s (start + k)%nat))
  / (6 * 499 ^ 2) / side_area s start (n_panels s start e).
Proof.
  intro P. rewrite avg_value by assumption. pose proof (side_area_pos _ _ _ P) as A. unfold mean_toverc. set (p := n_panels s start e) in *. set (T := side_area s start p) in *.
  set (X := rsum p (fun k => panel_thickness 500 tc s (start + k))). set (Y := rsum p (fun k => RInt _ _ _)). set (Z := rsum p (fun k => _ * _ * _)).
  assert (E : X - Y = Z / (6 * 499 ^ 2)).
  { unfold X, Y, Z. rewrite <- rsum_minus. unfold Rdiv. rewrite <- rsum_scal_r. apply rsum_ext. intros k Hk. rewrite line_prod_int by now apply P.
    rewrite panel_thickness_value. unfold station. replace (start + S k)%nat with (start + k + 1)%nat by lia. field. }
  rewrite <- E. field. lra.
Qed.
Print Assumptions C74_average_thickness.

(** One panel's thickness lies between the bounds of its section ratios. *)
Lemma panel_thickness_bound tc s start p k lo hi : proper_region s start p -> (k < p)%nat -> (forall j, (j <= p)%nat -> lo <= tc (start + j)%nat <= hi) ->
  lo * panel_area s (start + k) <= panel_thickness 500 tc s (start + k) <= hi * panel_area s (start + k).
Proof.
  intros (_ & H & C) Hk B. rewrite panel_thickness_value. unfold panel_area. pose proof (H k Hk) as H1. unfold station in H1.
  pose proof (C k ltac:(lia)) as C1. pose proof (C (S k) ltac:(lia)) as C2. pose proof (B k ltac:(lia)) as B1. pose proof (B (S k) ltac:(lia)) as B2.
  replace (start + S k)%nat with (start + k + 1)%nat in * by lia. set (a := tc (start + k)%nat) in *. set (a' := tc (start + k + 1)%nat) in *.
  set (c := sec_c s (start + k)%nat) in *. set (c' := sec_c s (start + k + 1)%nat) in *. set (y := full_y s (start + k)%nat) in *. set (y' := full_y s (start + k + 1)%nat) in *. clearbody a a' c c' y y'.
  replace (a * c + (a * (c' - c) + c * (a' - a)) / 2 + (a' - a) * (c' - c) * (1 / 3 + 1 / (6 * 499 ^ 2)))
    with ((1/3 + 1 / (6 * 499 ^ 2)) * (a * c + a' * c') + (1/6 - 1 / (6 * 499 ^ 2)) * (a * c' + a' * c)) by field.
  set (w := 1 / (6 * 499 ^ 2)). assert (W : 0 < w < 1/6) by (unfold w; lra). clearbody w.
  assert (M : forall u v, u <= v -> (y' - y) * u <= (y' - y) * v) by (intros; apply Rmult_le_compat_l; lra).
  split.
  - replace (lo * _) with ((y' - y) * ((1/3 + w) * (lo * c + lo * c') + (1/6 - w) * (lo * c' + lo * c))) by field. apply M.
    apply Rplus_le_compat; (apply Rmult_le_compat_l; [lra|]); apply Rplus_le_compat; apply Rmult_le_compat_r; lra.
  - replace (hi * _) with ((y' - y) * ((1/3 + w) * (hi * c + hi * c') + (1/6 - w) * (hi * c' + hi * c))) by field. apply M.
    apply Rplus_le_compat; (apply Rmult_le_compat_l; [lra|]); apply Rplus_le_compat; apply Rmult_le_compat_r; lra.
Qed.
Theorem C74_average_between_sections tc s start e lo hi : proper_region s start (n_panels s start e) ->
  (forall j, (j <= n_panels s start e)%nat -> lo <= tc (start + j)%nat <= hi) -> lo <= avg_toverc tc start e s <= hi.
Proof.
  intros P B. rewrite avg_value by assumption. pose proof (side_area_pos _ _ _ P) as A. set (p := n_panels s start e) in *.
  assert (L : rsum p (fun k => lo * panel_area s (start + k)) <= rsum p (fun k => panel_thickness 500 tc s (start + k))) by (apply rsum_le; intros k Hk; now apply (panel_thickness_bound tc s start p k lo hi)).
  assert (U : rsum p (fun k => panel_thickness 500 tc s (start + k)) <= rsum p (fun k => hi * panel_area s (start + k))) by (apply rsum_le; intros k Hk; now apply (panel_thickness_bound tc s start p k lo hi)).
  rewrite rsum_scal, side_area_eq in L, U by apply P. set (T := rsum p (fun k => panel_thickness 500 tc s (start + k))) in *. clearbody T.
  split; [apply (Rmult_le_reg_r (side_area s start p))|apply (Rmult_le_reg_r (side_area s start p))]; try assumption; unfold Rdiv; rewrite Rmult_assoc, Rinv_l by lra; lra.
Qed.
Print Assumptions C74_average_between_sections.
Lemma avg_mono tc tc' s start e : proper_region s start (n_panels s start e) -> (forall j, (j <= n_panels s start e)%nat -> tc (start + j)%nat <= tc' (start + j)%nat) ->
  avg_toverc tc start e s <= avg_toverc tc' start e s.
Proof.
  intros P H. rewrite !avg_value by assumption. pose proof (side_area_pos _ _ _ P) as A. set (p := n_panels s start e) in *.
  apply Rmult_le_compat_r; [now apply Rlt_le, Rinv_0_lt_compat|]. apply rsum_le. intros k Hk. rewrite !panel_thickness_value. destruct P as (_ & P & C). pose proof (P k Hk) as H1. unfold station in H1.
  pose proof (C k ltac:(lia)) as C1. pose proof (C (S k) ltac:(lia)) as C2. pose proof (H k ltac:(lia)) as B1. pose proof (H (S k) ltac:(lia)) as B2.
  replace (start + S k)%nat with (start + k + 1)%nat in * by lia. apply Rmult_le_compat_l; [lra|].
  set (w := 1 / (6 * 499 ^ 2)). assert (W : 0 < w < 1/6) by (unfold w; lra). clearbody w.
  set (a := tc (start + k)%nat) in *. set (a' := tc (start + k + 1)%nat) in *. set (b := tc' (start + k)%nat) in *. set (b' := tc' (start + k + 1)%nat) in *.
  set (c := sec_c s (start + k)%nat) in *. set (c' := sec_c s (start + k + 1)%nat) in *.
  assert (X : forall a a', a * c + (a * (c' - c) + c * (a' - a)) / 2 + (a' - a) * (c' - c) * (1 / 3 + w) = (1/3 + w) * (a * c + a' * c') + (1/6 - w) * (a * c' + a' * c)) by (intros; field).
  rewrite !X. apply Rplus_le_compat; (apply Rmult_le_compat_l; [lra|]); apply Rplus_le_compat; apply Rmult_le_compat_r; lra.
Qed.

(** ** The drag rise *)
Lemma gap_cube : 80 * gap ^ 3 = 1/10.
Proof.
  unfold gap. rewrite <- Rpower_pow by apply Rpower_pos. rewrite Rpower_mult. replace (1/3 * INR 3) with 1 by (cbn; field). rewrite Rpower_1 by lra. field.
Qed.
Lemma gap_pos : 0 < gap.
Proof. apply Rpower_pos. Qed.
Lemma critical_korn tech t sw CL : critical_mach tech t sw CL = korn tech t sw CL - gap.
Proof. 
  unfold critical_mach, drag_divergence, korn. fold gap. replace (sw * PI / 180) with (sw / 180 * PI) by field. set (c := cos _). unfold Rdiv. rewrite Rinv_mult, Rmult_assoc. reflexivity.
Qed.
Lemma wave_value tech tc start e s sw M CL : CD_wave tech tc start e s None sw M CL =
  2 * (if Rlt_dec (critical_mach tech (avg_toverc tc start e s) sw CL) M then 20 * (M - critical_mach tech (avg_toverc tc start e s) sw CL) ^ 4 else 0).
Proof. reflexivity. Qed.

(** No wave drag up to the critical Mach number, some beyond it. *)
Theorem C74_onset tech tc start e s sw M CL : let Mc := korn tech (avg_toverc tc start e s) sw CL - gap in
  (M <= Mc -> CD_wave tech tc start e s None sw M CL = 0) /\ (Mc < M -> 0 < CD_wave tech tc start e s None sw M CL).
Proof.
  cbv zeta. rewrite <- critical_korn. rewrite wave_value. set (Mc := critical_mach _ _ _ _). split; intro H; destruct (Rlt_dec Mc M); try lra. assert (0 < (M - Mc) ^ 4) by (apply pow_lt; lra). lra.
Qed.
Print Assumptions C74_onset.

(** The drag rises smoothly: at every Mach number, that of the onset included, its slope is
    [160 (M - Mc)^3] beyond the onset and 0 before. *)
Lemma rise_der Mc M : is_derive (fun M => 2 * (if Rlt_dec Mc M then 20 * (M - Mc) ^ 4 else 0)) M (if Rlt_dec Mc M then 160 * (M - Mc) ^ 3 else 0).
Proof.
  destruct (Rlt_dec Mc M) as [L|L].
  - apply (is_derive_ext_loc (fun M => 40 * (M - Mc) ^ 4)).
    + generalize (open_gt Mc M L). apply filter_imp. intros x Hx. match goal with |- ?l = ?r => change (@eq R l r) end. destruct (Rlt_dec Mc x); [ring|contradiction].
    + auto_derive; [auto|ring].
  - destruct (Rle_lt_or_eq_dec M Mc) as [L'| ->]; [lra| |].
    + apply (is_derive_ext_loc (fun _ => 0)); [|apply is_derive_Reals, derivable_pt_lim_const].
      generalize (open_lt Mc M L'). apply filter_imp. intros x Hx. match goal with |- ?l = ?r => change (@eq R l r) end. destruct (Rlt_dec Mc x); lra.
    + clear L. apply is_derive_Reals. intros eps He. assert (D : 0 < Rmin 1 (eps / 80)) by (apply Rmin_pos; lra). exists (mkposreal _ D). intros h Hh Hd. cbn [pos] in Hd.
      destruct (Rlt_dec Mc Mc); [lra|]. rewrite Rmult_0_r, !Rminus_0_r.
      destruct (Rlt_dec Mc (Mc + h)) as [P|P]; [|unfold Rdiv; rewrite Rmult_0_r, Rmult_0_l, Rabs_R0; assumption].
      replace (2 * (20 * (Mc + h - Mc) ^ 4) / h) with (40 * h ^ 3) by (field; lra). assert (0 < h) by lra. rewrite Rabs_right in Hd by lra.
      pose proof (Rmin_l 1 (eps / 80)). pose proof (Rmin_r 1 (eps / 80)). assert (h < 1) by lra. assert (h < eps / 80) by lra.
      assert (h ^ 3 <= h) by nra. rewrite Rabs_right by (apply Rle_ge; apply Rmult_le_pos; [lra|apply pow_le; lra]). lra.
Qed.
Theorem C74_smooth_rise tech tc start e s sw M CL : let Mc := korn tech (avg_toverc tc start e s) sw CL - gap in
  is_derive (fun M => CD_wave tech tc start e s None sw M CL) M (if Rlt_dec Mc M then 160 * (M - Mc) ^ 3 else 0).
Proof. cbv zeta. rewrite <- critical_korn. apply rise_der. Qed.
Print Assumptions C74_smooth_rise.
(** At the drag divergence Mach number of Korn's equation, whose definition is a slope of
    0.1, the slope is 0.1 for each of the two sides of the wing. *)
Theorem C74_divergence tech tc start e s sw CL : let MDD := korn tech (avg_toverc tc start e s) sw CL in
  is_derive (fun M => CD_wave tech tc start e s None sw M CL) MDD (2 * (1/10)).
Proof.
  cbv zeta. eapply D_eq; [apply C74_smooth_rise|]. cbv zeta. set (m := korn _ _ _ _). pose proof gap_pos. destruct (Rlt_dec (m - gap) m); [|lra]. replace (m - (m - gap)) with gap by ring.
  pose proof gap_cube. change R0 with 0. lra.
Qed.
Print Assumptions C74_divergence.

(** Faster, more lift or thicker: at least as much wave drag. *)
Theorem C74_monotone tech tc tc' start e s sw M M' CL CL' : proper_region s start (n_panels s start e) -> 0 < cos (sw / 180 * PI) ->
  M <= M' -> CL <= CL' -> (forall j, (j <= n_panels s start e)%nat -> tc (start + j)%nat <= tc' (start + j)%nat) ->
  CD_wave tech tc start e s None sw M CL <= CD_wave tech tc' start e s None sw M' CL'.
Proof.
  intros P C HM HC HT. rewrite !wave_value. pose proof (avg_mono tc tc' s start e P HT) as A.
  assert (K : critical_mach tech (avg_toverc tc' start e s) sw CL' <= critical_mach tech (avg_toverc tc start e s) sw CL).
  { rewrite !critical_korn. unfold korn. set (c := cos _) in *. assert (0 < / c ^ 2) by (apply Rinv_0_lt_compat, pow_lt, C). assert (0 < / c ^ 3) by (apply Rinv_0_lt_compat, pow_lt, C).
    unfold Rdiv. pose proof (Rmult_le_compat_r (/ c ^ 2) _ _ ltac:(lra) A). pose proof (Rmult_le_compat_r (/ c ^ 3) (CL / 10) (CL' / 10) ltac:(lra) ltac:(lra)). unfold Rdiv in *. lra. }
  set (m := critical_mach tech (avg_toverc tc start e s) sw CL) in *. set (m' := critical_mach tech (avg_toverc tc' start e s) sw CL') in *. clearbody m m'.
  apply Rmult_le_compat_l; [lra|]. destruct (Rlt_dec m M), (Rlt_dec m' M'); try lra.
  - apply Rmult_le_compat_l; [lra|]. apply pow_incr. lra.
  - apply Rmult_le_pos; [lra|]. apply pow_le. lra.
Qed.
Print Assumptions C74_monotone.

(** ** Normalisation
    Full property: with [specify_area_norm] the coefficient refers to the area [S] given
    instead of the planform area of the region (both sides), so that coefficient times
    area, the drag per dynamic pressure, is the same.  Proved: when the two areas are equal. *)
Theorem C74_normalisation_partial tech tc start e s sw M CL : proper_region s start (n_panels s start e) ->
  let A := 2 * side_area s start (n_panels s start e) in
  CD_wave tech tc start e s (Some A) sw M CL * A = CD_wave tech tc start e s None sw M CL * A.
Proof.
  intro P. cbv zeta. pose proof (side_area_pos _ _ _ P). unfold CD_wave. rewrite side_area_eq by apply P. set (m := critical_mach _ _ _ _). set (x := if Rlt_dec m M then _ else _). field. lra.
Qed.
Print Assumptions C74_normalisation_partial.
(** It fails for every other positive area once there is wave drag: the code multiplies by
    [S / A] where it should multiply by [A / S]. *)
Theorem C74_normalisation_refuted tech tc start e s sw M CL S : proper_region s start (n_panels s start e) ->
  let A := 2 * side_area s start (n_panels s start e) in
  0 < S -> S <> A -> korn tech (avg_toverc tc start e s) sw CL - gap < M ->
  CD_wave tech tc start e s (Some S) sw M CL * S <> CD_wave tech tc start e s None sw M CL * A.
Proof.
  intros P A HS N H E. pose proof (side_area_pos _ _ _ P) as HA. destruct (C74_onset tech tc start e s sw M CL) as [_ D]. specialize (D H).
  assert (V : CD_wave tech tc start e s (Some S) sw M CL = CD_wave tech tc start e s None sw M CL * (S / A)).
  { unfold CD_wave. rewrite side_area_eq by apply P. reflexivity. }
  rewrite V in E. set (d := CD_wave tech tc start e s None sw M CL) in *. clearbody d. assert (HA2 : 0 < A) by (unfold A; lra). clearbody A.
  assert (X : d * (S * S) = d * (A * A)). { replace (d * (S * S)) with (d * (S / A) * S * A) by (field; lra). rewrite E. ring. }
  apply Rmult_eq_reg_l in X; [|lra]. assert ((S - A) * (S + A) = 0) by lra. apply Rmult_integral in H0. destruct H0; lra.
Qed.
Print Assumptions C74_normalisation_refuted.

(** A trapezoidal half wing of 10 m, chords 1 m at the tip and 3 m at the root, t/c 0.10 and 0.14. *)
Definition wave_wing : sections := {| sec_n := 2; sec_x := fun _ => 0; sec_y := fun _ => -10; sec_c := fun k => match k with O => 1 | _ => 3 end |}.
Definition wave_tc (k : nat) : R := match k with O => 10/100 | _ => 14/100 end.
Example wave_wing_ok : n_panels wave_wing 0 None = 1%nat /\ proper_region wave_wing 0 1 /\ side_area wave_wing 0 1 = 20.
Proof.
  split; [reflexivity|]. assert (S0 : station wave_wing 0 0 = -10) by reflexivity. assert (S1 : station wave_wing 0 1 = 0) by reflexivity. split.
  - repeat split; [lia| |].
    + intros k Hk. replace k with 0%nat by lia. rewrite S0, S1. lra.
    + intros k Hk. cbn. destruct k; lra.
  - unfold side_area. cbn [rsum]. rewrite S0, S1, line_int by lra. cbn. field.
Qed.
Example wave_wing_drag : 0 < CD_wave (95/100) wave_tc 0 None wave_wing None 0 (9/10) (1/2) /\
  CD_wave (95/100) wave_tc 0 None wave_wing (Some 100) 0 (9/10) (1/2) * 100 <> CD_wave (95/100) wave_tc 0 None wave_wing None 0 (9/10) (1/2) * 40.
Proof.
  destruct wave_wing_ok as (E & P & A). assert (B : 10/100 <= avg_toverc wave_tc 0 None wave_wing <= 14/100).
  { apply C74_average_between_sections; rewrite E; [exact P|]. intros j Hj. unfold wave_tc. destruct (0 + j)%nat; lra. }
  assert (K : korn (95/100) (avg_toverc wave_tc 0 None wave_wing) 0 (1/2) - gap < 9/10).
  { unfold korn. replace (0 / 180 * PI) with 0 by field. rewrite cos_0. pose proof gap_pos. rewrite !pow1. lra. }
  split; [now apply C74_onset|]. replace 40 with (2 * side_area wave_wing 0 (n_panels wave_wing 0 None)) by (rewrite E, A; ring).
  apply C74_normalisation_refuted; rewrite ?E; auto; try lra; rewrite ?A; lra.
Qed.
