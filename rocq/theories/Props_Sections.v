(** C76: the mesh through given wing sections. *)
From Coq Require Import Reals List Bool PeanoNat Lia Lra.
From Coquelicot Require Import Coquelicot.
From Verif Require Import RSum Py Model_Algebra Model_Vectors Model_Aero Model_Mesh Spec_Mesh Proofs_Mesh.
Import ListNotations.
Open Scope R_scope.

(** ** The panels accepted at setup *)
Theorem C76_setup n_sec num_y l :
  panels n_sec num_y = Ok l <-> (2 <= n_sec)%nat /\ List.length l = (n_sec - 1)%nat /\ match num_y with VInt n => forall a, In a l -> a = n | VList l' => l = l' end.
Proof.
  unfold panels. destruct (Nat.ltb_spec n_sec 2) as [H|H]; [split; [discriminate|lia]|]. destruct num_y as [n|l'].
  - split.
    + intros [= <-]. split; [assumption|]. split; [apply repeat_length|]. intros a Ha. now apply repeat_spec in Ha.
    + intros (_ & HL & HA). f_equal. rewrite <- HL. clear HL H. induction l as [|b l IH]; [reflexivity|]. cbn [List.length repeat]. rewrite (HA b (or_introl eq_refl)) at 1. f_equal. apply IH. intros a Ha. apply HA. now right.
  - destruct (Nat.eqb_spec (List.length l') (n_sec - 1)) as [E|E]; cbn [negb]; split.
    + intros [= <-]. auto.
    + now intros (_ & _ & ->).
    + discriminate.
    + intros (_ & HL & ->). congruence.
Qed.
Print Assumptions C76_setup.
Example setup_cases : panels 4 (VInt 3%nat) = Ok [3; 3; 3]%nat /\ panels 4 (VList [1; 2; 3]%nat) = Ok [1; 2; 3]%nat /\ panels 1 (VInt 3%nat) = Err ValueError /\ panels 4 (VList [1; 2]%nat) = Err ValueError.
Proof. repeat split. Qed.

(** ** Where the points lie *)
Lemma area_planform s : area s = sections_planform s.
Proof. unfold area, sections_planform. rewrite Rmult_comm. f_equal. apply rsum_ext. intros. field. Qed.
Lemma mesh_scaled nx l s A ix j d : section_mesh nx l s A ix j d = scaling s A * unscaled nx l s ix j d.
Proof. unfold section_mesh, scaling. destruct A; [rewrite area_planform|]; ring. Qed.
Lemma step_frac n k : (1 < n)%nat -> (k <= n - 1)%nat -> cf n k = cosine_step (n - 1) k.
Proof. intros Hn Hk. unfold cf, cosine_step. rewrite lin_at by assumption. replace (0 + (PI - 0) * (INR k / INR (n - 1))) with (PI * (INR k / INR (n - 1))) by ring. field. Qed.
Lemma cf_last n : (1 <= n)%nat -> cf (n + 1) n = 1.
Proof. intro H. replace n with (n + 1 - 1)%nat at 2 by lia. apply cf_1. lia. Qed.
Section AtRegions.
  Variables (nx : nat) (l : list nat) (s : sections).
  Hypothesis (R : regions_ok s l).
  Lemma R_len i : (i < sec_n s - 1)%nat -> (1 <= ny_of l i)%nat.
  Proof. destruct R as (H1 & H2 & H3). intro H. apply ny_pos; [assumption|lia]. Qed.
  Lemma R_col i : (i < sec_n s)%nat -> column l i = region_start l i.
  Proof. destruct R as (H1 & H2 & _). intro H. apply column_start. lia. Qed.
  Lemma R_total : region_start l (sec_n s - 1) = total l.
  Proof. destruct R as (_ & H2 & _). rewrite <- H2. apply start_total. Qed.
  Lemma unscaled_y ix i k : (i < sec_n s - 1)%nat -> (k <= ny_of l i)%nat ->
    unscaled nx l s ix (region_start l i + k)%nat 1%nat = full_y s i + (full_y s (i + 1)%nat - full_y s i) * cf (ny_of l i + 1) k.
  Proof.
    intros Hi Hk. unfold unscaled. rewrite (written_at l _ _ i); [| |exact R_len|assumption|lia].
    - rewrite cos_space_eq. replace (region_start l i + k - region_start l i)%nat with k by lia. reflexivity.
    - intros a Ha. pose proof (R_len a ltac:(lia)). pose proof (R_len (a + 1) ltac:(lia)). rewrite !cos_space_eq. rewrite cf_last, cf_0 by lia. ring.
  Qed.
  Lemma unscaled_x ix i k : (i < sec_n s - 1)%nat -> (k <= ny_of l i)%nat ->
    unscaled nx l s ix (region_start l i + k)%nat 0%nat = cf nx ix * (sec_c s i + (sec_c s (i + 1)%nat - sec_c s i) * cf (ny_of l i + 1) k) + (sec_x s i + (sec_x s (i + 1)%nat - sec_x s i) * cf (ny_of l i + 1) k).
  Proof.
    intros Hi Hk. unfold unscaled. rewrite (written_at l _ _ i); [| |exact R_len|assumption|lia].
    - rewrite !cos_space_eq. replace (region_start l i + k - region_start l i)%nat with k by lia. ring.
    - intros a Ha. pose proof (R_len a ltac:(lia)). pose proof (R_len (a + 1) ltac:(lia)). rewrite !cos_space_eq. rewrite cf_last, cf_0 by lia. ring.
  Qed.
  Lemma R_locate j : (j <= total l)%nat -> exists i k, (i < sec_n s - 1)%nat /\ (k <= ny_of l i)%nat /\ j = (region_start l i + k)%nat.
  Proof.
    intro Hj. destruct R as (H1 & _ & _). destruct (locate l (sec_n s - 1) j) as [i [Hi Hk]]; [exact R_len|lia|rewrite R_total; assumption|]. exists i, (j - region_start l i)%nat. repeat split; try lia.
  Qed.
End AtRegions.

(** Section [i] is the mesh column [column l i]: its leading edge, its chord and its spanwise
    position there are those given, times one common factor, for any resolution. *)
Theorem C76_sections nx l s A i ix : (1 < nx)%nat -> regions_ok s l -> (i < sec_n s)%nat ->
  let m := section_mesh nx l s A in let k := scaling s A in
  py m ix (column l i) = k * full_y s i /\ px m 0 (column l i) = k * sec_x s i /\ chord m nx (column l i) = k * sec_c s i.
Proof.
  intros Hx R Hi m k. rewrite (R_col l s R) by assumption. unfold py, chord, px, m. rewrite !mesh_scaled. fold k. destruct R as (H1 & H2 & H3) eqn:E. destruct (Nat.eq_dec i (sec_n s - 1)) as [->|N].
  - replace (sec_n s - 1)%nat with ((sec_n s - 2) + 1)%nat by lia. rewrite start_S. pose proof (R_len l s R (sec_n s - 2) ltac:(lia)).
    rewrite (unscaled_y nx l s R), !(unscaled_x nx l s R) by lia. rewrite !cf_last, cf_1, cf_0 by lia. repeat split; ring.
  - pose proof (R_len l s R i ltac:(lia)). replace (region_start l i) with (region_start l i + 0)%nat by lia. rewrite (unscaled_y nx l s R), !(unscaled_x nx l s R) by lia. rewrite !cf_0, cf_1 by lia. repeat split; ring.
Qed.
Print Assumptions C76_sections.

(** Leading edge, trailing edge and every chordwise line are straight between sections. *)
Theorem C76_straight nx l s A i ix j : regions_ok s l -> (i + 1 < sec_n s)%nat -> full_y s i <> full_y s (i + 1)%nat -> scaling s A <> 0 -> (column l i <= j <= column l (i + 1)%nat)%nat ->
  let m := section_mesh nx l s A in let a := column l i in let b := column l (i + 1)%nat in
  px m ix j = between (py m ix a) (py m ix b) (px m ix a) (px m ix b) (py m ix j).
Proof.
  intros R Hi Hy Hk Hj m a b. unfold a, b. rewrite !(R_col l s R) in * by lia. rewrite start_S in *. pose proof (R_len l s R i ltac:(lia)). unfold py, px, m. rewrite !mesh_scaled.
  replace j with (region_start l i + (j - region_start l i))%nat by lia. replace (unscaled nx l s ix (region_start l i)) with (unscaled nx l s ix (region_start l i + 0)%nat) by (f_equal; lia).
  rewrite !(unscaled_y nx l s R), !(unscaled_x nx l s R) by lia. rewrite !cf_last, !cf_0 by lia. set (k := scaling s A) in *. set (f := cf _ (j - _)). unfold between. set (u := full_y s i) in *. set (v := full_y s (i + 1)%nat) in *.
  assert (G : k * (u + (v - u) * 1) - k * (u + (v - u) * 0) <> 0) by (replace (k * (u + (v - u) * 1) - k * (u + (v - u) * 0)) with (k * (v - u)) by ring; apply Rmult_integral_contrapositive_currified; lra).
  field. lra.
Qed.
Print Assumptions C76_straight.

(** The points of a region, and those along the chord, are spaced by cosines. *)
Theorem C76_spacing nx l s A i k ix : (1 < nx)%nat -> regions_ok s l -> (i + 1 < sec_n s)%nat -> (k <= ny_of l i)%nat -> (ix < nx)%nat ->
  let m := section_mesh nx l s A in let a := column l i in let b := column l (i + 1)%nat in
  b = (a + ny_of l i)%nat /\
  py m ix (a + k)%nat = py m ix a + cosine_step (ny_of l i) k * (py m ix b - py m ix a) /\
  px m ix (a + k)%nat = px m 0 (a + k)%nat + cosine_step (nx - 1) ix * chord m nx (a + k)%nat.
Proof.
  intros Hx R Hi Hk Hix m a b. unfold a, b. rewrite !(R_col l s R) in * by lia. rewrite start_S in *. pose proof (R_len l s R i ltac:(lia)). split; [reflexivity|]. unfold chord, py, px, m. rewrite !mesh_scaled.
  replace (unscaled nx l s ix (region_start l i)) with (unscaled nx l s ix (region_start l i + 0)%nat) by (f_equal; lia).
  rewrite !(unscaled_y nx l s R), !(unscaled_x nx l s R) by lia. rewrite !cf_last, !cf_0, !cf_1 by lia. rewrite <- step_frac by lia. rewrite (step_frac (ny_of l i + 1)%nat) by lia. replace (ny_of l i + 1 - 1)%nat with (ny_of l i) by lia. split; ring.
Qed.
Print Assumptions C76_spacing.
Theorem C76_flat_columns nx l s A ny : regions_ok s l -> ny = (column l (sec_n s - 1) + 1)%nat -> streamwise_columns (section_mesh nx l s A) nx ny.
Proof.
  intros R -> ix j Hi Hj. assert (H1 : (2 <= sec_n s)%nat) by apply R. rewrite (R_col l s R) in Hj by lia. rewrite (R_total l s R) in Hj. destruct (R_locate l s R j ltac:(lia)) as (i & k & Hi' & Hk & ->). unfold pz, py. rewrite !mesh_scaled. split; [cbn [unscaled]; ring|]. now rewrite !(unscaled_y nx l s R) by lia.
Qed.
Print Assumptions C76_flat_columns.

(** ** Area *)
Lemma telescope n (f : nat -> R) a b y0 y1 : rsum n (fun k => ((y0 + (y1 - y0) * f (S k)) - (y0 + (y1 - y0) * f k)) * ((a + (b - a) * f k) + (a + (b - a) * f (S k))) / 2)
  = (y1 - y0) * (a * (f n - f 0%nat) + (b - a) / 2 * (f n ^ 2 - f 0%nat ^ 2)).
Proof. induction n as [|n IH]; [cbn; field|]. cbn [rsum]. rewrite IH. field. Qed.
Lemma planform_unscaled nx l s A : (1 < nx)%nat -> regions_ok s l -> planform (section_mesh nx l s A) nx (total l + 1) = scaling s A ^ 2 * sections_planform s.
Proof.
  intros Hx R. unfold planform, sections_planform. replace (total l + 1 - 1)%nat with (total l) by lia. rewrite <- (R_total l s R), rsum_regions.
  set (k := scaling s A). replace (k ^ 2 * (2 * rsum (sec_n s - 1) (fun i => (full_y s (i + 1)%nat - full_y s i) * (sec_c s i + sec_c s (i + 1)%nat) / 2)))
    with (2 * (k ^ 2 * rsum (sec_n s - 1) (fun i => (full_y s (i + 1)%nat - full_y s i) * (sec_c s i + sec_c s (i + 1)%nat) / 2))) by ring. f_equal. rewrite <- rsum_scal. apply rsum_ext. intros i Hi. cbv beta.
  pose proof (R_len l s R i Hi) as Hn. transitivity (k ^ 2 * ((full_y s (i + 1)%nat - full_y s i) * (sec_c s i * (cf (ny_of l i + 1) (ny_of l i) - cf (ny_of l i + 1) 0) + (sec_c s (i + 1)%nat - sec_c s i) / 2 * (cf (ny_of l i + 1) (ny_of l i) ^ 2 - cf (ny_of l i + 1) 0 ^ 2)))).
  - rewrite <- telescope, <- rsum_scal. apply rsum_ext. intros q Hq. unfold chord, px, py. rewrite !mesh_scaled. fold k. replace (S (region_start l i + q)) with (region_start l i + S q)%nat by lia. rewrite !(unscaled_y nx l s R), !(unscaled_x nx l s R) by lia. rewrite !cf_1, !(cf_0 nx) by lia. field.
  - rewrite cf_last, cf_0 by lia. field.
Qed.
(** The mesh has the area asked for; without one, the area reported is that of the mesh. *)
Theorem C76_area nx l s A ny : (1 < nx)%nat -> regions_ok s l -> ny = (column l (sec_n s - 1) + 1)%nat -> 0 < sections_planform s ->
  match A with Some v => 0 <= v -> planform (section_mesh nx l s A) nx ny = v | None => planform (section_mesh nx l s A) nx ny = area s end.
Proof.
  intros Hx R -> HA. assert (H1 : (2 <= sec_n s)%nat) by apply R. rewrite (R_col l s R), (R_total l s R) by lia. rewrite planform_unscaled by assumption. unfold scaling. destruct A as [v|].
  - intro Hv. rewrite <- Rsqr_pow2, Rsqr_sqrt; [field; lra|]. apply Rmult_le_pos; [assumption|]. now apply Rlt_le, Rinv_0_lt_compat.
  - rewrite area_planform. ring.
Qed.
Print Assumptions C76_area.

(** ** No panel is folded over *)
Lemma blend_pos a b f : 0 < a -> 0 < b -> 0 <= f <= 1 -> 0 < a + (b - a) * f.
Proof. intros Ha Hb Hf. destruct (Rle_lt_dec a b); nra. Qed.
Theorem C76_ordered nx l s A ny : (1 < nx)%nat -> regions_ok s l -> ny = (column l (sec_n s - 1) + 1)%nat -> inboard s -> (forall i, (i < sec_n s)%nat -> 0 < sec_c s i) -> 0 < scaling s A ->
  ordered_points (section_mesh nx l s A) nx ny.
Proof.
  intros Hx R -> HI HC HK. assert (H1 : (2 <= sec_n s)%nat) by apply R. rewrite (R_col l s R), (R_total l s R) by lia. split; intros ix j Hi Hj; unfold py, px; rewrite !mesh_scaled; apply Rmult_lt_compat_l; try assumption.
  - rewrite <- (R_total l s R) in Hj. assert (G : exists i k, (i < sec_n s - 1)%nat /\ (k < ny_of l i)%nat /\ j = (region_start l i + k)%nat).
    { rewrite (R_total l s R) in Hj. destruct (R_locate l s R (S j) ltac:(lia)) as (i & k & Hi' & Hk & E). destruct k as [|k]; [|exists i, k; lia].
      destruct i as [|i]; [cbn [region_start] in E; lia|]. exists i, (ny_of l i - 1)%nat. pose proof (R_len l s R i ltac:(lia)). cbn [region_start] in E. lia. }
    destruct G as (i & k & Hi' & Hk & ->). replace (S (region_start l i + k)) with (region_start l i + S k)%nat by lia. rewrite !(unscaled_y nx l s R) by lia. pose proof (HI i ltac:(lia)). pose proof (cf_mono (ny_of l i + 1) k (S k) ltac:(lia) ltac:(lia)). nra.
  - destruct (R_locate l s R j ltac:(lia)) as (i & k & Hi' & Hk & ->). pose proof (R_len l s R i Hi'). rewrite !(unscaled_x nx l s R) by lia. pose proof (cf_mono nx ix (S ix) Hx ltac:(lia)). pose proof (blend_pos _ _ _ (HC i ltac:(lia)) (HC (i + 1)%nat ltac:(lia)) (cf_range (ny_of l i + 1) k ltac:(lia) ltac:(lia))). nra.
Qed.
Print Assumptions C76_ordered.
(** An ordered set of sections with positive chords has an area, so it can be scaled to any. *)
Theorem C76_scalable s v : (2 <= sec_n s)%nat -> inboard s -> (forall i, (i < sec_n s)%nat -> 0 < sec_c s i) -> 0 < v -> 0 < sections_planform s /\ 0 < scaling s (Some v) /\ 0 < scaling s None.
Proof.
  intros Hn HI HC Hv. assert (P : 0 < sections_planform s).
  { unfold sections_planform. apply Rmult_lt_0_compat; [lra|]. assert (G : forall k, (k <= sec_n s - 1)%nat -> (0 < k)%nat -> 0 < rsum k (fun i => (full_y s (i + 1)%nat - full_y s i) * (sec_c s i + sec_c s (i + 1)%nat) / 2)).
    { induction k as [|k IH]; intros H1 H2; [lia|]. cbn [rsum]. pose proof (HI k ltac:(lia)). pose proof (HC k ltac:(lia)). pose proof (HC (k + 1)%nat ltac:(lia)).
      assert (0 < (full_y s (k + 1)%nat - full_y s k) * (sec_c s k + sec_c s (k + 1)%nat)) by (apply Rmult_lt_0_compat; lra). destruct k as [|k]; [cbn [rsum] in *; lra|]. specialize (IH ltac:(lia) ltac:(lia)). lra. }
    apply G; lia. }
  split; [assumption|]. unfold scaling. split; [|lra]. apply sqrt_lt_R0. now apply Rdiv_lt_0_compat.
Qed.
Print Assumptions C76_scalable.
Definition cranked : sections := {| sec_n := 3; sec_x := fun i => nth i [2; 1; 0] 0; sec_y := fun i => nth i [-10; -4] 0; sec_c := fun i => nth i [1; 2; 4] 0 |}.
Example cranked_ok : regions_ok cranked [2; 3]%nat /\ inboard cranked /\ (forall i, (i < sec_n cranked)%nat -> 0 < sec_c cranked i) /\ column [2; 3]%nat 1 = 2%nat.
Proof.
  repeat split; try (cbn; lia).
  - repeat constructor; lia.
  - intros [|[|[|i]]] H; cbn in *; try lia; unfold full_y; cbn; lra.
  - intros [|[|[|i]]] H; cbn in *; try lia; lra.
Qed.
