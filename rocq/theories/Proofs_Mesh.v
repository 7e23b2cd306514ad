(** Lemmas on the wing meshes. *)
From Coq Require Import Reals List Bool PeanoNat Lia Lra.
From Coquelicot Require Import Coquelicot.
From Verif Require Import RSum Py Model_Algebra Model_Vectors Model_Aero Model_Mesh Spec_Mesh.
Import ListNotations.
Open Scope R_scope.

(** ** Spacing *)
Lemma lin_at a b n k : (1 < n)%nat -> (k <= n - 1)%nat -> linspace a b n k = a + (b - a) * (INR k / INR (n - 1)).
Proof.
  intros Hn Hk. unfold linspace. destruct (Nat.eqb_spec n 1); [lia|]. assert (0 < INR (n - 1)) by (apply lt_0_INR; lia).
  destruct (Nat.eqb_spec k (n - 1)) as [->|]; [field; lra|field; lra].
Qed.
Lemma lin_0 a b n : (1 < n)%nat -> linspace a b n 0 = a.
Proof. intro H. rewrite lin_at by lia. cbn. unfold Rdiv. ring. Qed.
Lemma lin_1 a b n : (1 < n)%nat -> linspace a b n (n - 1) = b.
Proof. intro H. rewrite lin_at by lia. assert (0 < INR (n - 1)) by (apply lt_0_INR; lia). field. lra. Qed.
(** Cosine fraction. *)
Definition cf (n k : nat) : R := 5/10 * (1 - cos (linspace 0 PI n k)).
Lemma cf_0 n : (1 < n)%nat -> cf n 0 = 0.
Proof. intro H. unfold cf. rewrite lin_0, cos_0 by assumption. field. Qed.
Lemma cf_1 n : (1 < n)%nat -> cf n (n - 1) = 1.
Proof. intro H. unfold cf. rewrite lin_1, cos_PI by assumption. field. Qed.
Lemma cos_space_eq a b n k : cos_space a b n k = a + (b - a) * cf n k.
Proof. unfold cos_space, cf. ring. Qed.
Lemma cos_deriv_end_eq n k : cos_deriv_end n k = cf n k.
Proof. reflexivity. Qed.
Lemma cos_deriv_start_eq n k : cos_deriv_start n k = 1 - cf n k.
Proof. reflexivity. Qed.
Lemma cf_mono n k k' : (1 < n)%nat -> (k < k' <= n - 1)%nat -> cf n k < cf n k'.
Proof.
  intros Hn Hk. unfold cf. assert (P : 0 < INR (n - 1)) by (apply lt_0_INR; lia). rewrite !lin_at by lia. pose proof PI_RGT_0.
  assert (A : 0 <= INR k / INR (n - 1) < INR k' / INR (n - 1)).
  { split; [apply Rmult_le_pos; [apply pos_INR|now apply Rlt_le, Rinv_0_lt_compat]|]. apply Rmult_lt_compat_r; [now apply Rinv_0_lt_compat|apply lt_INR; lia]. }
  assert (B : INR k' / INR (n - 1) <= 1). { apply (Rmult_le_reg_r (INR (n - 1))); [assumption|]. unfold Rdiv. rewrite Rmult_assoc, Rinv_l, Rmult_1_r, Rmult_1_l by lra. apply le_INR; lia. }
  set (a := INR k / INR (n - 1)) in *. set (b := INR k' / INR (n - 1)) in *. clearbody a b.
  assert (C : cos (0 + (PI - 0) * b) < cos (0 + (PI - 0) * a)) by (apply cos_decreasing_1; nra). lra.
Qed.
Lemma cf_range n k : (1 < n)%nat -> (k <= n - 1)%nat -> 0 <= cf n k <= 1.
Proof. intros Hn Hk. unfold cf. pose proof (COS_bound (linspace 0 PI n k)). lra. Qed.
(** Fraction of the way from the start to the end of a region, either spacing. *)
Definition frac (cosine : bool) (n k : nat) : R := if cosine then cf n k else linspace 0 1 n k.
Lemma nodal_eq cosine a b n k : (1 < n)%nat -> (k <= n - 1)%nat -> nodal cosine a b n k = a + (b - a) * frac cosine n k.
Proof. intros Hn Hk. destruct cosine; cbn; [apply cos_space_eq|]. rewrite !lin_at by assumption. ring. Qed.
Lemma nodal_dend_eq cosine n k : nodal_dend cosine n k = frac cosine n k.
Proof. destruct cosine; reflexivity. Qed.
Lemma nodal_dstart_eq cosine n k : (1 < n)%nat -> (k <= n - 1)%nat -> nodal_dstart cosine n k = 1 - frac cosine n k.
Proof. intros Hn Hk. destruct cosine; cbn; [reflexivity|]. rewrite !lin_at by assumption. ring. Qed.
Lemma frac_0 cosine n : (1 < n)%nat -> frac cosine n 0 = 0.
Proof. intro H. destruct cosine; [now apply cf_0|now apply lin_0]. Qed.
Lemma frac_1 cosine n : (1 < n)%nat -> frac cosine n (n - 1) = 1.
Proof. intro H. destruct cosine; [now apply cf_1|now apply lin_1]. Qed.
Lemma frac_range cosine n k : (1 < n)%nat -> (k <= n - 1)%nat -> 0 <= frac cosine n k <= 1.
Proof.
  intros Hn Hk. destruct cosine; [now apply cf_range|]. cbn. rewrite lin_at by assumption. assert (P : 0 < INR (n - 1)) by (apply lt_0_INR; lia).
  assert (A : 0 <= INR k / INR (n - 1)) by (apply Rmult_le_pos; [apply pos_INR|now apply Rlt_le, Rinv_0_lt_compat]).
  assert (B : INR k / INR (n - 1) <= 1). { apply (Rmult_le_reg_r (INR (n - 1))); [assumption|]. unfold Rdiv. rewrite Rmult_assoc, Rinv_l, Rmult_1_r, Rmult_1_l by lra. apply le_INR; lia. }
  lra.
Qed.

(** ** Regions *)
Lemma column_start l i : (i <= length l)%nat -> column l i = region_start l i.
Proof.
  revert i. unfold column. enough (G : forall i, (i <= length l)%nat -> fold_right Nat.add 0%nat (firstn i l) = region_start l i) by exact G.
  induction i as [|i IH]; intro H; [reflexivity|]. cbn [region_start]. rewrite <- IH by lia. clear IH. revert l H. induction i as [|i IH]; intros [|a l] H; cbn [length] in H; try lia; [cbn; lia|].
  change (firstn (S (S i)) (a :: l)) with (a :: firstn (S i) l). change (firstn (S i) (a :: l)) with (a :: firstn i l). cbn [fold_right]. rewrite IH by lia. unfold ny_of. cbn [nth]. lia.
Qed.
Lemma start_total l : region_start l (length l) = total l.
Proof. rewrite <- column_start by lia. unfold column, total. now rewrite firstn_all. Qed.
Lemma start_mono l i k : (i <= k)%nat -> (region_start l i <= region_start l k)%nat.
Proof. induction 1 as [|k H IH]; [lia|]. cbn [region_start]. lia. Qed.
Lemma start_S l i : region_start l (i + 1) = (region_start l i + ny_of l i)%nat.
Proof. rewrite Nat.add_1_r. reflexivity. Qed.
Lemma ny_pos l i : List.Forall (fun n => (1 <= n)%nat) l -> (i < length l)%nat -> (1 <= ny_of l i)%nat.
Proof. intros F H. unfold ny_of. rewrite List.Forall_forall in F. apply F. now apply nth_In. Qed.
(** The last region that covers a point. *)
Lemma written_at l f k i j : (forall a, (a + 1 < k)%nat -> f a (ny_of l a) = f (a + 1)%nat 0%nat) -> (forall a, (a < k)%nat -> (1 <= ny_of l a)%nat) -> (i < k)%nat ->
  (region_start l i <= j <= region_start l i + ny_of l i)%nat -> written l f k j = f i (j - region_start l i)%nat.
Proof.
  intros C P. induction k as [|k IH]; intros Hi Hj; [lia|]. cbn [written].
  destruct (Nat.leb_spec (region_start l k) j) as [H1|H1]; cbn [andb].
  - destruct (Nat.eq_dec i k) as [->|N].
    + destruct (Nat.ltb_spec j (region_start l k + ny_of l k + 1)); [reflexivity|lia].
    + pose proof (start_mono l (i + 1) k ltac:(lia)) as M. rewrite start_S in M. assert (j = region_start l k) by lia.
      assert (k = (i + 1)%nat). { destruct (Nat.eq_dec k (i + 1)) as [|N2]; [assumption|]. pose proof (start_mono l (i + 2) k ltac:(lia)) as M2. replace (i + 2)%nat with (i + 1 + 1)%nat in M2 by lia. rewrite !start_S in M2. pose proof (P (i + 1)%nat ltac:(lia)). lia. }
      subst k. destruct (Nat.ltb_spec j (region_start l (i + 1) + ny_of l (i + 1) + 1)) as [_|X]; [|lia]. rewrite H, Nat.sub_diag, start_S.
      replace (region_start l i + ny_of l i - region_start l i)%nat with (ny_of l i) by lia. symmetry. apply C. lia.
  - rewrite IH; auto; try (intros; apply C; lia). destruct (Nat.eq_dec i k) as [->|]; lia.
Qed.
(** Every point belongs to exactly one region, the outboard section only to the first. *)
Lemma locate l k j : (forall a, (a < k)%nat -> (1 <= ny_of l a)%nat) -> (0 < k)%nat -> (j <= region_start l k)%nat ->
  exists i, (i < k)%nat /\ (region_start l i + first_point i <= j < region_start l i + ny_of l i + 1)%nat.
Proof.
  intros P. induction k as [|k IH]; intros Hk Hj; [lia|]. cbn [region_start] in Hj. destruct (Nat.le_gt_cases j (region_start l k)) as [H|H].
  - destruct k as [|k]; [exists 0%nat; unfold first_point; cbn [region_start Nat.eqb] in *; lia|]. destruct IH as [i [H1 H2]]; [intros; apply P; lia|lia|assumption|]. exists i. lia.
  - exists k. unfold first_point. destruct (Nat.eqb k 0); lia.
Qed.
Lemma locate_unique l i i' j :
  (region_start l i + first_point i <= j < region_start l i + ny_of l i + 1)%nat -> (region_start l i' + first_point i' <= j < region_start l i' + ny_of l i' + 1)%nat -> i = i'.
Proof.
  intros H H'. assert (G : forall a b, (a < b)%nat -> (region_start l a + first_point a <= j < region_start l a + ny_of l a + 1)%nat -> (region_start l b + first_point b <= j)%nat -> False).
  { intros a b L Ha Hb. pose proof (start_mono l (a + 1) b ltac:(lia)) as M. rewrite start_S in M. unfold first_point in Hb. destruct (Nat.eqb_spec b 0); lia. }
  destruct (Nat.lt_trichotomy i i') as [L|[E|L]]; [|assumption|]; exfalso; eapply G; eauto; lia.
Qed.
Lemma rsum_regions l k g : rsum (region_start l k) g = rsum k (fun i => rsum (ny_of l i) (fun jj => g (region_start l i + jj)%nat)).
Proof. induction k as [|k IH]; [reflexivity|]. cbn [region_start rsum]. now rewrite rsum_app, IH. Qed.

(** ** Flat indices *)
Lemma flat_div ny ix j d : (j < ny)%nat -> (d < 3)%nat -> (flat ny ix j d mod 3 = d /\ (flat ny ix j d / 3) mod ny = j /\ flat ny ix j d / 3 / ny = ix)%nat.
Proof.
  intros Hj Hd. unfold flat. assert (A : ((3 * (ix * ny + j) + d) / 3 = ix * ny + j)%nat) by (symmetry; apply (Nat.div_unique _ 3 _ d); lia).
  rewrite A. repeat split.
  - symmetry. apply (Nat.mod_unique _ 3 (ix * ny + j)); lia.
  - symmetry. apply (Nat.mod_unique _ ny ix); lia.
  - symmetry. apply (Nat.div_unique _ ny _ j); lia.
Qed.
Lemma flatten_at ny m ix j d : (j < ny)%nat -> (d < 3)%nat -> flatten ny m (flat ny ix j d) = m ix j d.
Proof. intros Hj Hd. unfold flatten. destruct (flat_div ny ix j d Hj Hd) as (-> & -> & ->). reflexivity. Qed.
