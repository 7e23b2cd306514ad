(** Proofs about the finite-difference component. *)
From Coq Require Import Reals Lra Lia List Bool PeanoNat.
From Coquelicot Require Import Coquelicot.
From Verif Require Import Py RSum Model_Derivatives Proofs_IntegJac Spec_Integrals.
Import ListNotations.
Open Scope R_scope.

Lemma coo_apply K row col data N v r :
  (forall k, (k < K)%nat -> (col k < N)%nat) ->
  mvec N (coo K row col data) v r
  = rsum K (fun k => if Nat.eqb (row k) r then data k * v (col k) else 0).
Proof.
  intro Hc. unfold mvec, coo.
  rewrite (rsum_ext N _ (fun c => rsum K (fun k =>
     (if Nat.eqb (row k) r && Nat.eqb (col k) c then data k else 0) * v c))).
  2:{ intros c _. now rewrite <- rsum_scal_r. }
  rewrite rsum_swap. apply rsum_ext; intros k Hk.
  rewrite (rsum_one N _ (col k)); [|now apply Hc|].
  - rewrite Nat.eqb_refl, andb_true_r. destruct (Nat.eqb (row k) r); lra.
  - intros c _ Hne. destruct (Nat.eqb_spec (col k) c); [congruence|]. rewrite andb_false_r. lra.
Qed.

(** ** Fourth order *)
Lemma st4_col_lt n k : (5 <= n)%nat -> (k < st4_len n)%nat -> (st4_col n k < n)%nat.
Proof.
  intros Hn Hk. unfold st4_col, st4_len in *.
  destruct (Nat.leb_spec (n * 5 - 10) k); [pose proof (Nat.mod_upper_bound (k - (n * 5 - 10)) 5); lia|].
  destruct (Nat.ltb_spec k 10); [pose proof (Nat.mod_upper_bound k 5); lia|].
  pose proof (Nat.mod_upper_bound k 5).
  assert (k / 5 < n - 2)%nat by (apply Nat.div_lt_upper_bound; lia). lia.
Qed.

Lemma div5 a b : (b < 5)%nat -> ((a * 5 + b) / 5 = a)%nat.
Proof. intro; rewrite Nat.div_add_l by lia. rewrite Nat.div_small; lia. Qed.
Lemma mod5 a b : (b < 5)%nat -> ((a * 5 + b) mod 5 = b)%nat.
Proof. intro; rewrite Nat.add_comm, Nat.mod_add by lia. now apply Nat.mod_small. Qed.

Lemma st4_apply n v r : (5 <= n)%nat -> (r < n)%nat ->
  mvec n (stencil Fourth n) v r
  = rsum 5 (fun b => st4_data n (r * 5 + b) * v (st4_col n (r * 5 + b))).
Proof.
  intros Hn Hr. unfold stencil; cbn [st_len st_row st_col st_data].
  rewrite coo_apply by (intros; now apply st4_col_lt).
  unfold st4_len. rewrite rsum_blk.
  rewrite (rsum_one n _ r); auto.
  - apply rsum_ext; intros b Hb. unfold st4_row. rewrite div5 by auto. now rewrite Nat.eqb_refl.
  - intros a Ha Hne. apply rsum_zero; intros b Hb. unfold st4_row. rewrite div5 by auto.
    destruct (Nat.eqb_spec a r); [congruence|reflexivity].
Qed.

Ltac st_eval :=
  repeat match goal with
  | |- context [Nat.leb ?a ?b] =>
      first [ rewrite (proj2 (Nat.leb_le a b)) by lia | rewrite (proj2 (Nat.leb_gt a b)) by lia ]
  | |- context [Nat.ltb ?a ?b] =>
      first [ rewrite (proj2 (Nat.ltb_lt a b)) by lia | rewrite (proj2 (Nat.ltb_ge a b)) by lia ]
  end.

Lemma st4_row0 n v : (5 <= n)%nat ->
  mvec n (stencil Fourth n) v 0%nat
  = -25/12 * v 0%nat + 4 * v 1%nat - 3 * v 2%nat + 4/3 * v 3%nat - 1/4 * v 4%nat.
Proof.
  intro Hn. rewrite st4_apply by lia. cbn [rsum]. unfold st4_data, st4_col.
  destruct (Nat.eq_dec n 5) as [->|]; [cbn; lra|].
  destruct (Nat.eq_dec n 6) as [->|]; [cbn; lra|].
  st_eval. cbn. lra.
Qed.

Lemma st4_row1 n v : (5 <= n)%nat ->
  mvec n (stencil Fourth n) v 1%nat
  = -1/4 * v 0%nat - 5/6 * v 1%nat + 3/2 * v 2%nat - 1/2 * v 3%nat + 1/12 * v 4%nat.
Proof.
  intro Hn. rewrite st4_apply by lia. cbn [rsum]. unfold st4_data, st4_col.
  destruct (Nat.eq_dec n 5) as [->|]; [cbn; lra|].
  st_eval. cbn. lra.
Qed.

Lemma st4_rowmid n v k : (k + 4 < n)%nat ->
  mvec n (stencil Fourth n) v (k + 2)%nat
  = 1/12 * v k - 2/3 * v (k + 1)%nat + 2/3 * v (k + 3)%nat - 1/12 * v (k + 4)%nat.
Proof.
  intro Hn. rewrite st4_apply by lia. cbn [rsum]. unfold st4_data, st4_col.
  st_eval. rewrite !mod5, !div5 by lia. cbn [nth].
  replace (0 + (k + 2) - 2)%nat with k by lia.
  replace (1 + (k + 2) - 2)%nat with (k + 1)%nat by lia.
  replace (2 + (k + 2) - 2)%nat with (k + 2)%nat by lia.
  replace (3 + (k + 2) - 2)%nat with (k + 3)%nat by lia.
  replace (4 + (k + 2) - 2)%nat with (k + 4)%nat by lia. lra.
Qed.

Lemma st4_rowlast1 k v :
  mvec (k + 5) (stencil Fourth (k + 5)) v (k + 3)%nat
  = -1/12 * v k + 1/2 * v (k + 1)%nat - 3/2 * v (k + 2)%nat + 5/6 * v (k + 3)%nat + 1/4 * v (k + 4)%nat.
Proof.
  rewrite st4_apply by lia. cbn [rsum]. unfold st4_data, st4_col.
  st_eval.
  replace ((k + 3) * 5 + 0 - ((k + 5) * 5 - 10))%nat with 0%nat by lia.
  replace ((k + 3) * 5 + 1 - ((k + 5) * 5 - 10))%nat with 1%nat by lia.
  replace ((k + 3) * 5 + 2 - ((k + 5) * 5 - 10))%nat with 2%nat by lia.
  replace ((k + 3) * 5 + 3 - ((k + 5) * 5 - 10))%nat with 3%nat by lia.
  replace ((k + 3) * 5 + 4 - ((k + 5) * 5 - 10))%nat with 4%nat by lia.
  cbn [nth]. rewrite !Nat.mod_small by lia.
  replace (k + 5 - 5 + 0)%nat with k by lia. replace (k + 5 - 5 + 1)%nat with (k + 1)%nat by lia.
  replace (k + 5 - 5 + 2)%nat with (k + 2)%nat by lia. replace (k + 5 - 5 + 3)%nat with (k + 3)%nat by lia.
  replace (k + 5 - 5 + 4)%nat with (k + 4)%nat by lia. lra.
Qed.

Lemma st4_rowlast0 k v :
  mvec (k + 5) (stencil Fourth (k + 5)) v (k + 4)%nat
  = 1/4 * v k - 4/3 * v (k + 1)%nat + 3 * v (k + 2)%nat - 4 * v (k + 3)%nat + 25/12 * v (k + 4)%nat.
Proof.
  rewrite st4_apply by lia. cbn [rsum]. unfold st4_data, st4_col.
  st_eval.
  replace ((k + 4) * 5 + 0 - ((k + 5) * 5 - 5))%nat with 0%nat by lia.
  replace ((k + 4) * 5 + 1 - ((k + 5) * 5 - 5))%nat with 1%nat by lia.
  replace ((k + 4) * 5 + 2 - ((k + 5) * 5 - 5))%nat with 2%nat by lia.
  replace ((k + 4) * 5 + 3 - ((k + 5) * 5 - 5))%nat with 3%nat by lia.
  replace ((k + 4) * 5 + 4 - ((k + 5) * 5 - 5))%nat with 4%nat by lia.
  cbn [nth].
  replace ((k + 4) * 5 + 0 - ((k + 5) * 5 - 10))%nat with (1 * 5 + 0)%nat by lia.
  replace ((k + 4) * 5 + 1 - ((k + 5) * 5 - 10))%nat with (1 * 5 + 1)%nat by lia.
  replace ((k + 4) * 5 + 2 - ((k + 5) * 5 - 10))%nat with (1 * 5 + 2)%nat by lia.
  replace ((k + 4) * 5 + 3 - ((k + 5) * 5 - 10))%nat with (1 * 5 + 3)%nat by lia.
  replace ((k + 4) * 5 + 4 - ((k + 5) * 5 - 10))%nat with (1 * 5 + 4)%nat by lia.
  rewrite !mod5 by lia.
  replace (k + 5 - 5 + 0)%nat with k by lia. replace (k + 5 - 5 + 1)%nat with (k + 1)%nat by lia.
  replace (k + 5 - 5 + 2)%nat with (k + 2)%nat by lia. replace (k + 5 - 5 + 3)%nat with (k + 3)%nat by lia.
  replace (k + 5 - 5 + 4)%nat with (k + 4)%nat by lia. lra.
Qed.

(** ** Second order *)
Lemma st2_col_lt n k : (3 <= n)%nat -> (k < st2_len n)%nat -> (st2_col n k < n)%nat.
Proof.
  intros Hn Hk. unfold st2_col, st2_len in *.
  destruct (Nat.ltb_spec k 3); [lia|].
  destruct (Nat.ltb_spec k (3 + 2 * (n - 2))); [|lia].
  assert ((k - 3) / 2 < n - 2)%nat by (apply Nat.div_lt_upper_bound; lia).
  assert (M : ((k - 3) mod 2 = 0 \/ (k - 3) mod 2 = 1)%nat)
    by (pose proof (Nat.mod_upper_bound (k - 3) 2); lia).
  destruct M as [-> | ->]; cbn [nth]; lia.
Qed.

Lemma st2_apply n v r : (3 <= n)%nat -> (r < n)%nat ->
  mvec n (stencil Second n) v r
  = if Nat.eqb r 0 then -3/2 * v 0%nat + 2 * v 1%nat - 1/2 * v 2%nat
    else if Nat.eqb r (n - 1) then 1/2 * v (n - 3)%nat - 2 * v (n - 2)%nat + 3/2 * v (n - 1)%nat
    else 1/2 * v (r + 1)%nat - 1/2 * v (r - 1)%nat.
Proof.
  intros Hn Hr. unfold stencil; cbn [st_len st_row st_col st_data].
  rewrite coo_apply by (intros; now apply st2_col_lt).
  unfold st2_len. rewrite rsum_app, rsum_app.
  replace (2 * (n - 2))%nat with ((n - 2) * 2)%nat by lia.
  rewrite rsum_blk.
  (* first block *)
  assert (B1 : rsum 3 (fun k => if Nat.eqb (st2_row n k) r then st2_data n k * v (st2_col n k) else 0)
     = if Nat.eqb r 0 then -3/2 * v 0%nat + 2 * v 1%nat - 1/2 * v 2%nat else 0).
  { cbn [rsum]. unfold st2_row, st2_data, st2_col. st_eval. cbn [nth].
    destruct r; cbn; lra. }
  rewrite B1.
  (* middle block *)
  assert (B2 : rsum (n - 2) (fun i => rsum 2 (fun j =>
       if Nat.eqb (st2_row n (3 + (i * 2 + j))) r
       then st2_data n (3 + (i * 2 + j)) * v (st2_col n (3 + (i * 2 + j))) else 0))
     = if Nat.leb 1 r && Nat.ltb r (n - 1) then 1/2 * v (r + 1)%nat - 1/2 * v (r - 1)%nat else 0).
  { rewrite (rsum_ext _ _ (fun i => if Nat.eqb (1 + i) r then 1/2 * v (i + 2)%nat - 1/2 * v i else 0)).
    2:{ intros i Hi. cbn [rsum]. unfold st2_row, st2_data, st2_col. st_eval.
        replace (3 + (i * 2 + 0) - 3)%nat with (i * 2 + 0)%nat by lia.
        replace (3 + (i * 2 + 1) - 3)%nat with (i * 2 + 1)%nat by lia.
        assert (D0 : ((i * 2 + 0) / 2 = i)%nat) by (rewrite Nat.div_add_l by lia; simpl; lia).
        assert (D1 : ((i * 2 + 1) / 2 = i)%nat) by (rewrite Nat.div_add_l by lia; simpl; lia).
        assert (M0 : ((i * 2 + 0) mod 2 = 0)%nat) by (rewrite Nat.add_comm, Nat.mod_add by lia; reflexivity).
        assert (M1 : ((i * 2 + 1) mod 2 = 1)%nat) by (rewrite Nat.add_comm, Nat.mod_add by lia; reflexivity).
        rewrite D0, D1, M0, M1. cbn [nth].
        replace (0 + i)%nat with i by lia. replace (2 + i)%nat with (i + 2)%nat by lia.
        destruct (Nat.eqb (1 + i) r); lra. }
    destruct (Nat.leb_spec 1 r), (Nat.ltb_spec r (n - 1)); cbn [andb].
    - rewrite (rsum_one _ _ (r - 1)%nat); [|lia|].
      + replace (1 + (r - 1))%nat with r by lia. rewrite Nat.eqb_refl.
        replace (r - 1 + 2)%nat with (r + 1)%nat by lia. reflexivity.
      + intros j Hj Hne. destruct (Nat.eqb_spec (1 + j) r); [lia|reflexivity].
    - apply rsum_zero. intros j Hj. destruct (Nat.eqb_spec (1 + j) r); [lia|reflexivity].
    - apply rsum_zero. intros j Hj. destruct (Nat.eqb_spec (1 + j) r); [lia|reflexivity].
    - lia. }
  rewrite B2.
  assert (B3 : rsum 3 (fun j => if Nat.eqb (st2_row n (3 + (n - 2) * 2 + j)) r
       then st2_data n (3 + (n - 2) * 2 + j) * v (st2_col n (3 + (n - 2) * 2 + j)) else 0)
     = if Nat.eqb r (n - 1) then 1/2 * v (n - 3)%nat - 2 * v (n - 2)%nat + 3/2 * v (n - 1)%nat else 0).
  { cbn [rsum]. unfold st2_row, st2_data, st2_col. st_eval.
    replace (3 + (n - 2) * 2 + 0 - (3 + 2 * (n - 2)))%nat with 0%nat by lia.
    replace (3 + (n - 2) * 2 + 1 - (3 + 2 * (n - 2)))%nat with 1%nat by lia.
    replace (3 + (n - 2) * 2 + 2 - (3 + 2 * (n - 2)))%nat with 2%nat by lia. cbn [nth].
    rewrite (Nat.eqb_sym (n - 1) r).
    replace (n - 3 + 0)%nat with (n - 3)%nat by lia. replace (n - 3 + 1)%nat with (n - 2)%nat by lia.
    replace (n - 3 + 2)%nat with (n - 1)%nat by lia.
    destruct (Nat.eqb r (n - 1)); lra. }
  rewrite B3.
  destruct (Nat.eqb_spec r 0) as [->|Hr0].
  - destruct (Nat.eqb_spec 0 (n - 1)); [lia|]. simpl. lra.
  - destruct (Nat.eqb_spec r (n - 1)) as [->|Hr1].
    + destruct (Nat.leb_spec 1 (n - 1)), (Nat.ltb_spec (n - 1) (n - 1)); try lia. simpl. lra.
    + destruct (Nat.leb_spec 1 r), (Nat.ltb_spec r (n - 1)); try lia. simpl. lra.
Qed.

(** ** Polynomials *)
Definition dpoly4 (c0 c1 c2 c3 c4 t : R) : R := c1 + 2 * c2 * t + 3 * c3 * t ^ 2 + 4 * c4 * t ^ 3.

Lemma Derive_poly4 c0 c1 c2 c3 c4 t : Derive (poly4 c0 c1 c2 c3 c4) t = dpoly4 c0 c1 c2 c3 c4 t.
Proof.
  apply is_derive_unique. unfold poly4, dpoly4. auto_derive; auto. ring.
Qed.

Lemma st4_exact n c0 c1 c2 c3 c4 t0 dt v r : (5 <= n)%nat -> (r < n)%nat -> dt <> 0 ->
  (forall i, (i < n)%nat -> v i = poly4 c0 c1 c2 c3 c4 (t0 + INR i * dt)) ->
  mvec n (stencil Fourth n) v r = dt * dpoly4 c0 c1 c2 c3 c4 (t0 + INR r * dt).
Proof.
  intros Hn Hr Hdt Hv.
  assert (C : r = 0%nat \/ r = 1%nat \/ (exists k, r = (k + 2)%nat /\ (k + 4 < n)%nat)
              \/ (exists k, n = (k + 5)%nat /\ r = (k + 3)%nat)
              \/ (exists k, n = (k + 5)%nat /\ r = (k + 4)%nat)).
  { destruct r as [|[|r]]; auto. right; right.
    destruct (Nat.lt_ge_cases (r + 4) n); [left; exists r; lia|].
    right. destruct (Nat.eq_dec (r + 4) n); [left; exists (r - 1)%nat; lia|right; exists (r - 2)%nat; lia]. }
  destruct C as [->|[->|[(k & -> & Hk)|[(k & -> & ->)|(k & -> & ->)]]]].
  - rewrite st4_row0 by auto. rewrite !Hv by lia. simpl INR. unfold poly4, dpoly4. field.
  - rewrite st4_row1 by auto. rewrite !Hv by lia. simpl INR. unfold poly4, dpoly4. field.
  - rewrite st4_rowmid by auto. rewrite !Hv by lia. rewrite !plus_INR. simpl INR. unfold poly4, dpoly4. field.
  - rewrite st4_rowlast1. rewrite !Hv by lia. rewrite !plus_INR. simpl INR. unfold poly4, dpoly4. field.
  - rewrite st4_rowlast0. rewrite !Hv by lia. rewrite !plus_INR. simpl INR. unfold poly4, dpoly4. field.
Qed.

Lemma st2_exact n c0 c1 c2 t0 dt v r : (3 <= n)%nat -> (r < n)%nat -> dt <> 0 ->
  (forall i, (i < n)%nat -> v i = poly4 c0 c1 c2 0 0 (t0 + INR i * dt)) ->
  mvec n (stencil Second n) v r = dt * dpoly4 c0 c1 c2 0 0 (t0 + INR r * dt).
Proof.
  intros Hn Hr Hdt Hv. rewrite st2_apply by auto.
  destruct (Nat.eqb_spec r 0) as [->|H0].
  { rewrite !Hv by lia. simpl INR. unfold poly4, dpoly4. field. }
  destruct (Nat.eqb_spec r (n - 1)) as [->|H1].
  { rewrite !Hv by lia. rewrite !minus_INR by lia. simpl INR. unfold poly4, dpoly4. field. }
  rewrite !Hv by lia. rewrite plus_INR, minus_INR by lia. simpl INR. unfold poly4, dpoly4. field.
Qed.

(** ** Segments *)
Lemma first_deriv_seg o n m dts q k i : (i < n)%nat -> (k < m)%nat ->
  first_deriv o n m dts q (k * n + i)%nat = mvec n (stencil o n) (fun c => q (k * n + c)%nat) i / dts k.
Proof.
  intros Hi Hk. unfold first_deriv, mvec at 1. rewrite rsum_blk.
  rewrite (rsum_one m _ k); auto.
  - unfold mvec, Rdiv. rewrite <- rsum_scal_r. apply rsum_ext; intros c Hc.
    unfold block_stencil. rewrite !div_block, !mod_block, Nat.eqb_refl by auto. unfold Rdiv. ring.
  - intros j Hj Hne. apply rsum_zero; intros c Hc. unfold block_stencil.
    rewrite !div_block by auto. destruct (Nat.eqb_spec k j); [congruence|lra].
Qed.

Lemma fourth_exact n m dts q k i c0 c1 c2 c3 c4 t0 :
  (5 <= n)%nat -> (i < n)%nat -> (k < m)%nat -> dts k <> 0 ->
  (forall j, (j < n)%nat -> q (k * n + j)%nat = poly4 c0 c1 c2 c3 c4 (t0 + INR j * dts k)) ->
  first_deriv Fourth n m dts q (k * n + i)%nat = Derive (poly4 c0 c1 c2 c3 c4) (t0 + INR i * dts k).
Proof.
  intros Hn Hi Hk Hdt Hq. rewrite first_deriv_seg by auto.
  rewrite (st4_exact n c0 c1 c2 c3 c4 t0 (dts k)) by auto. rewrite Derive_poly4. field. auto.
Qed.

Lemma second_exact n m dts q k i c0 c1 c2 t0 :
  (3 <= n)%nat -> (i < n)%nat -> (k < m)%nat -> dts k <> 0 ->
  (forall j, (j < n)%nat -> q (k * n + j)%nat = poly4 c0 c1 c2 0 0 (t0 + INR j * dts k)) ->
  first_deriv Second n m dts q (k * n + i)%nat = Derive (poly4 c0 c1 c2 0 0) (t0 + INR i * dts k).
Proof.
  intros Hn Hi Hk Hdt Hq. rewrite first_deriv_seg by auto.
  rewrite (st2_exact n c0 c1 c2 t0 (dts k)) by auto. rewrite Derive_poly4. field. auto.
Qed.

Lemma first_deriv_local o n m dts dts' q q' k i : (i < n)%nat -> (k < m)%nat ->
  dts k = dts' k -> (forall j, (j < n)%nat -> q (k * n + j)%nat = q' (k * n + j)%nat) ->
  first_deriv o n m dts q (k * n + i)%nat = first_deriv o n m dts' q' (k * n + i)%nat.
Proof.
  intros Hi Hk Hd Hq. rewrite !first_deriv_seg by auto. rewrite Hd. f_equal.
  apply mvec_ext; auto.
Qed.

(** ** Jacobian *)
Lemma st_bounds o n k : (match o with Second => 3 | Fourth => 5 end <= n)%nat -> (k < st_len o n)%nat ->
  (st_row o n k < n)%nat /\ (st_col o n k < n)%nat.
Proof.
  intros Hn Hk. destruct o; cbn [st_len st_row st_col] in *.
  - split; [|now apply st2_col_lt]. unfold st2_row, st2_len in *.
    destruct (Nat.ltb_spec k 3); [lia|]. destruct (Nat.ltb_spec k (3 + 2 * (n - 2))); [|lia].
    assert ((k - 3) / 2 < n - 2)%nat by (apply Nat.div_lt_upper_bound; lia). lia.
  - split; [|now apply st4_col_lt]. unfold st4_row, st4_len in *. apply Nat.div_lt_upper_bound; lia.
Qed.

Lemma jac_dq_block o n m dts r c :
  (match o with Second => 3 | Fourth => 5 end <= n)%nat -> (r < m * n)%nat -> (c < m * n)%nat ->
  jac_dq o n m dts r c = block_stencil o n dts r c.
Proof.
  intros Hn Hr Hc. unfold jac_dq, coo.
  assert (HL : (0 < st_len o n)%nat) by (destruct o; cbn [st_len]; unfold st2_len, st4_len; lia).
  rewrite rsum_blk.
  assert (Hn0 : (0 < n)%nat) by (destruct o; lia).
  assert (Dr : (r = (r / n) * n + r mod n)%nat) by (rewrite (Nat.div_mod r n) at 1; lia).
  assert (Dc : (c = (c / n) * n + c mod n)%nat) by (rewrite (Nat.div_mod c n) at 1; lia).
  assert (Mr : (r mod n < n)%nat) by (apply Nat.mod_upper_bound; lia).
  assert (Mc : (c mod n < n)%nat) by (apply Nat.mod_upper_bound; lia).
  assert (Kr : (r / n < m)%nat) by (apply Nat.div_lt_upper_bound; lia).
  unfold block_stencil.
  assert (EQ : forall i a b k, (i < n)%nat -> (b < n)%nat ->
     Nat.eqb (i + a * n) (b + k * n)%nat = (Nat.eqb i b && Nat.eqb a k)%bool).
  { intros i a b k Hi Hb. destruct (Nat.eqb_spec (i + a * n) (b + k * n)) as [E|E].
    - assert (a = k).
      { assert (X : ((a * n + i) / n = (k * n + b) / n)%nat) by (f_equal; lia).
        rewrite !div_block in X; auto. }
      subst a. assert (i = b) by lia. subst. now rewrite !Nat.eqb_refl.
    - destruct (Nat.eqb_spec i b), (Nat.eqb_spec a k); subst; simpl; auto; lia. }
  assert (ER : forall i a, (i < n)%nat -> Nat.eqb (i + a * n) r = (Nat.eqb i (r mod n) && Nat.eqb a (r / n))%bool).
  { intros i a Hi. transitivity (Nat.eqb (i + a * n) (r mod n + r / n * n)); [f_equal; lia|now apply EQ]. }
  assert (EC : forall i a, (i < n)%nat -> Nat.eqb (i + a * n) c = (Nat.eqb i (c mod n) && Nat.eqb a (c / n))%bool).
  { intros i a Hi. transitivity (Nat.eqb (i + a * n) (c mod n + c / n * n)); [f_equal; lia|now apply EQ]. }
  rewrite (rsum_ext m _ (fun a => rsum (st_len o n) (fun k =>
     if (Nat.eqb (st_row o n k) (r mod n) && Nat.eqb a (r / n)) && (Nat.eqb (st_col o n k) (c mod n) && Nat.eqb a (c / n))
     then st_data o n k / dts a else 0))).
  2:{ intros a Ha. apply rsum_ext; intros k Hk.
      rewrite Nat.div_add_l by lia. rewrite Nat.div_small by auto. rewrite Nat.add_0_r.
      rewrite (Nat.add_comm (a * st_len o n)). rewrite Nat.mod_add by lia. rewrite Nat.mod_small by auto.
      destruct (st_bounds o n k Hn Hk) as [Br Bc]. rewrite ER, EC by auto. reflexivity. }
  destruct (Nat.eqb_spec (r / n) (c / n)) as [E|E].
  - rewrite (rsum_one m _ (r / n)%nat); auto.
    + unfold stencil, coo, Rdiv. rewrite <- rsum_scal_r. apply rsum_ext; intros k Hk.
      rewrite <- E, Nat.eqb_refl, !andb_true_r. destruct (_ && _); lra.
    + intros a Ha Hne. apply rsum_zero; intros k Hk.
      destruct (Nat.eqb_spec a (r / n)); [congruence|]. now rewrite andb_false_r.
  - apply rsum_zero; intros a Ha. apply rsum_zero; intros k Hk.
    destruct (Nat.eqb_spec a (r / n)), (Nat.eqb_spec a (c / n)); try congruence;
      rewrite ?andb_false_r; reflexivity.
Qed.

Lemma jac_dq_ok o n m dts q r c :
  (match o with Second => 3 | Fourth => 5 end <= n)%nat -> (r < m * n)%nat -> (c < m * n)%nat ->
  is_derive (fun t => first_deriv o n m dts (updv q c t) r) (q c) (jac_dq o n m dts r c).
Proof.
  intros Hn Hr Hc. rewrite jac_dq_block by auto. unfold first_deriv. now apply mvec_derive.
Qed.

Lemma jac_ddt_ok o n m dts q r j : (0 < n)%nat -> (r < m * n)%nat -> (j < m)%nat -> dts j <> 0 ->
  is_derive (fun t => first_deriv o n m (updv dts j t) q r) (dts j) (jac_ddt o n dts q j r).
Proof.
  intros Hn Hr Hj Hd.
  assert (Dr : (r = (r / n) * n + r mod n)%nat) by (rewrite (Nat.div_mod r n) at 1; lia).
  assert (Mr : (r mod n < n)%nat) by (apply Nat.mod_upper_bound; lia).
  assert (Kr : (r / n < m)%nat) by (apply Nat.div_lt_upper_bound; lia).
  unfold jac_ddt. set (k := (r / n)%nat) in *. set (i := (r mod n)%nat) in *.
  set (a := mvec n (stencil o n) (fun c => q (k * n + c)%nat) i).
  apply (is_derive_ext (fun t => a / updv dts j t k)).
  { intro t. rewrite Dr, first_deriv_seg by auto. reflexivity. }
  destruct (Nat.eqb_spec k j) as [<-|Hne].
  - apply (is_derive_ext (fun t => a / t)).
    { intro t. unfold updv. now rewrite Nat.eqb_refl. }
    fold a. auto_derive; auto. field. auto.
  - apply (is_derive_ext (fun _ => a / dts k)).
    { intro t. unfold updv. destruct (Nat.eqb_spec k j); [congruence|reflexivity]. }
    apply (is_derive_const (a / dts k) (dts j)).
Qed.

Lemma check_ok len_dts len_q m n_int ord o : first_deriv_check len_dts len_q m n_int ord = Ok o ->
  len_dts = m /\ len_q = (m * (n_int * 2 + 1))%nat /\
  ((ord = 4%nat /\ o = Fourth /\ (2 <= n_int)%nat) \/ (ord = 2%nat /\ o = Second)).
Proof.
  unfold first_deriv_check, read_order.
  destruct (Nat.eqb_spec ord 4), (Nat.ltb_spec n_int 2),
    (Nat.eqb_spec len_q (m * (n_int * 2 + 1))), (Nat.eqb_spec len_dts m), (Nat.eqb_spec ord 2);
    cbn [andb negb]; intro HH; inversion HH; subst; repeat split; auto; try lia.
Qed.

Lemma check_iff len_dts len_q m n_int ord :
  (exists o, first_deriv_check len_dts len_q m n_int ord = Ok o) <->
  len_dts = m /\ len_q = (m * (n_int * 2 + 1))%nat /\ (ord = 2%nat \/ (ord = 4%nat /\ (2 <= n_int)%nat)).
Proof.
  unfold first_deriv_check, read_order.
  destruct (Nat.eqb_spec ord 4), (Nat.ltb_spec n_int 2),
    (Nat.eqb_spec len_q (m * (n_int * 2 + 1))), (Nat.eqb_spec len_dts m), (Nat.eqb_spec ord 2);
    cbn [andb negb]; split; intro HH;
    try (destruct HH as [o Ho]; discriminate Ho); try (repeat split; auto; lia); try (eexists; reflexivity);
    destruct HH as (? & ? & [?|[? ?]]); try contradiction; try lia.
Qed.
