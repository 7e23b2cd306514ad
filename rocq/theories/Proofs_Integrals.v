(** Proofs about the integrators (model: [Model_Integrals]). *)
From Coq Require Import Reals Lra Lia List Bool PeanoNat String ZArith.
From Coquelicot Require Import Coquelicot.
From Verif Require Import Py RSum Model_Integrals Spec_Integrals.
Import ListNotations.
Open Scope R_scope.

Lemma mvec_mmul_rect p q A B v i :
  mvec p (mmul q A B) v i = mvec q A (mvec p B v) i.
Proof.
  unfold mvec, mmul.
  transitivity (rsum p (fun j => rsum q (fun k => A i k * B k j * v j))).
  - apply rsum_ext; intros j _. now rewrite <- rsum_scal_r.
  - rewrite rsum_swap. apply rsum_ext; intros k _. rewrite <- rsum_scal.
    apply rsum_ext; intros; lra.
Qed.

(** ** Simpson's delta matrix *)

(** Row [r] applied to a vector, in closed form. *)
Definition simpson_delta (v : vec) (r : nat) : R :=
  if Nat.even r then (5 * v r + 8 * v (r + 1)%nat - v (r + 2)%nat) / 12
  else (- v (r - 1)%nat + 8 * v r + 5 * v (r + 1)%nat) / 12.

Lemma simpson_row_block b t : (t < 3)%nat -> simpson_row (b * 3 + t) = b.
Proof.
  intro Ht. unfold simpson_row.
  rewrite Nat.div_add_l by lia. rewrite Nat.div_small by lia. lia.
Qed.

Lemma simpson_col_block b t : (t < 3)%nat -> simpson_col (b * 3 + t) = (2 * (b / 2) + t)%nat.
Proof.
  intro Ht. unfold simpson_col.
  replace ((b * 3 + t) mod 3)%nat with t
    by (rewrite Nat.add_comm, Nat.mod_add, Nat.mod_small; lia).
  replace ((b * 3 + t) / 6)%nat with (b / 2)%nat; [lia|].
  replace 6%nat with (3 * 2)%nat by lia. rewrite <- Nat.div_div by lia.
  rewrite Nat.div_add_l by lia. rewrite (Nat.div_small t) by lia. now rewrite Nat.add_0_r.
Qed.

Lemma simpson_data_even m t : (t < 3)%nat ->
  simpson_data ((2 * m) * 3 + t) = nth t [5; 8; -(1)] 0 / 12.
Proof.
  intro Ht. unfold simpson_data.
  replace ((2 * m) * 3 + t)%nat with (t + m * 6)%nat by lia.
  rewrite Nat.mod_add by lia. rewrite Nat.mod_small by lia.
  destruct t as [|[|[|t]]]; simpl; reflexivity || lia.
Qed.

Lemma simpson_data_odd m t : (t < 3)%nat ->
  simpson_data ((2 * m + 1) * 3 + t) = nth t [-(1); 8; 5] 0 / 12.
Proof.
  intro Ht. unfold simpson_data.
  replace ((2 * m + 1) * 3 + t)%nat with ((3 + t) + m * 6)%nat by lia.
  rewrite Nat.mod_add by lia. rewrite Nat.mod_small by lia.
  destruct t as [|[|[|t]]]; simpl; reflexivity || lia.
Qed.

Lemma simpson_base_row n v r :
  Nat.odd n = true -> (r < n - 1)%nat ->
  mvec n (simpson_base n) v r = simpson_delta v r.
Proof.
  intros Hodd Hr.
  unfold mvec, simpson_base.
  transitivity (rsum (3 * (n - 1)) (fun k =>
     if Nat.eqb (simpson_row k) r then simpson_data k * v (simpson_col k) else 0)).
  { transitivity (rsum n (fun c => rsum (3 * (n - 1)) (fun k =>
      (if Nat.eqb (simpson_row k) r && Nat.eqb (simpson_col k) c then simpson_data k else 0) * v c))).
    { apply rsum_ext; intros c _. now rewrite <- rsum_scal_r. }
    rewrite rsum_swap. apply rsum_ext; intros k Hk.
    destruct (Nat.eqb_spec (simpson_row k) r) as [Hrow|Hrow].
    - assert (Hc : (simpson_col k < n)%nat).
      { assert (Hk3 : (k = r * 3 + k mod 3)%nat).
        { unfold simpson_row in Hrow. pose proof (Nat.div_mod k 3). lia. }
        assert (k mod 3 < 3)%nat by (apply Nat.mod_upper_bound; lia).
        rewrite Hk3, simpson_col_block by lia.
        apply Nat.odd_spec in Hodd. destruct Hodd as [m Hm].
        pose proof (Nat.div_mod r 2 ltac:(lia)). pose proof (Nat.mod_upper_bound r 2 ltac:(lia)). lia. }
      rewrite (rsum_one n _ (simpson_col k)); auto.
      + now rewrite Nat.eqb_refl.
      + intros c _ Hne. destruct (Nat.eqb_spec (simpson_col k) c); [congruence|simpl; lra].
    - apply rsum_zero. intros. simpl. lra. }
  rewrite rsum_mul.
  rewrite (rsum_one (n - 1) _ r); [|lia|].
  2:{ intros b _ Hne. apply rsum_zero. intros t Ht. rewrite simpson_row_block by lia.
      destruct (Nat.eqb_spec b r); [congruence|reflexivity]. }
  cbn [rsum]. rewrite !simpson_row_block, !Nat.eqb_refl by lia.
  rewrite !simpson_col_block by lia.
  unfold simpson_delta.
  destruct (Nat.Even_or_Odd r) as [[m ->]|[m ->]].
  - rewrite !simpson_data_even by lia. rewrite Nat.even_mul. simpl orb. cbn iota.
    replace (2 * m / 2)%nat with m by (rewrite Nat.mul_comm, Nat.div_mul; lia).
    cbn [nth]. rewrite !Nat.add_0_r. lra.
  - rewrite !simpson_data_odd by lia.
    replace (Nat.even (2 * m + 1)) with false by (rewrite Nat.even_add, Nat.even_mul; reflexivity).
    replace ((2 * m + 1) / 2)%nat with m.
    2:{ rewrite Nat.add_comm, Nat.mul_comm, Nat.div_add by lia. reflexivity. }
    cbn [nth]. replace (2 * m + 1 - 1)%nat with (2 * m + 0)%nat by lia.
    replace (2 * m + 1 + 1)%nat with (2 * m + 2)%nat by lia. lra.
Qed.

(** The first-difference matrix and accumulation *)
Lemma simpson_a_apply N y i : (i < N)%nat ->
  mvec N simpson_a y i = y i - match i with O => 0 | S i' => y i' end.
Proof.
  intro Hi. unfold mvec, simpson_a, diags.
  transitivity (rsum N (fun j => (if Nat.eqb j i then y j else 0)
                               - (if Nat.eqb (S j) i then y j else 0))).
  - apply rsum_ext; intros j _.
    destruct (Z.eqb_spec (Z.of_nat j - Z.of_nat i) (-1)), (Z.eqb_spec (Z.of_nat j - Z.of_nat i) 0),
      (Nat.eqb_spec j i), (Nat.eqb_spec (S j) i); try lia; lra.
  - rewrite rsum_minus. rewrite (rsum_one N _ i); auto.
    2:{ intros k _ Hne. destruct (Nat.eqb_spec k i); congruence. }
    rewrite Nat.eqb_refl. f_equal. destruct i as [|i'].
    + apply rsum_zero. intros k _. reflexivity.
    + rewrite (rsum_one N _ i'); [|lia|].
      * now rewrite Nat.eqb_refl.
      * intros k _ Hne. destruct (Nat.eqb_spec (S k) (S i')); [congruence|reflexivity].
Qed.

Lemma accumulate N X w : is_inverse N simpson_a X ->
  forall i, (i < N)%nat -> mvec N X w i = rsum (S i) w.
Proof.
  intros HX. induction i as [|i IH]; intro Hi.
  - pose proof (inverse_solves N _ _ w HX 0%nat Hi) as H.
    rewrite simpson_a_apply in H by auto. simpl. lra.
  - pose proof (inverse_solves N _ _ w HX (S i) Hi) as H.
    rewrite simpson_a_apply in H by auto. rewrite IH in H by lia.
    simpl in *. lra.
Qed.

(** The inverse exists (so the hypothesis [is_inverse] is never vacuous). *)
Definition lower_ones : mat := fun i j => if Nat.leb j i then 1 else 0.

Lemma lower_ones_inverse N : is_inverse N simpson_a lower_ones.
Proof.
  split; intros i j Hi Hj.
  - unfold mmul. change (rsum N (fun k => simpson_a i k * lower_ones k j))
      with (mvec N simpson_a (fun k => lower_ones k j) i).
    rewrite simpson_a_apply by auto. unfold lower_ones, idm.
    destruct i as [|i].
    + destruct (Nat.leb_spec j 0), (Nat.eqb_spec 0 j); try lia; lra.
    + destruct (Nat.leb_spec j (S i)), (Nat.leb_spec j i), (Nat.eqb_spec (S i) j); try lia; lra.
  - unfold mmul, lower_ones, simpson_a, diags, idm.
    transitivity (rsum N (fun k => (if Nat.eqb k j then (if Nat.leb k i then 1 else 0) else 0)
                               - (if Nat.eqb k (S j) then (if Nat.leb k i then 1 else 0) else 0))).
    + apply rsum_ext; intros k _.
      destruct (Z.eqb_spec (Z.of_nat j - Z.of_nat k) (-1)), (Z.eqb_spec (Z.of_nat j - Z.of_nat k) 0),
      (Nat.eqb_spec k j), (Nat.eqb_spec k (S j)), (Nat.leb_spec k i); try lia; lra.
    + rewrite rsum_minus. rewrite (rsum_one N _ j); auto.
      2:{ intros k _ Hne. destruct (Nat.eqb_spec k j); congruence. }
      rewrite Nat.eqb_refl.
      destruct (Nat.lt_ge_cases (S j) N) as [H|H].
      * rewrite (rsum_one N _ (S j)); auto.
        2:{ intros k _ Hne. destruct (Nat.eqb_spec k (S j)); congruence. }
        rewrite Nat.eqb_refl.
        destruct (Nat.leb_spec j i), (Nat.leb_spec (S j) i), (Nat.eqb_spec i j); try lia; lra.
      * rewrite rsum_zero.
        2:{ intros k Hk. destruct (Nat.eqb_spec k (S j)); [lia|reflexivity]. }
        destruct (Nat.leb_spec j i), (Nat.eqb_spec i j); try lia; lra.
Qed.

(** ** Single segment *)
Lemma big_mat_single n dts tri rep r c : (r < n)%nat -> (c < n)%nat ->
  big_mat n (fun _ => true) dts tri rep r c = tri r c * dts 0%nat.
Proof.
  intros Hr Hc. unfold big_mat. rewrite !Nat.div_small, !Nat.mod_small by auto.
  simpl. reflexivity.
Qed.

Lemma multistep_single n dts tri rep q0 v r : (r < n)%nat ->
  multistep n 1 (fun _ => true) dts tri rep q0 v r = dts 0%nat * mvec n tri v r + q0.
Proof.
  intros Hr. unfold multistep. f_equal. rewrite Nat.mul_1_r. unfold mvec.
  rewrite <- rsum_scal. apply rsum_ext; intros c Hc.
  rewrite big_mat_single by auto. lra.
Qed.

Lemma integ_q_eq n tri ts zs qi rate i : (1 < n)%nat -> (i < n)%nat ->
  integ_q n tri ts zs qi rate i = time_step n ts * mvec n tri rate i + start_value zs qi.
Proof.
  intros Hn Hi. unfold integ_q.
  destruct (Nat.eqb_spec n 1); [lia|]. now rewrite multistep_single.
Qed.

Lemma simpson_tri_apply n X v i :
  Nat.odd n = true -> is_inverse (n - 1) simpson_a X -> (i < n)%nat ->
  mvec n (simpson_tri n X) v i = rsum i (simpson_delta v).
Proof.
  intros Hodd HX Hi. destruct i as [|i].
  - simpl. unfold mvec. apply rsum_zero. intros; simpl; lra.
  - change (mvec n (simpson_tri n X) v (S i)) with (mvec n (mmul (n - 1) X (simpson_base n)) v i).
    rewrite mvec_mmul_rect. rewrite (accumulate _ _ _ HX) by lia.
    apply rsum_ext; intros r Hr. apply simpson_base_row; auto. lia.
Qed.

(** ** Exactness *)
Definition prim3 (c0 c1 c2 c3 t : R) : R := c0 * t + c1 * t ^ 2 / 2 + c2 * t ^ 3 / 3 + c3 * t ^ 4 / 4.

Lemma RInt_poly3 c0 c1 c2 c3 a b :
  RInt (poly3 c0 c1 c2 c3) a b = prim3 c0 c1 c2 c3 b - prim3 c0 c1 c2 c3 a.
Proof.
  apply is_RInt_unique.
  apply (is_RInt_derive (prim3 c0 c1 c2 c3)).
  - intros x _. unfold prim3, poly3. auto_derive; auto. field.
  - intros x _. apply (ex_derive_continuous (poly3 c0 c1 c2 c3)).
    unfold poly3. auto_derive; auto.
Qed.

Lemma simpson_quadratic n X c0 c1 c2 t0 dt zs qi rate :
  Nat.odd n = true -> (1 < n)%nat -> is_inverse (n - 1) simpson_a X ->
  (forall i, (i < n)%nat -> rate i = poly3 c0 c1 c2 0 (t0 + INR i * dt)) ->
  forall i, (i < n)%nat ->
    integ_q n (simpson_tri n X) (TDt dt) zs qi rate i
    = start_value zs qi + RInt (poly3 c0 c1 c2 0) t0 (t0 + INR i * dt).
Proof.
  intros Hodd Hn HX Hrate i Hi.
  rewrite integ_q_eq by auto. rewrite simpson_tri_apply by auto.
  rewrite RInt_poly3. simpl time_step.
  enough (dt * rsum i (simpson_delta rate)
          = prim3 c0 c1 c2 0 (t0 + INR i * dt) - prim3 c0 c1 c2 0 t0) by lra.
  induction i as [|i IH].
  - simpl. unfold prim3. field.
  - simpl rsum. rewrite Rmult_plus_distr_l. rewrite IH by lia.
    unfold simpson_delta. rewrite !S_INR.
    apply Nat.odd_spec in Hodd. destruct Hodd as [m Hm].
    destruct (Nat.even i) eqn:Ev.
    + apply Nat.even_spec in Ev. destruct Ev as [k Hk].
      rewrite !Hrate by lia. rewrite !plus_INR.
      change (INR 1) with 1. change (INR 2) with 2. unfold poly3, prim3. field.
    + assert (Hi1 : (1 <= i)%nat) by (destruct i; [discriminate|lia]).
      rewrite !Hrate by lia. rewrite minus_INR, plus_INR by lia.
      change (INR 1) with 1. unfold poly3, prim3. field.
Qed.

Lemma simpson_cubic_even n X c0 c1 c2 c3 t0 dt zs qi rate :
  Nat.odd n = true -> (1 < n)%nat -> is_inverse (n - 1) simpson_a X ->
  (forall i, (i < n)%nat -> rate i = poly3 c0 c1 c2 c3 (t0 + INR i * dt)) ->
  forall k, (2 * k < n)%nat ->
    integ_q n (simpson_tri n X) (TDt dt) zs qi rate (2 * k)%nat
    = start_value zs qi + RInt (poly3 c0 c1 c2 c3) t0 (t0 + INR (2 * k) * dt).
Proof.
  intros Hodd Hn HX Hrate k Hk.
  rewrite integ_q_eq by auto. rewrite simpson_tri_apply by auto.
  rewrite RInt_poly3. simpl time_step.
  enough (dt * rsum (2 * k) (simpson_delta rate)
          = prim3 c0 c1 c2 c3 (t0 + INR (2 * k) * dt) - prim3 c0 c1 c2 c3 t0) by lra.
  induction k as [|k IH].
  - simpl. unfold prim3. field.
  - replace (2 * S k)%nat with (S (S (2 * k))) by lia. cbn [rsum].
    rewrite !Rmult_plus_distr_l. rewrite IH by lia.
    rewrite !S_INR. unfold simpson_delta.
    replace (Nat.even (2 * k)) with true by (rewrite Nat.even_mul; reflexivity).
    replace (Nat.even (S (2 * k))) with false
      by (rewrite Nat.even_succ, Nat.odd_mul; reflexivity).
    replace (S (2 * k) - 1)%nat with (2 * k)%nat by lia.
    rewrite !Hrate by lia. rewrite !plus_INR, !S_INR.
    rewrite ?mult_INR, ?S_INR.
    change (INR 1) with 1. change (INR 2) with 2. change (INR 0) with 0. unfold poly3, prim3. field.
Qed.

(** The final value is the textbook composite Simpson sum. *)
Lemma simpson_final_composite m X dt zs qi rate :
  (0 < m)%nat -> is_inverse (2 * m) simpson_a X ->
  integ_q_final (2 * m + 1) (simpson_tri (2 * m + 1) X) (TDt dt) zs qi rate
  = start_value zs qi
    + dt / 3 * rsum m (fun k => rate (2 * k)%nat + 4 * rate (2 * k + 1)%nat + rate (2 * k + 2)%nat).
Proof.
  intros Hm HX. unfold integ_q_final.
  assert (Hodd : Nat.odd (2 * m + 1) = true) by (apply Nat.odd_spec; exists m; lia).
  rewrite integ_q_eq by lia. replace (2 * m + 1 - 1)%nat with (2 * m)%nat by lia.
  rewrite simpson_tri_apply; [|auto| now replace (2 * m + 1 - 1)%nat with (2 * m)%nat by lia |lia].
  simpl time_step. rewrite rsum_mul.
  rewrite (rsum_ext m _ (fun k => 1 / 3 * (rate (2 * k)%nat + 4 * rate (2 * k + 1)%nat + rate (2 * k + 2)%nat))).
  - rewrite rsum_scal. field.
  - intros k _. cbn [rsum]. unfold simpson_delta.
    replace (Nat.even (k * 2 + 0)) with true by (rewrite Nat.add_0_r, Nat.even_mul, orb_true_r; reflexivity).
    replace (Nat.even (k * 2 + 1)) with false by (rewrite Nat.even_add, Nat.even_mul, orb_true_r; reflexivity).
    replace (k * 2 + 0 + 1)%nat with (2 * k + 1)%nat by lia.
    replace (k * 2 + 0 + 2)%nat with (2 * k + 2)%nat by lia.
    replace (k * 2 + 0)%nat with (2 * k)%nat by lia.
    replace (k * 2 + 1 - 1)%nat with (2 * k)%nat by lia.
    replace (k * 2 + 1 + 1)%nat with (2 * k + 2)%nat by lia.
    replace (k * 2 + 1)%nat with (2 * k + 1)%nat by lia.
    field.
Qed.
