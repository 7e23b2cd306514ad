(** Proofs about the BDF3 matrix (model: [Model_Integrals]). *)
From Coq Require Import Reals Lra Lia List Bool PeanoNat String ZArith.
From Coquelicot Require Import Coquelicot.
From Verif Require Import Py RSum Model_Integrals Spec_Integrals Proofs_Integrals.
Import ListNotations.
Open Scope R_scope.

(** Contribution of one diagonal to row [i] of a product. *)
Definition band_term (N : nat) (y : vec) (i : nat) (kd : Z * (nat -> R)) : R :=
  let j := (Z.of_nat i + fst kd)%Z in
  if (0 <=? j)%Z && (j <? Z.of_nat N)%Z then snd kd (Nat.min i (Z.to_nat j)) * y (Z.to_nat j) else 0.

Lemma mvec_one_diag N y i k (d : nat -> R) :
  rsum N (fun j => (if Z.eqb (Z.of_nat j - Z.of_nat i) k then d (Nat.min i j) else 0) * y j)
  = band_term N y i (k, d).
Proof.
  unfold band_term; cbn [fst snd].
  destruct (Z.leb_spec 0 (Z.of_nat i + k)), (Z.ltb_spec (Z.of_nat i + k) (Z.of_nat N)); simpl andb; cbn iota.
  - rewrite (rsum_one N _ (Z.to_nat (Z.of_nat i + k))); [|lia|].
    + rewrite (proj2 (Z.eqb_eq _ _)) by lia. reflexivity.
    + intros j Hj Hne. destruct (Z.eqb_spec (Z.of_nat j - Z.of_nat i) k); [lia|lra].
  - apply rsum_zero. intros j Hj. destruct (Z.eqb_spec (Z.of_nat j - Z.of_nat i) k); [lia|lra].
  - apply rsum_zero. intros j Hj. destruct (Z.eqb_spec (Z.of_nat j - Z.of_nat i) k); [lia|lra].
  - apply rsum_zero. intros j Hj. destruct (Z.eqb_spec (Z.of_nat j - Z.of_nat i) k); [lia|lra].
Qed.

Lemma mvec_diags N ds y i :
  mvec N (diags ds) y i = fold_right Rplus 0 (map (band_term N y i) ds).
Proof.
  induction ds as [|[k d] ds IH]; simpl.
  - unfold mvec. apply rsum_zero. intros; simpl; lra.
  - rewrite <- IH. rewrite <- mvec_one_diag. unfold mvec.
    rewrite <- rsum_plus. apply rsum_ext; intros; simpl; lra.
Qed.

Lemma band_term_in N y i k d j :
  Z.of_nat j = (Z.of_nat i + k)%Z -> (j < N)%nat -> band_term N y i (k, d) = d (Nat.min i j) * y j.
Proof.
  intros Hj HN. unfold band_term; cbn [fst snd].
  destruct (Z.leb_spec 0 (Z.of_nat i + k)), (Z.ltb_spec (Z.of_nat i + k) (Z.of_nat N)); try lia.
  simpl andb; cbn iota. replace (Z.to_nat (Z.of_nat i + k)) with j by lia. reflexivity.
Qed.

Lemma band_term_out N y i k d :
  (Z.of_nat i + k < 0)%Z -> band_term N y i (k, d) = 0.
Proof.
  intro H. unfold band_term; cbn [fst snd].
  destruct (Z.leb_spec 0 (Z.of_nat i + k)); [lia|reflexivity].
Qed.

Lemma band_term_zero N y i k d :
  (forall m, d (Nat.min i m) = 0) -> band_term N y i (k, d) = 0.
Proof.
  intro H. unfold band_term; cbn [fst snd]. rewrite H.
  destruct (_ && _); lra.
Qed.

(** The band rows in closed form. *)
Lemma bdf3_A_row0 N y : (3 <= N)%nat ->
  mvec N bdf3_A y 0%nat = - (1/2) * y 0%nat + y 1%nat - 1/6 * y 2%nat.
Proof.
  intro HN. unfold bdf3_A. rewrite mvec_diags. cbn [map fold_right].
  rewrite (band_term_in N y 0%nat 2%Z _ 2%nat) by lia. rewrite (band_term_in N y 0%nat 1%Z _ 1%nat) by lia.
  rewrite (band_term_in N y 0%nat 0%Z _ 0%nat) by lia. rewrite !band_term_out by lia.
  unfold const_diag; simpl. lra.
Qed.

Lemma bdf3_A_row1 N y : (3 <= N)%nat ->
  mvec N bdf3_A y 1%nat = - y 0%nat + 1/2 * y 1%nat + 1/3 * y 2%nat.
Proof.
  intro HN. unfold bdf3_A. rewrite mvec_diags. cbn [map fold_right].
  assert (E1 : band_term N y 1%nat (2%Z, const_diag 0 [-(1)/6]) = 0).
  { unfold band_term; cbn [fst snd]. destruct (_ && _); [|reflexivity]. unfold const_diag; simpl. lra. }
  rewrite E1.
  rewrite (band_term_in N y 1%nat 1%Z _ 2%nat) by lia. rewrite (band_term_in N y 1%nat 0%Z _ 1%nat) by lia.
  rewrite (band_term_in N y 1%nat (-1)%Z _ 0%nat) by lia. rewrite !(band_term_out N y 1%nat) by lia.
  unfold const_diag; simpl. lra.
Qed.

Lemma bdf3_A_row2 N y : (3 <= N)%nat ->
  mvec N bdf3_A y 2%nat = 9/11 * y 0%nat - 18/11 * y 1%nat + y 2%nat.
Proof.
  intro HN. unfold bdf3_A. rewrite mvec_diags. cbn [map fold_right].
  assert (E1 : band_term N y 2%nat (2%Z, const_diag 0 [-(1)/6]) = 0).
  { unfold band_term; cbn [fst snd]. destruct (_ && _); [|reflexivity]. unfold const_diag; simpl. lra. }
  assert (E2 : band_term N y 2%nat (1%Z, const_diag 0 [1; 1/3]) = 0).
  { unfold band_term; cbn [fst snd]. destruct (_ && _); [|reflexivity]. unfold const_diag; simpl. lra. }
  rewrite E1, E2.
  rewrite (band_term_in N y 2%nat 0%Z _ 2%nat) by lia. rewrite (band_term_in N y 2%nat (-1)%Z _ 1%nat) by lia.
  rewrite (band_term_in N y 2%nat (-2)%Z _ 0%nat) by lia. rewrite !(band_term_out N y 2%nat) by lia.
  unfold const_diag; simpl. lra.
Qed.

Lemma bdf3_A_rowk N y k : (k + 3 < N)%nat ->
  mvec N bdf3_A y (k + 3)%nat =
    - (2/11) * y k + 9/11 * y (k + 1)%nat - 18/11 * y (k + 2)%nat + y (k + 3)%nat.
Proof.
  intro HN. unfold bdf3_A. rewrite mvec_diags. cbn [map fold_right].
  assert (E1 : band_term N y (k + 3)%nat (2%Z, const_diag 0 [-(1)/6]) = 0).
  { unfold band_term; cbn [fst snd]. destruct (_ && _); [|reflexivity].
    replace (Nat.min (k + 3) _) with (k + 3)%nat by lia.
    unfold const_diag. rewrite nth_overflow by (simpl; lia). lra. }
  assert (E2 : band_term N y (k + 3)%nat (1%Z, const_diag 0 [1; 1/3]) = 0).
  { unfold band_term; cbn [fst snd]. destruct (_ && _); [|reflexivity].
    replace (Nat.min (k + 3) _) with (k + 3)%nat by lia.
    unfold const_diag. rewrite nth_overflow by (simpl; lia). lra. }
  rewrite E1, E2.
  rewrite (band_term_in N y (k + 3)%nat 0%Z _ (k + 3)%nat) by lia.
  rewrite (band_term_in N y (k + 3)%nat (-1)%Z _ (k + 2)%nat) by lia.
  rewrite (band_term_in N y (k + 3)%nat (-2)%Z _ (k + 1)%nat) by lia.
  rewrite (band_term_in N y (k + 3)%nat (-3)%Z _ k%nat) by lia.
  unfold const_diag.
  rewrite (nth_overflow [_; _]) by (simpl; lia).
  rewrite (nth_overflow [-(1)]) by (simpl; lia).
  rewrite !(nth_overflow []) by (simpl; lia).
  simpl. lra.
Qed.

Lemma bdf3_B_row N v i : (i < N)%nat ->
  mvec N bdf3_B v i = (if Nat.ltb i 2 then 1 else 6/11) * v i.
Proof.
  intro Hi. unfold bdf3_B. rewrite mvec_diags. cbn [map fold_right].
  rewrite (band_term_in N v i%nat 0%Z _ i%nat) by lia. rewrite Nat.min_id. unfold const_diag.
  destruct i as [|[|i]]; simpl; try lra.
  destruct i; simpl; lra.
Qed.

(** ** The linear system has exactly one solution *)
Lemma bdf3_A_injective N y : (3 <= N)%nat ->
  (forall i, (i < N)%nat -> mvec N bdf3_A y i = 0) -> forall i, (i < N)%nat -> y i = 0.
Proof.
  intros HN H.
  pose proof (H 0%nat ltac:(lia)) as H0. rewrite bdf3_A_row0 in H0 by auto.
  pose proof (H 1%nat ltac:(lia)) as H1. rewrite bdf3_A_row1 in H1 by auto.
  pose proof (H 2%nat ltac:(lia)) as H2. rewrite bdf3_A_row2 in H2 by auto.
  assert (Y0 : y 0%nat = 0) by lra. assert (Y1 : y 1%nat = 0) by lra. assert (Y2 : y 2%nat = 0) by lra.
  assert (G : forall k, (k + 2 < N)%nat -> y k = 0 /\ y (k + 1)%nat = 0 /\ y (k + 2)%nat = 0).
  { induction k as [|k IH]; intro Hk; [now auto|].
    destruct IH as (A & B & C); [lia|].
    pose proof (H (k + 3)%nat ltac:(lia)) as Hr. rewrite bdf3_A_rowk in Hr by lia.
    replace (S k) with (k + 1)%nat by lia.
    replace (k + 1 + 1)%nat with (k + 2)%nat by lia.
    replace (k + 1 + 2)%nat with (k + 3)%nat by lia.
    repeat split; auto. lra. }
  intros i Hi. destruct (Nat.lt_ge_cases (i + 2) N) as [Hlt|Hge].
  - now apply G.
  - destruct (G (N - 3)%nat) as (A & B & C); [lia|].
    assert (i = (N - 3 + 1)%nat \/ i = (N - 3 + 2)%nat) as [->| ->] by lia; auto.
Qed.

(** Forward substitution after the leading 3x3 block. *)
Fixpoint bdf3_solve3 (b : vec) (k : nat) : R * R * R :=
  match k with
  | O => (23/12 * b 0%nat - 4/3 * b 1%nat + 55/72 * b 2%nat,
          7/3 * b 0%nat - 2/3 * b 1%nat + 11/18 * b 2%nat,
          9/4 * b 0%nat + 11/8 * b 2%nat)
  | S k' => let '(p, q, r) := bdf3_solve3 b k' in
            (q, r, b (k' + 3)%nat + 18/11 * r - 9/11 * q + 2/11 * p)
  end.
Definition bdf3_solve (b : vec) (k : nat) : R := fst (fst (bdf3_solve3 b k)).

Lemma bdf3_solve3_shape b k :
  bdf3_solve3 b k = (bdf3_solve b k, bdf3_solve b (k + 1)%nat, bdf3_solve b (k + 2)%nat).
Proof.
  assert (S1 : forall k, fst (fst (bdf3_solve3 b (S k))) = snd (fst (bdf3_solve3 b k))).
  { intro j. simpl. destruct (bdf3_solve3 b j) as [[? ?] ?]. reflexivity. }
  assert (S2 : forall k, snd (fst (bdf3_solve3 b (S k))) = snd (bdf3_solve3 b k)).
  { intro j. simpl. destruct (bdf3_solve3 b j) as [[? ?] ?]. reflexivity. }
  unfold bdf3_solve.
  replace (k + 2)%nat with (S (S k)) by lia. replace (k + 1)%nat with (S k) by lia.
  rewrite S1. rewrite (S1 (S k)). rewrite S2.
  destruct (bdf3_solve3 b k) as [[? ?] ?]. reflexivity.
Qed.

Lemma bdf3_solve_correct N b : (3 <= N)%nat ->
  forall i, (i < N)%nat -> mvec N bdf3_A (bdf3_solve b) i = b i.
Proof.
  intros HN i Hi.
  pose proof (bdf3_solve3_shape b 0) as H0. cbn [bdf3_solve3 Nat.add] in H0. apply pair_equal_spec in H0; destruct H0 as [H0 E2].
  apply pair_equal_spec in H0; destruct H0 as [E0 E1].
  destruct i as [|[|[|k]]].
  - rewrite bdf3_A_row0 by auto. rewrite <- E0, <- E1, <- E2. field.
  - rewrite bdf3_A_row1 by auto. rewrite <- E0, <- E1, <- E2. field.
  - rewrite bdf3_A_row2 by auto. rewrite <- E0, <- E1, <- E2. field.
  - replace (S (S (S k))) with (k + 3)%nat in * by lia.
    rewrite bdf3_A_rowk by auto.
    pose proof (bdf3_solve3_shape b (S k)) as Hs.
    cbn [bdf3_solve3] in Hs. rewrite bdf3_solve3_shape in Hs.
    assert (E : bdf3_solve b (k + 3)%nat
      = b (k + 3)%nat + 18/11 * bdf3_solve b (k + 2)%nat - 9/11 * bdf3_solve b (k + 1)%nat
        + 2/11 * bdf3_solve b k).
    { replace (k + 3)%nat with (S k + 2)%nat at 1 by lia. congruence. }
    rewrite E. lra.
Qed.

Definition unit_vec (j : nat) : vec := fun i => if Nat.eqb i j then 1 else 0.
Definition bdf3_Ainv : mat := fun i j => bdf3_solve (unit_vec j) i.

Lemma bdf3_Ainv_inverse N : (3 <= N)%nat -> is_inverse N bdf3_A bdf3_Ainv.
Proof.
  intro HN.
  assert (R1 : forall i j, (i < N)%nat -> (j < N)%nat -> mmul N bdf3_A bdf3_Ainv i j = idm i j).
  { intros i j Hi Hj. unfold mmul, bdf3_Ainv.
    change (rsum N (fun k => bdf3_A i k * bdf3_solve (unit_vec j) k))
      with (mvec N bdf3_A (bdf3_solve (unit_vec j)) i).
    now rewrite bdf3_solve_correct. }
  split; [exact R1|].
  intros i j Hi Hj.
  (* A (X A e_j) = A e_j, and A is injective *)
  set (col := fun k => mmul N bdf3_Ainv bdf3_A k j).
  assert (Hcol : forall r, (r < N)%nat -> mvec N bdf3_A col r = bdf3_A r j).
  { intros r Hr. unfold col.
    transitivity (mmul N (mmul N bdf3_A bdf3_Ainv) bdf3_A r j).
    - unfold mvec, mmul.
      transitivity (rsum N (fun k => rsum N (fun l => bdf3_A r k * bdf3_Ainv k l * bdf3_A l j))).
      + apply rsum_ext; intros k _. rewrite <- rsum_scal. apply rsum_ext; intros; lra.
      + rewrite rsum_swap. apply rsum_ext; intros l _. now rewrite <- rsum_scal_r.
    - unfold mmul at 1. rewrite (rsum_one N _ r); auto.
      + rewrite R1 by auto. unfold idm. rewrite Nat.eqb_refl. lra.
      + intros k Hk Hne. rewrite R1 by auto. unfold idm.
        destruct (Nat.eqb_spec r k); [congruence|lra]. }
  pose proof (bdf3_A_injective N (fun k => col k - idm k j) HN) as Hinj.
  assert (col i - idm i j = 0).
  { apply Hinj; auto. intros r Hr. unfold mvec.
    rewrite (rsum_ext N _ (fun k => bdf3_A r k * col k - bdf3_A r k * idm k j)) by (intros; lra).
    rewrite rsum_minus. change (rsum N (fun k => bdf3_A r k * col k)) with (mvec N bdf3_A col r).
    rewrite Hcol by auto. rewrite (rsum_one N _ j); auto.
    - unfold idm. rewrite Nat.eqb_refl. lra.
    - intros k Hk Hne. unfold idm. destruct (Nat.eqb_spec k j); [congruence|lra]. }
  fold (col i). lra.
Qed.

(** ** The integrator output satisfies the difference scheme *)

Lemma bdf3_tri_apply n X v i : (S i < n)%nat ->
  mvec n (bdf3_tri n X) v (S i)
  = mvec (n - 1) X (mvec (n - 1) bdf3_B (fun j => v (S j))) i.
Proof.
  intro Hi. rewrite <- mvec_mmul. unfold mvec at 1.
  replace n with (S (n - 1)) at 1 by lia. rewrite rsum_S_l. simpl.
  rewrite Rmult_0_l, Rplus_0_l. reflexivity.
Qed.

Lemma bdf3_tri_row0 n X v : mvec n (bdf3_tri n X) v 0%nat = 0.
Proof. unfold mvec. apply rsum_zero. intros; simpl; lra. Qed.

(** Scheme <-> linear system. *)
Lemma bdf3_scheme_system n dt f y : (4 <= n)%nat ->
  bdf3_scheme n dt f y <->
  (forall i, (i < n - 1)%nat ->
     mvec (n - 1) bdf3_A (fun j => y (S j) - y 0%nat) i
     = mvec (n - 1) bdf3_B (fun j => dt * f (S j)) i).
Proof.
  intro Hn. unfold bdf3_scheme. split.
  - intros (H1 & H2 & H3) i Hi. rewrite bdf3_B_row by auto.
    destruct i as [|[|[|k]]].
    + rewrite bdf3_A_row0 by lia. simpl. lra.
    + rewrite bdf3_A_row1 by lia. simpl. lra.
    + rewrite bdf3_A_row2 by lia. simpl. specialize (H3 0%nat ltac:(lia)). simpl in H3. lra.
    + specialize (H3 (S k) ltac:(lia)).
      replace (S (S (S k))) with (k + 3)%nat in * by lia.
      rewrite bdf3_A_rowk by lia.
      destruct (Nat.ltb_spec (k + 3) 2); [lia|].
      replace (S (k + 1)) with (S k + 1)%nat by lia.
      replace (S (k + 2)) with (S k + 2)%nat by lia.
      replace (S (k + 3)) with (S k + 3)%nat by lia. lra.
  - intros H. repeat split.
    + specialize (H 0%nat ltac:(lia)). rewrite bdf3_A_row0, bdf3_B_row in H by lia. simpl in H. lra.
    + specialize (H 1%nat ltac:(lia)). rewrite bdf3_A_row1, bdf3_B_row in H by lia. simpl in H. lra.
    + intros k Hk. destruct k as [|k].
      * specialize (H 2%nat ltac:(lia)). rewrite bdf3_A_row2, bdf3_B_row in H by lia. simpl in *. lra.
      * specialize (H (k + 3)%nat ltac:(lia)). rewrite bdf3_A_rowk, bdf3_B_row in H by lia.
        destruct (Nat.ltb_spec (k + 3) 2); [lia|].
        replace (S (k + 1)) with (S k + 1)%nat in H by lia.
        replace (S (k + 2)) with (S k + 2)%nat in H by lia.
        replace (S (k + 3)) with (S k + 3)%nat in H by lia. lra.
Qed.

Lemma mvec_scal n A a v i : mvec n A (fun j => a * v j) i = a * mvec n A v i.
Proof. unfold mvec. rewrite <- rsum_scal. apply rsum_ext; intros; lra. Qed.

Lemma bdf3_q_satisfies n X ts zs qi rate :
  (4 <= n)%nat -> is_inverse (n - 1) bdf3_A X ->
  let q := integ_q n (bdf3_tri n X) ts zs qi rate in
  q 0%nat = start_value zs qi /\ bdf3_scheme n (time_step n ts) rate q.
Proof.
  intros Hn HX q. split.
  - unfold q. rewrite integ_q_eq by lia. rewrite bdf3_tri_row0. lra.
  - rewrite bdf3_scheme_system by auto. intros i Hi.
    rewrite (mvec_ext _ _ bdf3_A _ (mvec (n - 1) X
        (fun r => mvec (n - 1) bdf3_B (fun j => time_step n ts * rate (S j)) r))); auto.
    + rewrite inverse_solves by auto. reflexivity.
    + intros j Hj. unfold q. rewrite !integ_q_eq by lia. rewrite bdf3_tri_row0.
      rewrite bdf3_tri_apply by lia.
      rewrite (mvec_ext (n-1) X X (fun r => mvec (n - 1) bdf3_B (fun j0 => time_step n ts * rate (S j0)) r)
                (fun r => time_step n ts * mvec (n - 1) bdf3_B (fun j0 => rate (S j0)) r)); auto.
      2:{ intros r _. apply mvec_scal. }
      rewrite mvec_scal. lra.
Qed.

Lemma bdf3_scheme_unique n dt f y z :
  (4 <= n)%nat -> y 0%nat = z 0%nat ->
  bdf3_scheme n dt f y -> bdf3_scheme n dt f z ->
  forall i, (i < n)%nat -> y i = z i.
Proof.
  intros Hn H0 Hy Hz i Hi.
  rewrite bdf3_scheme_system in Hy by auto. rewrite bdf3_scheme_system in Hz by auto.
  destruct i as [|i]; [auto|].
  assert (D : (y (S i) - y 0%nat) - (z (S i) - z 0%nat) = 0).
  { apply (bdf3_A_injective (n - 1) (fun j => (y (S j) - y 0%nat) - (z (S j) - z 0%nat))); try lia.
    intros r Hr. specialize (Hy r Hr). specialize (Hz r Hr). unfold mvec in *.
    rewrite (rsum_ext _ _ (fun j => bdf3_A r j * (y (S j) - y 0%nat) - bdf3_A r j * (z (S j) - z 0%nat)))
      by (intros; lra).
    rewrite rsum_minus. lra. }
  lra.
Qed.

Lemma bdf3_quadratic n X c0 c1 c2 t0 dt zs qi rate :
  (4 <= n)%nat -> is_inverse (n - 1) bdf3_A X ->
  (forall i, (i < n)%nat -> rate i = poly3 c0 c1 c2 0 (t0 + INR i * dt)) ->
  forall i, (i < n)%nat ->
    integ_q n (bdf3_tri n X) (TDt dt) zs qi rate i
    = start_value zs qi + RInt (poly3 c0 c1 c2 0) t0 (t0 + INR i * dt).
Proof.
  intros Hn HX Hrate i Hi.
  destruct (bdf3_q_satisfies n X (TDt dt) zs qi rate Hn HX) as [Hq0 Hq].
  apply (bdf3_scheme_unique n dt rate _
     (fun i => start_value zs qi + RInt (poly3 c0 c1 c2 0) t0 (t0 + INR i * dt))); auto.
  - rewrite Hq0. rewrite RInt_poly3. simpl. unfold prim3. field.
  - unfold bdf3_scheme. rewrite !RInt_poly3, !Hrate by lia. repeat split.
    + simpl INR. unfold prim3, poly3. field.
    + simpl INR. unfold prim3, poly3. field.
    + intros k Hk. rewrite !RInt_poly3, Hrate by lia. rewrite !plus_INR.
      change (INR 1) with 1. change (INR 2) with 2. change (INR 3) with (1 + 1 + 1).
      unfold prim3, poly3. field.
Qed.
