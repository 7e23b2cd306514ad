(** Finite sums and matrices over R (sizes are explicit, indices are [nat]). *)
From Coq Require Import Reals Lra Lia List Bool PeanoNat.
Open Scope R_scope.

Fixpoint rsum (n : nat) (f : nat -> R) : R :=
  match n with O => 0 | S k => rsum k f + f k end.

Lemma rsum_ext n f g : (forall k, (k < n)%nat -> f k = g k) -> rsum n f = rsum n g.
Proof.
  induction n as [|n IH]; intro H; simpl; [reflexivity|].
  rewrite IH by (intros; apply H; lia). rewrite H by lia. reflexivity.
Qed.

Lemma rsum_zero n f : (forall k, (k < n)%nat -> f k = 0) -> rsum n f = 0.
Proof. induction n as [|n IH]; intro H; simpl; [reflexivity|]. rewrite IH, H; auto; lra. Qed.

Lemma rsum_plus n f g : rsum n (fun k => f k + g k) = rsum n f + rsum n g.
Proof. induction n as [|n IH]; simpl; [lra|rewrite IH; lra]. Qed.

Lemma rsum_minus n f g : rsum n (fun k => f k - g k) = rsum n f - rsum n g.
Proof. induction n as [|n IH]; simpl; [lra|rewrite IH; lra]. Qed.

Lemma rsum_scal n a f : rsum n (fun k => a * f k) = a * rsum n f.
Proof. induction n as [|n IH]; simpl; [lra|rewrite IH; lra]. Qed.

Lemma rsum_scal_r n a f : rsum n (fun k => f k * a) = rsum n f * a.
Proof. induction n as [|n IH]; simpl; [lra|rewrite IH; lra]. Qed.

Lemma rsum_const n a : rsum n (fun _ => a) = INR n * a.
Proof. induction n as [|n IH]; [simpl; lra|]. rewrite S_INR. simpl rsum. rewrite IH; lra. Qed.

Lemma rsum_app n m f : rsum (n + m) f = rsum n f + rsum m (fun k => f (n + k)%nat).
Proof.
  induction m as [|m IH]; simpl.
  - rewrite Nat.add_0_r; lra.
  - rewrite Nat.add_succ_r. simpl. rewrite IH. lra.
Qed.

Lemma rsum_S_l n f : rsum (S n) f = f 0%nat + rsum n (fun k => f (S k)).
Proof.
  replace (S n) with (1 + n)%nat by lia. rewrite rsum_app. simpl. lra.
Qed.

Lemma rsum_one n f k0 :
  (k0 < n)%nat -> (forall k, (k < n)%nat -> k <> k0 -> f k = 0) -> rsum n f = f k0.
Proof.
  induction n as [|n IH]; intros Hk H; [lia|]. simpl.
  destruct (Nat.eq_dec k0 n) as [->|Hne].
  - rewrite rsum_zero; [lra|]. intros; apply H; lia.
  - rewrite IH; [|lia|intros; apply H; lia]. rewrite (H n); [lra|lia|lia].
Qed.

Lemma rsum_swap n m f :
  rsum n (fun i => rsum m (fun j => f i j)) = rsum m (fun j => rsum n (fun i => f i j)).
Proof.
  induction n as [|n IH]; simpl.
  - symmetry; now apply rsum_zero.
  - rewrite IH. rewrite <- rsum_plus. reflexivity.
Qed.

(** Sum over all indices of a product range, block by block. *)
Lemma rsum_mul n m f :
  rsum (n * m) f = rsum m (fun b => rsum n (fun k => f (b * n + k)%nat)).
Proof.
  induction m as [|m IH]; simpl.
  - rewrite Nat.mul_0_r; reflexivity.
  - replace (n * S m)%nat with (n * m + n)%nat by lia. rewrite rsum_app, IH.
    f_equal. apply rsum_ext; intros k Hk. f_equal. lia.
Qed.

Lemma rsum_le n f g : (forall k, (k < n)%nat -> f k <= g k) -> rsum n f <= rsum n g.
Proof.
  induction n as [|n IH]; intro H; simpl; [lra|].
  assert (rsum n f <= rsum n g) by (apply IH; intros; apply H; lia).
  assert (f n <= g n) by (apply H; lia). lra.
Qed.

Lemma rsum_nonneg n f : (forall k, (k < n)%nat -> 0 <= f k) -> 0 <= rsum n f.
Proof.
  intro H. rewrite <- (rsum_zero n (fun _ => 0)) by auto. now apply rsum_le.
Qed.

Lemma rsum_opp n f : rsum n (fun k => - f k) = - rsum n f.
Proof. induction n as [|n IH]; simpl; [lra|rewrite IH; lra]. Qed.

(** Matrices and vectors *)
Definition vec := nat -> R.
Definition mat := nat -> nat -> R.
Definition mmul (n : nat) (A B : mat) : mat := fun i j => rsum n (fun k => A i k * B k j).
Definition mvec (n : nat) (A : mat) (v : vec) : vec := fun i => rsum n (fun j => A i j * v j).
Definition idm : mat := fun i j => if Nat.eqb i j then 1 else 0.

(** [X] is the (two-sided) inverse of the [n] x [n] matrix [A]. *)
Definition is_inverse (n : nat) (A X : mat) : Prop :=
  (forall i j, (i < n)%nat -> (j < n)%nat -> mmul n A X i j = idm i j) /\
  (forall i j, (i < n)%nat -> (j < n)%nat -> mmul n X A i j = idm i j).

Lemma mvec_ext n A B v w i :
  (forall j, (j < n)%nat -> A i j = B i j) -> (forall j, (j < n)%nat -> v j = w j) ->
  mvec n A v i = mvec n B w i.
Proof. intros HA Hv. apply rsum_ext; intros j Hj. now rewrite HA, Hv. Qed.

Lemma mvec_mmul n A B v i : mvec n (mmul n A B) v i = mvec n A (mvec n B v) i.
Proof.
  unfold mvec, mmul.
  transitivity (rsum n (fun j => rsum n (fun k => A i k * B k j * v j))).
  - apply rsum_ext; intros j _. now rewrite <- rsum_scal_r.
  - rewrite rsum_swap. apply rsum_ext; intros k _. rewrite <- rsum_scal.
    apply rsum_ext; intros; lra.
Qed.

Lemma mvec_id n v i : (i < n)%nat -> mvec n idm v i = v i.
Proof.
  intro Hi. unfold mvec, idm. rewrite (rsum_one n _ i); auto.
  - rewrite Nat.eqb_refl; lra.
  - intros k Hk Hne. destruct (Nat.eqb_spec i k); [congruence|lra].
Qed.

(** Solving with the inverse gives the unique solution. *)
Lemma inverse_solves n A X b : is_inverse n A X ->
  forall i, (i < n)%nat -> mvec n A (mvec n X b) i = b i.
Proof.
  intros [H1 _] i Hi. rewrite <- mvec_mmul.
  rewrite (mvec_ext n _ idm _ b) by (auto; intros; now apply H1).
  now apply mvec_id.
Qed.

Lemma inverse_unique_sol n A X b y : is_inverse n A X ->
  (forall i, (i < n)%nat -> mvec n A y i = b i) ->
  forall i, (i < n)%nat -> y i = mvec n X b i.
Proof.
  intros [_ H2] Hy i Hi.
  transitivity (mvec n X (mvec n A y) i).
  - rewrite <- mvec_mmul. rewrite (mvec_ext n _ idm _ y) by (auto; intros; now apply H2).
    symmetry; now apply mvec_id.
  - apply mvec_ext; auto.
Qed.

Lemma rsum_blk m n f :
  rsum (m * n) f = rsum m (fun b => rsum n (fun k => f (b * n + k)%nat)).
Proof. rewrite Nat.mul_comm. apply rsum_mul. Qed.
