(** Proofs about the integrator's algebra, Jacobian and multi-segment mode. *)
From Coq Require Import Reals Lra Lia List Bool PeanoNat String ZArith.
From Coquelicot Require Import Coquelicot.
From Verif Require Import Py RSum Model_Integrals Spec_Integrals Proofs_Integrals Proofs_BDF3.
Import ListNotations.
Open Scope R_scope.

(** What the proofs need to know about a quadrature matrix: the first row is
    zero, and integrating the constant 1 gives the node number. *)
Definition consistent (n : nat) (tri : mat) : Prop :=
  (forall v, mvec n tri v 0%nat = 0) /\
  (forall i, (i < n)%nat -> mvec n tri (fun _ => 1) i = INR i).

Lemma simpson_consistent n X :
  Nat.odd n = true -> (1 < n)%nat -> is_inverse (n - 1) simpson_a X ->
  consistent n (simpson_tri n X).
Proof.
  intros Hodd Hn HX. split.
  - intro v. rewrite simpson_tri_apply by (auto; lia). reflexivity.
  - intros i Hi.
    pose proof (simpson_quadratic n X 1 0 0 0 1 true 0 (fun _ => 1) Hodd Hn HX) as H.
    specialize (H ltac:(intros; unfold poly3; lra) i Hi).
    rewrite integ_q_eq in H by auto. rewrite RInt_poly3 in H. simpl time_step in H.
    unfold prim3, start_value in H. lra.
Qed.

Lemma bdf3_consistent n X :
  (4 <= n)%nat -> is_inverse (n - 1) bdf3_A X -> consistent n (bdf3_tri n X).
Proof.
  intros Hn HX. split.
  - intro v. apply bdf3_tri_row0.
  - intros i Hi.
    pose proof (bdf3_quadratic n X 1 0 0 0 1 true 0 (fun _ => 1) Hn HX) as H.
    specialize (H ltac:(intros; unfold poly3; lra) i Hi).
    rewrite integ_q_eq in H by lia. rewrite RInt_poly3 in H. simpl time_step in H.
    unfold prim3, start_value in H. lra.
Qed.

Lemma method_consistent m n X :
  method_size m n -> is_inverse (n - 1) (method_lhs m) X -> consistent n (method_tri m n X).
Proof.
  intros [Hodd Hn] HX. destruct m; simpl in *.
  - apply bdf3_consistent; auto; lia.
  - apply simpson_consistent; auto; lia.
Qed.

Lemma method_size_gt1 m n : method_size m n -> (1 < n)%nat.
Proof. intros [_ H]. destruct m; lia. Qed.

Lemma mvec_plus n A u v i : mvec n A (fun j => u j + v j) i = mvec n A u i + mvec n A v i.
Proof. unfold mvec. rewrite <- rsum_plus. apply rsum_ext; intros; lra. Qed.

(** ** Time modes *)
Lemma time_modes_agree n tri ts1 ts2 zs qi rate i :
  time_step n ts1 = time_step n ts2 ->
  integ_q n tri ts1 zs qi rate i = integ_q n tri ts2 zs qi rate i.
Proof. intro H. unfold integ_q. now rewrite H. Qed.

(** ** Affine structure *)
Lemma integ_affine n tri ts qi1 qi2 a b u v i : (1 < n)%nat -> (i < n)%nat ->
  integ_q n tri ts false (a * qi1 + b * qi2) (fun j => a * u j + b * v j) i
  = a * integ_q n tri ts false qi1 u i + b * integ_q n tri ts false qi2 v i.
Proof.
  intros Hn Hi. rewrite !integ_q_eq by auto.
  rewrite (mvec_plus n tri (fun j => a * u j) (fun j => b * v j)), !mvec_scal.
  unfold start_value. ring.
Qed.

Lemma integ_start n tri ts zs qi rate : (1 < n)%nat -> (forall v, mvec n tri v 0%nat = 0) ->
  integ_q n tri ts zs qi rate 0%nat = start_value zs qi.
Proof. intros Hn H. rewrite integ_q_eq by lia. rewrite H. lra. Qed.

(** ** Lists *)
Lemma dQddt_eq n tri rate r : (r < n)%nat -> dQddt n tri rate r = mvec n tri rate r.
Proof.
  intro Hr. unfold dQddt, multistep_ddt. rewrite Nat.div_small, Nat.mod_small by auto.
  simpl. reflexivity.
Qed.

Lemma nz_true x : nz x = true <-> x <> 0.
Proof. unfold nz. destruct (Req_EM_T x 0); split; congruence. Qed.

Lemma filter_seq_ext f g a m :
  (forall i, (a <= i < a + m)%nat -> f i = g i) -> filter f (seq a m) = filter g (seq a m).
Proof.
  intro H. apply filter_ext_in. intros i Hi. apply in_seq in Hi. auto.
Qed.

Lemma place_map (f : nat -> R) pat r :
  place pat (map f pat) r = if existsb (Nat.eqb r) pat then f r else 0.
Proof.
  induction pat as [|p pat IH]; simpl; [reflexivity|].
  rewrite (Nat.eqb_sym r p). destruct (Nat.eqb_spec p r) as [->|]; simpl; auto.
Qed.

Lemma filter_true {A} f (l : list A) : (forall x, In x l -> f x = true) -> filter f l = l.
Proof.
  induction l as [|a l IH]; simpl; intro H; [reflexivity|].
  rewrite (H a) by auto. f_equal. auto.
Qed.

Lemma dt_pattern_eq n tri : (1 < n)%nat -> consistent n tri -> dt_pattern n tri = seq 1 (n - 1).
Proof.
  intros Hn [H0 H1]. unfold dt_pattern, nonzero_rows.
  destruct n as [|n']; [lia|]. cbn [seq]. simpl (S n' - 1)%nat. rewrite Nat.sub_0_r.
  cbn [filter].
  assert (E0 : nz (multistep_ddt (S n') 1 (fun _ => true) tri (repeat_mat (S n') tri) (fun _ => 1) 0 0%nat) = false).
  { pose proof (dQddt_eq (S n') tri (fun _ => 1) 0 ltac:(lia)) as E. unfold dQddt in E. rewrite E.
    rewrite H0. destruct (nz 0) eqn:N; auto. apply nz_true in N. lra. }
  rewrite E0. apply filter_true. intros i Hi. apply in_seq in Hi.
  pose proof (dQddt_eq (S n') tri (fun _ => 1) i ltac:(lia)) as E. unfold dQddt in E. rewrite E.
  apply nz_true. rewrite H1 by lia. apply not_0_INR. lia.
Qed.

Lemma existsb_seq r a m : existsb (Nat.eqb r) (seq a m) = (Nat.leb a r && Nat.ltb r (a + m))%bool.
Proof.
  destruct (existsb (Nat.eqb r) (seq a m)) eqn:E.
  - apply existsb_exists in E. destruct E as (x & Hx & Hr). apply Nat.eqb_eq in Hr. subst.
    apply in_seq in Hx. symmetry. apply andb_true_intro. rewrite Nat.leb_le, Nat.ltb_lt. lia.
  - symmetry. apply andb_false_iff. rewrite Nat.leb_gt, Nat.ltb_ge.
    destruct (Nat.lt_ge_cases r a); [auto|]. right.
    destruct (Nat.lt_ge_cases r (a + m)); [|auto].
    assert (existsb (Nat.eqb r) (seq a m) = true); [|congruence].
    apply existsb_exists. exists r. rewrite Nat.eqb_refl, in_seq. lia.
Qed.

Lemma set_sub_dense n tri (f : nat -> R) : (1 < n)%nat -> consistent n tri ->
  exists J, set_sub (dt_pattern n tri) (map f (seq 1 (n - 1))) = Ok J /\
            forall r, (r < n)%nat -> J r = if Nat.eqb r 0 then 0 else f r.
Proof.
  intros Hn HC. rewrite dt_pattern_eq by auto. unfold set_sub.
  rewrite map_length, Nat.eqb_refl. eexists; split; [reflexivity|].
  intros r Hr. rewrite place_map, existsb_seq.
  destruct (Nat.eqb_spec r 0) as [->|Hne]; [reflexivity|].
  destruct (Nat.leb_spec 1 r), (Nat.ltb_spec r (1 + (n - 1))); try lia. reflexivity.
Qed.

(** ** Derivatives w.r.t. time inputs *)
Lemma integ_derive_step n tri (ts : R -> time_setup) x s zs qi rate r :
  (1 < n)%nat -> (r < n)%nat ->
  is_derive (fun t => time_step n (ts t)) x s ->
  is_derive (fun t => integ_q n tri (ts t) zs qi rate r) x (s * mvec n tri rate r).
Proof.
  intros Hn Hr Hs.
  apply (is_derive_ext (fun t => time_step n (ts t) * mvec n tri rate r + start_value zs qi)).
  { intro t. now rewrite integ_q_eq. }
  evar_last.
  - apply (@is_derive_plus R_AbsRing R_NormedModule); [|apply is_derive_const].
    apply (is_derive_scal_l (fun t => time_step n (ts t)) x s (mvec n tri rate r)). exact Hs.
  - rewrite plus_zero_r. reflexivity.
Qed.

Lemma jac_dt_ok n tri dt zs qi rate : (1 < n)%nat -> consistent n tri ->
  exists J, jac_q_dt n tri rate = Ok J /\ forall r, (r < n)%nat ->
    is_derive (fun t => integ_q n tri (TDt t) zs qi rate r) dt (J r).
Proof.
  intros Hn HC. unfold jac_q_dt, dense_tail.
  destruct (set_sub_dense n tri (dQddt n tri rate) Hn HC) as (J & HJ & HJr).
  exists J. split; [exact HJ|]. intros r Hr. rewrite HJr by auto.
  evar_last.
  - apply (integ_derive_step n tri TDt dt 1); auto. apply (is_derive_id (K := R_AbsRing)).
  - destruct (Nat.eqb_spec r 0) as [->|].
    + rewrite (proj1 HC). lra.
    + rewrite dQddt_eq by auto. lra.
Qed.

Lemma jac_duration_ok n tri d zs qi rate : (1 < n)%nat -> consistent n tri ->
  exists J, jac_q_duration n tri rate = Ok J /\ forall r, (r < n)%nat ->
    is_derive (fun t => integ_q n tri (TDuration t) zs qi rate r) d (J r).
Proof.
  intros Hn HC. unfold jac_q_duration, dense_tail. rewrite map_map.
  destruct (set_sub_dense n tri (fun r => dQddt n tri rate r / INR (n - 1)) Hn HC) as (J & HJ & HJr).
  exists J. split; [exact HJ|]. intros r Hr. rewrite HJr by auto.
  evar_last.
  - apply (integ_derive_step n tri TDuration d (/ INR (n - 1))); auto.
    simpl. destruct (Nat.eqb_spec n 1); [lia|]. auto_derive; auto. field.
    apply not_0_INR; lia.
  - destruct (Nat.eqb_spec r 0) as [->|].
    + rewrite (proj1 HC). lra.
    + rewrite dQddt_eq by auto. unfold Rdiv. lra.
Qed.

Lemma time_step_tf n ti tf : (1 < n)%nat ->
  is_derive (fun t => time_step n (TBounds ti t)) tf (/ INR (n - 1)).
Proof.
  intro Hn. simpl. auto_derive; auto. field. apply not_0_INR; lia.
Qed.
Lemma time_step_ti n ti tf : (1 < n)%nat ->
  is_derive (fun t => time_step n (TBounds t tf)) ti (- / INR (n - 1)).
Proof.
  intro Hn. simpl. auto_derive; auto. field. apply not_0_INR; lia.
Qed.

(** "bounds": correct when no node's quadrature happens to vanish (or all do). *)
Definition no_accidental_zero (n : nat) (tri : mat) (rate : vec) : Prop :=
  (forall i, (1 <= i < n)%nat -> mvec n tri rate i <> 0) \/
  (forall i, (i < n)%nat -> mvec n tri rate i = 0).

Lemma nonzero_rows_eq n tri rate : (1 < n)%nat -> (forall v, mvec n tri v 0%nat = 0) ->
  (forall i, (1 <= i < n)%nat -> mvec n tri rate i <> 0) ->
  nonzero_rows n (dQddt n tri rate) = seq 1 (n - 1).
Proof.
  intros Hn H0 H. unfold nonzero_rows.
  destruct n as [|n']; [lia|]. cbn [seq filter]. replace (S n' - 1)%nat with n' by lia.
  rewrite dQddt_eq, H0 by lia.
  destruct (nz 0) eqn:N; [apply nz_true in N; lra|].
  apply filter_true. intros i Hi. apply in_seq in Hi. rewrite dQddt_eq by lia.
  apply nz_true. apply H. lia.
Qed.

Lemma jac_bounds_ok sgn n tri (ts : R -> time_setup) x zs qi rate :
  (1 < n)%nat -> consistent n tri -> no_accidental_zero n tri rate ->
  is_derive (fun t => time_step n (ts t)) x (sgn / INR (n - 1)) ->
  exists J, jac_q_bounds sgn n tri rate = Ok J /\ forall r, (r < n)%nat ->
    is_derive (fun t => integ_q n tri (ts t) zs qi rate r) x (J r).
Proof.
  intros Hn HC [Hz|Hz] Hts.
  - unfold jac_q_bounds, stored_data. rewrite nonzero_rows_eq by (auto; apply HC).
    destruct (set_sub_dense n tri (fun r => sgn * dQddt n tri rate r / INR (n - 1)) Hn HC) as (J & HJ & HJr).
    exists J. split.
    + rewrite map_map. destruct (n - 1)%nat as [|k] eqn:Ek; [lia|]. cbn [seq map].
      cbn [seq map] in HJ. exact HJ.
    + intros r Hr. rewrite HJr by auto. evar_last.
      * apply (integ_derive_step n tri ts x (sgn / INR (n - 1)) zs qi rate r); eauto.
      * destruct (Nat.eqb_spec r 0) as [->|].
        -- rewrite (proj1 HC). lra.
        -- rewrite dQddt_eq by auto. unfold Rdiv. lra.
  - assert (E : nonzero_rows n (dQddt n tri rate) = []).
    { unfold nonzero_rows. rewrite (filter_seq_ext _ (fun _ => false)).
      - induction (seq 0 n); simpl; auto.
      - intros i Hi. rewrite dQddt_eq by lia. rewrite Hz by lia.
        destruct (nz 0) eqn:N; [apply nz_true in N; lra|reflexivity]. }
    unfold jac_q_bounds, stored_data. rewrite E. simpl. eexists; split; [reflexivity|].
    intros r Hr. evar_last.
    + apply (integ_derive_step n tri ts x (sgn / INR (n - 1)) zs qi rate r); eauto.
    + rewrite Hz by auto. lra.
Qed.

(** Final value: correct in every mode. *)
Lemma jac_final_ok n tri (ts : R -> time_setup) x s zs qi rate : (1 < n)%nat ->
  is_derive (fun t => time_step n (ts t)) x s ->
  is_derive (fun t => integ_q_final n tri (ts t) zs qi rate) x (s * dQddt n tri rate (n - 1)%nat).
Proof.
  intros Hn Hs. rewrite dQddt_eq by lia. apply integ_derive_step; auto. lia.
Qed.

Lemma jac_final_bounds_eq sgn n tri rate :
  jac_qf_bounds sgn n tri rate = sgn / INR (n - 1) * dQddt n tri rate (n - 1)%nat.
Proof.
  unfold jac_qf_bounds. destruct (nz _) eqn:N.
  - unfold Rdiv; lra.
  - assert (dQddt n tri rate (n - 1)%nat = 0) as ->; [|lra].
    unfold nz in N. destruct (Req_EM_T _ 0); congruence.
Qed.

(** ** Derivatives w.r.t. rates and start value *)
Lemma rsum_updv n (a : nat -> R) v c t : (c < n)%nat ->
  rsum n (fun j => a j * updv v c t j) = a c * t + rsum n (fun j => a j * updv v c 0 j).
Proof.
  intro Hc.
  assert (rsum n (fun j => a j * updv v c t j) - rsum n (fun j => a j * updv v c 0 j) = a c * t); [|lra].
  rewrite <- rsum_minus. rewrite (rsum_one n _ c); auto.
  - unfold updv. rewrite Nat.eqb_refl. lra.
  - intros j Hj Hne. unfold updv. destruct (Nat.eqb_spec j c); [congruence|lra].
Qed.

Lemma mvec_derive n A v r c : (c < n)%nat ->
  is_derive (fun t => mvec n A (updv v c t) r) (v c) (A r c).
Proof.
  intro Hc. unfold mvec.
  apply (is_derive_ext (fun t => A r c * t + rsum n (fun j => A r j * updv v c 0 j))).
  { intro t. symmetry. now apply (rsum_updv n (A r)). }
  auto_derive; auto. lra.
Qed.

Lemma jac_rate_ok n tri ts zs qi rate r c : (1 < n)%nat -> (r < n)%nat -> (c < n)%nat ->
  is_derive (fun t => integ_q n tri ts zs qi (updv rate c t) r) (rate c) (jac_q_rate n tri ts r c).
Proof.
  intros Hn Hr Hc.
  apply (is_derive_ext (fun t => mvec (n * 1) (jac_q_rate n tri ts) (updv rate c t) r + start_value zs qi)).
  { intro t. unfold integ_q. destruct (Nat.eqb_spec n 1); [lia|]. reflexivity. }
  evar_last.
  - apply (@is_derive_plus R_AbsRing R_NormedModule); [|apply is_derive_const].
    apply mvec_derive. lia.
  - apply plus_zero_r.
Qed.

Lemma jac_start_ok n tri ts qi rate r :
  is_derive (fun t => integ_q n tri ts false t rate r) qi (jac_q_start r).
Proof.
  unfold integ_q, start_value, jac_q_start. destruct (Nat.eqb n 1).
  - apply (is_derive_id (K := R_AbsRing)).
  - unfold multistep. auto_derive; auto.
Qed.

(** ** The declared sparsity pattern goes wrong in "bounds" mode *)
Definition rate3 : vec := fun i => nth i [1; 0; 5] 0.
Definition rate5 : vec := fun i => nth i [1; 0; 5; 0; 0] 0.

Lemma simpson_delta_rate3 X : is_inverse 2 simpson_a X ->
  mvec 3 (simpson_tri 3 X) rate3 0%nat = 0 /\
  mvec 3 (simpson_tri 3 X) rate3 1%nat = 0 /\ mvec 3 (simpson_tri 3 X) rate3 2%nat = 2.
Proof.
  intro HX. rewrite !(simpson_tri_apply 3 X) by (auto; lia). simpl rsum.
  unfold simpson_delta, rate3. simpl. repeat split; lra.
Qed.

Lemma nz_eq x y : x = y -> nz x = nz y. Proof. now intros ->. Qed.
Lemma nz0 : nz 0 = false. Proof. unfold nz. destruct (Req_EM_T 0 0); congruence. Qed.
Lemma nz_lt x : x <> 0 -> nz x = true. Proof. apply nz_true. Qed.

Lemma jac_bounds_broadcast X : is_inverse 2 simpson_a X ->
  exists J, jac_q_bounds 1 3 (simpson_tri 3 X) rate3 = Ok J /\ J 1%nat = 1.
Proof.
  intro HX. destruct (simpson_delta_rate3 X HX) as (E0 & E1 & E2).
  unfold jac_q_bounds, stored_data.
  assert (EN : nonzero_rows 3 (dQddt 3 (simpson_tri 3 X) rate3) = [2%nat]).
  { unfold nonzero_rows. cbn [seq filter]. rewrite !dQddt_eq by lia.
    rewrite E0, E1, E2, nz0. rewrite (nz_lt 2) by lra. reflexivity. }
  rewrite EN. cbn [map]. rewrite dt_pattern_eq; [|lia|apply simpson_consistent; auto; lia].
  unfold set_sub. simpl. eexists; split; [reflexivity|].
  simpl. rewrite dQddt_eq, E2 by lia. lra.
Qed.

Lemma simpson_delta_rate5 X : is_inverse 4 simpson_a X ->
  mvec 5 (simpson_tri 5 X) rate5 0%nat = 0 /\
  mvec 5 (simpson_tri 5 X) rate5 1%nat = 0 /\ mvec 5 (simpson_tri 5 X) rate5 2%nat = 2 /\
  mvec 5 (simpson_tri 5 X) rate5 3%nat = 2 + 25 / 12 /\ mvec 5 (simpson_tri 5 X) rate5 4%nat = 2 + 20 / 12.
Proof.
  intro HX. rewrite !(simpson_tri_apply 5 X) by (auto; lia). simpl rsum.
  unfold simpson_delta, rate5. simpl. repeat split; lra.
Qed.

Lemma jac_bounds_crash X : is_inverse 4 simpson_a X ->
  jac_q_bounds 1 5 (simpson_tri 5 X) rate5 = Err ValueError.
Proof.
  intro HX. destruct (simpson_delta_rate5 X HX) as (E0 & E1 & E2 & E3 & E4).
  unfold jac_q_bounds, stored_data.
  assert (EN : nonzero_rows 5 (dQddt 5 (simpson_tri 5 X) rate5) = [2; 3; 4]%nat).
  { unfold nonzero_rows. cbn [seq filter]. rewrite !dQddt_eq by lia.
    rewrite E0, E1, E2, E3, E4, nz0. rewrite !nz_lt by lra. reflexivity. }
  rewrite EN. cbn [map]. rewrite dt_pattern_eq; [|lia|apply simpson_consistent; auto; lia].
  reflexivity.
Qed.

(** ** Multi-segment integration *)
Lemma div_block n k i : (i < n)%nat -> ((k * n + i) / n = k)%nat.
Proof. intro H. rewrite Nat.div_add_l by lia. rewrite Nat.div_small by auto. lia. Qed.
Lemma mod_block n k i : (i < n)%nat -> ((k * n + i) mod n = i)%nat.
Proof. intro H. rewrite Nat.add_comm, Nat.mod_add by lia. now apply Nat.mod_small. Qed.

Definition seg (n k : nat) (v : vec) : vec := fun i => v (k * n + i)%nat.

Lemma multistep_blocks n m cnt dts tri rep q0 v k i : (i < n)%nat ->
  multistep n m cnt dts tri rep q0 v (k * n + i)%nat
  = q0 + rsum m (fun j => if Nat.ltb j k && cnt j then dts j * mvec n rep (seg n j v) i
                          else if Nat.eqb k j && cnt j then dts j * mvec n tri (seg n j v) i else 0).
Proof.
  intro Hi. unfold multistep. rewrite Rplus_comm. f_equal. unfold mvec at 1.
  rewrite (Nat.mul_comm n m). rewrite Nat.mul_comm. rewrite rsum_mul.
  apply rsum_ext; intros j Hj. unfold big_mat.
  rewrite (rsum_ext n _ (fun c => (if Nat.ltb j k && cnt j then rep i c * dts j
      else if Nat.eqb k j && cnt j then tri i c * dts j else 0) * v (j * n + c)%nat)).
  2:{ intros c Hc. rewrite !div_block, !mod_block by auto. reflexivity. }
  destruct (Nat.ltb j k && cnt j); [|destruct (Nat.eqb k j && cnt j)].
  - unfold mvec. rewrite <- rsum_scal. apply rsum_ext; intros; unfold seg; lra.
  - unfold mvec. rewrite <- rsum_scal. apply rsum_ext; intros; unfold seg; lra.
  - apply rsum_zero; intros; lra.
Qed.

(** Sum over the finished segments and the current one. *)
Lemma rsum_prefix m k (f g : nat -> R) : (k < m)%nat ->
  rsum m (fun j => if Nat.ltb j k then f j else if Nat.eqb k j then g j else 0) = rsum k f + g k.
Proof.
  intro Hk. replace m with (k + S (m - k - 1))%nat by lia. rewrite rsum_app. f_equal.
  - apply rsum_ext; intros j Hj. destruct (Nat.ltb_spec j k); [reflexivity|lia].
  - rewrite (rsum_one _ _ 0%nat); [|lia|].
    + rewrite Nat.add_0_r. destruct (Nat.ltb_spec k k); [lia|]. now rewrite Nat.eqb_refl.
    + intros j Hj Hne. destruct (Nat.ltb_spec (k + j) k); [lia|].
      destruct (Nat.eqb_spec k (k + j)); [lia|reflexivity].
Qed.

Lemma multistep_closed n m cnt dts tri q0 v k i : (i < n)%nat -> (k < m)%nat ->
  multistep n m cnt dts tri (repeat_mat n tri) q0 v (k * n + i)%nat
  = q0 + rsum k (fun j => if cnt j then dts j * mvec n tri (seg n j v) (n - 1)%nat else 0)
       + (if cnt k then dts k * mvec n tri (seg n k v) i else 0).
Proof.
  intros Hi Hk. rewrite multistep_blocks by auto. rewrite Rplus_assoc. f_equal.
  rewrite <- (rsum_prefix m k) with (g := fun k => if cnt k then dts k * mvec n tri (seg n k v) i else 0) by auto.
  apply rsum_ext; intros j Hj.
  destruct (Nat.ltb j k); simpl.
  - destruct (cnt j); [reflexivity|]. rewrite andb_false_r. reflexivity.
  - destruct (Nat.eqb_spec k j) as [<-|]; simpl; [|reflexivity].
    destruct (cnt k); reflexivity.
Qed.

Lemma multistep_seg_start n m cnt dts tri q0 v k : (0 < n)%nat -> (k < m)%nat ->
  seg_start n q0 (multistep n m cnt dts tri (repeat_mat n tri) q0 v) k
  = q0 + rsum k (fun j => if cnt j then dts j * mvec n tri (seg n j v) (n - 1)%nat else 0).
Proof.
  intros Hn Hk. destruct k as [|k]; [simpl; lra|].
  simpl seg_start. rewrite multistep_closed by lia. simpl rsum. lra.
Qed.

Lemma old_chain n m names count dts tri q0 v k i : (1 < n)%nat -> (i < n)%nat -> (k < m)%nat ->
  let q := old_q n m names count dts tri q0 v in
  q (k * n + i)%nat =
    (if counted names count k
     then integ_q n tri (TDt (dts k)) false (seg_start n q0 q k) (fun j => v (k * n + j)%nat) i
     else seg_start n q0 q k).
Proof.
  intros Hn Hi Hk q. unfold q, old_q. rewrite multistep_seg_start by lia.
  rewrite multistep_closed by auto.
  destruct (counted names count k); [|lra].
  rewrite integ_q_eq by auto. simpl time_step. unfold start_value, seg. lra.
Qed.

(** Listed segments contribute as if the others had zero rate. *)
Lemma old_zero_rate n m names count dts tri q0 v r : (0 < n)%nat -> (r < n * m)%nat ->
  old_q n m names count dts tri q0 v r
  = old_q n m None None dts tri q0 (fun c => if counted names count (c / n)%nat then v c else 0) r.
Proof.
  intros Hn Hr. unfold old_q, multistep. f_equal. unfold mvec. apply rsum_ext; intros c Hc.
  unfold big_mat. simpl counted. rewrite !andb_true_r.
  destruct (counted names count (c / n)); rewrite ?andb_true_r, ?andb_false_r; [reflexivity|lra].
Qed.

(** Derivative of the multi-segment output w.r.t. one segment's step. *)
Lemma multistep_ddt_block n m cnt tri v j k i : (i < n)%nat ->
  multistep_ddt n m cnt tri (repeat_mat n tri) v j (k * n + i)%nat
  = if Nat.ltb j k && cnt j then mvec n tri (seg n j v) (n - 1)%nat
    else if Nat.eqb k j && cnt j then mvec n tri (seg n j v) i else 0.
Proof.
  intro Hi. unfold multistep_ddt. rewrite div_block, mod_block by auto.
  destruct (Nat.ltb j k && cnt j); [reflexivity|].
  destruct (Nat.eqb k j && cnt j); [reflexivity|].
  unfold mvec. apply rsum_zero; intros; lra.
Qed.

Lemma old_derive_dt n m names count dts tri q0 v j r : (0 < n)%nat -> (r < n * m)%nat -> (j < m)%nat ->
  is_derive (fun t => old_q n m names count (updv dts j t) tri q0 v r) (dts j)
    (multistep_ddt n m (counted names count) tri (repeat_mat n tri) v j r).
Proof.
  intros Hn Hr Hj.
  assert (Hd : (r = (r / n) * n + r mod n)%nat) by (rewrite (Nat.div_mod r n) at 1; lia).
  assert (Hi : (r mod n < n)%nat) by (apply Nat.mod_upper_bound; lia).
  assert (Hk : (r / n < m)%nat) by (apply Nat.div_lt_upper_bound; lia).
  set (k := (r / n)%nat) in *. set (i := (r mod n)%nat) in *. rewrite Hd.
  rewrite multistep_ddt_block by auto. unfold old_q.
  set (cnt := counted names count).
  pose (a := fun j0 => if Nat.ltb j0 k && cnt j0 then mvec n tri (seg n j0 v) (n - 1)%nat
                       else if Nat.eqb k j0 && cnt j0 then mvec n tri (seg n j0 v) i else 0).
  apply (is_derive_ext (fun t => q0 + rsum m (fun j0 => a j0 * updv dts j t j0))).
  { intro t. rewrite multistep_blocks by auto. f_equal. apply rsum_ext; intros j0 _.
    unfold a. destruct (Nat.ltb j0 k && cnt j0); [unfold mvec, repeat_mat; lra|].
    destruct (Nat.eqb k j0 && cnt j0); lra. }
  evar_last.
  - apply (@is_derive_plus R_AbsRing R_NormedModule); [apply is_derive_const|].
    apply (mvec_derive m (fun _ => a) dts 0 j Hj).
  - rewrite plus_zero_l. unfold a. reflexivity.
Qed.

Lemma set_sub_data n v w : (forall i, (i < n)%nat -> (v i <> 0 <-> w i <> 0)) ->
  exists J, set_sub (nonzero_rows n w) (stored_data n v) = Ok J /\ forall r, (r < n)%nat -> J r = v r.
Proof.
  intro H. assert (E : nonzero_rows n v = nonzero_rows n w).
  { unfold nonzero_rows. apply filter_seq_ext. intros i Hi.
    specialize (H i ltac:(lia)). unfold nz.
    destruct (Req_EM_T (v i) 0), (Req_EM_T (w i) 0); tauto. }
  unfold stored_data. rewrite E. unfold set_sub. rewrite map_length, Nat.eqb_refl.
  eexists; split; [reflexivity|]. intros r Hr. rewrite place_map.
  destruct (existsb (Nat.eqb r) (nonzero_rows n w)) eqn:Ex; [reflexivity|].
  destruct (Req_dec (v r) 0) as [->|Hne]; [reflexivity|].
  exfalso. assert (existsb (Nat.eqb r) (nonzero_rows n w) = true); [|congruence].
  apply existsb_exists. exists r. rewrite Nat.eqb_refl. split; [|reflexivity].
  unfold nonzero_rows. apply filter_In. split; [apply in_seq; lia|]. apply nz_true. now apply H.
Qed.

Lemma old_jac_ok n m names count dts tri q0 v j :
  (1 < n)%nat -> consistent n tri -> (j < m)%nat ->
  (forall i, (1 <= i < n)%nat -> mvec n tri (fun c => v (j * n + c)%nat) i <> 0) ->
  exists J, old_jac_dt n m names count tri v j = Ok J /\
    forall r, (r < n * m)%nat ->
      is_derive (fun t => old_q n m names count (updv dts j t) tri q0 v r) (dts j) (J r).
Proof.
  intros Hn [HC0 HC1] Hj Hz. unfold old_jac_dt.
  destruct (set_sub_data (n * m) (multistep_ddt n m (counted names count) tri (repeat_mat n tri) v j)
     (multistep_ddt n m (counted names count) tri (repeat_mat n tri) (fun _ => 1) j)) as (J & HJ & HJr).
  - intros r Hr.
    assert (Hd : (r = (r / n) * n + r mod n)%nat) by (rewrite (Nat.div_mod r n) at 1; lia).
    assert (Hi : (r mod n < n)%nat) by (apply Nat.mod_upper_bound; lia).
    rewrite Hd. rewrite !multistep_ddt_block by auto.
    change (seg n j v) with (fun c => v (j * n + c)%nat).
    change (seg n j (fun _ => 1)) with (fun _ : nat => 1).
    destruct (Nat.ltb j (r / n) && counted names count j).
    { split; intros _.
      - rewrite HC1 by lia. apply not_0_INR; lia.
      - apply Hz. lia. }
    destruct (Nat.eqb (r / n) j && counted names count j); [|tauto].
    destruct (r mod n)%nat as [|i] eqn:Ei.
    + rewrite !HC0. tauto.
    + split; intros _.
      * rewrite HC1 by lia. apply not_0_INR; lia.
      * apply Hz. lia.
  - exists J. split; [exact HJ|]. intros r Hr. rewrite HJr by auto. apply old_derive_dt; auto; lia.
Qed.

(** Default rates (all zero) in a counted segment: the assignment has no entries. *)
Lemma old_jac_crash n m tri v j : (2 < n)%nat -> consistent n tri -> (j < m)%nat ->
  (forall c, (c < n)%nat -> v (j * n + c)%nat = 0) ->
  old_jac_dt n m None None tri v j = Err ValueError.
Proof.
  intros Hn [HC0 HC1] Hj Hv. unfold old_jac_dt.
  assert (E : stored_data (n * m) (multistep_ddt n m (counted None None) tri (repeat_mat n tri) v j) = []).
  { unfold stored_data. replace (nonzero_rows _ _) with (@nil nat); [reflexivity|]. symmetry.
    unfold nonzero_rows. rewrite (filter_seq_ext _ (fun _ => false)).
    - induction (seq 0 (n * m)); simpl; auto.
    - intros r Hr.
      assert (Hd : (r = (r / n) * n + r mod n)%nat) by (rewrite (Nat.div_mod r n) at 1; lia).
      assert (Hi : (r mod n < n)%nat) by (apply Nat.mod_upper_bound; lia).
      rewrite Hd, multistep_ddt_block by auto.
      assert (Z : forall i, mvec n tri (seg n j v) i = 0).
      { intro i. unfold mvec. apply rsum_zero. intros c Hc. unfold seg. rewrite Hv by auto. lra. }
      rewrite !Z. destruct (_ && _); [apply nz0|]. destruct (_ && _); apply nz0. }
  rewrite E.
  assert (Hin : In (j * n + 1)%nat (nonzero_rows (n * m)
     (multistep_ddt n m (counted None None) tri (repeat_mat n tri) (fun _ => 1) j))).
  { unfold nonzero_rows. apply filter_In. split; [apply in_seq; nia|].
    rewrite multistep_ddt_block by lia. simpl counted.
    destruct (Nat.ltb_spec j j); [lia|]. rewrite Nat.eqb_refl. simpl andb. cbn iota.
    apply nz_true. change (seg n j (fun _ => 1)) with (fun _ : nat => 1).
    rewrite HC1 by lia. simpl. lra. }
  unfold set_sub. destruct (nonzero_rows _ _); [destruct Hin|]. reflexivity.
Qed.
