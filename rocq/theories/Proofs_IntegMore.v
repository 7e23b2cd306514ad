(** Remaining lemmas quoted by [Props_Integrals]. *)
From Coq Require Import Reals Lra Lia List Bool PeanoNat String ZArith.
From Coquelicot Require Import Coquelicot.
From Verif Require Import Py RSum Model_Integrals Spec_Integrals Proofs_Integrals Proofs_BDF3 Proofs_IntegJac.
Import ListNotations.
Open Scope R_scope.

Lemma simpson_invertible n : exists X, is_inverse (n - 1) simpson_a X.
Proof. eexists. apply lower_ones_inverse. Qed.

Lemma bdf3_invertible n : (4 <= n)%nat -> exists X, is_inverse (n - 1) bdf3_A X.
Proof. intro H. exists bdf3_Ainv. apply bdf3_Ainv_inverse. lia. Qed.

Lemma simpson_quadratic' n X c0 c1 c2 t0 dt zs qi rate :
  method_size Simpson n -> is_inverse (n - 1) simpson_a X ->
  (forall i, (i < n)%nat -> rate i = poly3 c0 c1 c2 0 (t0 + INR i * dt)) ->
  forall i, (i < n)%nat ->
    integ_q n (method_tri Simpson n X) (TDt dt) zs qi rate i
    = (if zs then 0 else qi) + RInt (poly3 c0 c1 c2 0) t0 (t0 + INR i * dt).
Proof. intros [H1 H2] HX Hr i Hi. apply simpson_quadratic; auto. lia. Qed.

Lemma simpson_cubic' n X c0 c1 c2 c3 t0 dt zs qi rate :
  method_size Simpson n -> is_inverse (n - 1) simpson_a X ->
  (forall i, (i < n)%nat -> rate i = poly3 c0 c1 c2 c3 (t0 + INR i * dt)) ->
  (forall k, (2 * k < n)%nat ->
    integ_q n (method_tri Simpson n X) (TDt dt) zs qi rate (2 * k)%nat
    = (if zs then 0 else qi) + RInt (poly3 c0 c1 c2 c3) t0 (t0 + INR (2 * k) * dt)) /\
  integ_q_final n (method_tri Simpson n X) (TDt dt) zs qi rate
    = (if zs then 0 else qi) + RInt (poly3 c0 c1 c2 c3) t0 (t0 + INR (n - 1) * dt).
Proof.
  intros [H1 H2] HX Hr.
  assert (E : forall k, (2 * k < n)%nat ->
    integ_q n (method_tri Simpson n X) (TDt dt) zs qi rate (2 * k)%nat
    = (if zs then 0 else qi) + RInt (poly3 c0 c1 c2 c3) t0 (t0 + INR (2 * k) * dt)).
  { intros k Hk. apply simpson_cubic_even; auto. lia. }
  split; [exact E|]. unfold integ_q_final.
  apply Nat.odd_spec in H1. destruct H1 as [k ->].
  assert (Ek : (2 * k + 1 - 1 = 2 * k)%nat) by lia. rewrite Ek. apply E. lia.
Qed.

Lemma bdf3_quadratic' n X c0 c1 c2 t0 dt zs qi rate :
  method_size Bdf3 n -> is_inverse (n - 1) bdf3_A X ->
  (forall i, (i < n)%nat -> rate i = poly3 c0 c1 c2 0 (t0 + INR i * dt)) ->
  forall i, (i < n)%nat ->
    integ_q n (method_tri Bdf3 n X) (TDt dt) zs qi rate i
    = (if zs then 0 else qi) + RInt (poly3 c0 c1 c2 0) t0 (t0 + INR i * dt).
Proof. intros [H1 H2] HX Hr i Hi. apply bdf3_quadratic; auto. lia. Qed.

Lemma bdf3_characterised n X dt (zs : bool) qi rate y :
  method_size Bdf3 n -> is_inverse (n - 1) bdf3_A X ->
  (y 0%nat = (if zs then 0 else qi) /\ bdf3_scheme n dt rate y
   <-> forall i, (i < n)%nat -> y i = integ_q n (method_tri Bdf3 n X) (TDt dt) zs qi rate i).
Proof.
  intros [H1 H2] HX.
  destruct (bdf3_q_satisfies n X (TDt dt) zs qi rate ltac:(lia) HX) as [Q0 QS].
  split.
  - intros [Y0 YS] i Hi. apply (bdf3_scheme_unique n dt rate); auto; try lia.
    simpl method_tri. rewrite Q0, Y0. reflexivity.
  - intro H. split.
    + rewrite (H 0%nat) by lia. exact Q0.
    + destruct QS as (A & B & C). simpl method_tri in H. simpl time_step in *. unfold bdf3_scheme.
      rewrite !H by lia. split; [exact A|]. split; [exact B|].
      intros k Hk. rewrite !H by lia. now apply C.
Qed.

Lemma nodes_ok_odd n : integrator_nodes_ok n = Ok tt <-> Nat.odd n = true.
Proof.
  unfold integrator_nodes_ok.
  assert (H : ((Z.of_nat n - 1) mod 2 = if Nat.odd n then 0 else 1)%Z).
  { destruct (Nat.odd n) eqn:E.
    - apply Nat.odd_spec in E. destruct E as [k ->].
      replace (Z.of_nat (2 * k + 1) - 1)%Z with (Z.of_nat k * 2)%Z by lia. apply Z.mod_mul. lia.
    - assert (Ev : Nat.even n = true) by (rewrite <- Nat.negb_odd, E; reflexivity).
      apply Nat.even_spec in Ev. destruct Ev as [k ->].
      replace (Z.of_nat (2 * k) - 1)%Z with (1 + (Z.of_nat k - 1) * 2)%Z by lia.
      rewrite Z.mod_add by lia. reflexivity. }
  rewrite H. destruct (Nat.odd n); simpl; split; congruence.
Qed.

Lemma three_nodes_fail : exists n, Nat.odd n = true /\ (1 < n)%nat /\
    integrator_nodes_ok n = Ok tt /\ bdf3_size_ok n = Err ValueError.
Proof. exists 3%nat. repeat split; auto. Qed.

Lemma time_modes n tri dt ti zs qi rate i : (1 < n)%nat ->
    integ_q n tri (TDuration (INR (n - 1) * dt)) zs qi rate i = integ_q n tri (TDt dt) zs qi rate i /\
    integ_q n tri (TBounds ti (ti + INR (n - 1) * dt)) zs qi rate i = integ_q n tri (TDt dt) zs qi rate i.
Proof.
  intro Hn. assert (INR (n - 1) <> 0) by (apply not_0_INR; lia).
  split; apply time_modes_agree; simpl.
  - destruct (Nat.eqb_spec n 1); [lia|]. field; auto.
  - field; auto.
Qed.

Lemma integ_shift_scale n tri dt zs qi s rate i : (1 < n)%nat -> (i < n)%nat ->
    integ_q n tri (TDt dt) false (qi + s) rate i = integ_q n tri (TDt dt) false qi rate i + s /\
    integ_q n tri (TDt (s * dt)) zs qi rate i = integ_q n tri (TDt dt) zs qi (fun j => s * rate j) i.
Proof.
  intros Hn Hi. rewrite !integ_q_eq by auto. simpl. rewrite mvec_scal. unfold start_value.
  split; [lra|]. ring.
Qed.

Lemma integ_first m n X ts zs qi rate :
    method_size m n -> is_inverse (n - 1) (method_lhs m) X ->
    integ_q n (method_tri m n X) ts zs qi rate 0%nat = (if zs then 0 else qi).
Proof.
  intros H HX. apply integ_start; [eapply method_size_gt1; eauto|].
  apply (method_consistent m n X H HX).
Qed.

Lemma integ_final_single n tri ts zs qi rate :
    integ_q_final n tri ts zs qi rate = integ_q n tri ts zs qi rate (n - 1)%nat /\
    integ_q 1 tri ts zs qi rate 0%nat = (if zs then 0 else qi).
Proof. split; reflexivity. Qed.

Lemma jac_rate_start n tri ts zs qi rate : (1 < n)%nat ->
    (forall r c, (r < n)%nat -> (c < n)%nat ->
      is_derive (fun t => integ_q n tri ts zs qi (updv rate c t) r) (rate c) (jac_q_rate n tri ts r c)) /\
    (forall c, (c < n)%nat ->
      is_derive (fun t => integ_q_final n tri ts zs qi (updv rate c t)) (rate c) (jac_qf_rate n tri ts c)) /\
    (forall r, is_derive (fun t => integ_q n tri ts false t rate r) qi (jac_q_start r)).
Proof.
  intro Hn. split; [|split].
  - intros; now apply jac_rate_ok.
  - intros c Hc. apply jac_rate_ok; auto. lia.
  - intro r. apply jac_start_ok.
Qed.

Lemma jac_dt_all m n X dt zs qi rate :
    method_size m n -> is_inverse (n - 1) (method_lhs m) X ->
    (exists J, jac_q_dt n (method_tri m n X) rate = Ok J /\ forall r, (r < n)%nat ->
       is_derive (fun t => integ_q n (method_tri m n X) (TDt t) zs qi rate r) dt (J r)) /\
    is_derive (fun t => integ_q_final n (method_tri m n X) (TDt t) zs qi rate) dt
              (jac_qf_dt n (method_tri m n X) rate).
Proof.
  intros H HX. pose proof (method_size_gt1 m n H). split.
  - apply jac_dt_ok; auto. now apply method_consistent.
  - evar_last. apply (jac_final_ok n (method_tri m n X) TDt dt 1); auto.
    apply (is_derive_id (K := R_AbsRing)). unfold jac_qf_dt. lra.
Qed.

Lemma jac_duration_all m n X d zs qi rate :
    method_size m n -> is_inverse (n - 1) (method_lhs m) X ->
    (exists J, jac_q_duration n (method_tri m n X) rate = Ok J /\ forall r, (r < n)%nat ->
       is_derive (fun t => integ_q n (method_tri m n X) (TDuration t) zs qi rate r) d (J r)) /\
    is_derive (fun t => integ_q_final n (method_tri m n X) (TDuration t) zs qi rate) d
              (jac_qf_duration n (method_tri m n X) rate).
Proof.
  intros H HX. pose proof (method_size_gt1 m n H). split.
  - apply jac_duration_ok; auto. now apply method_consistent.
  - evar_last. apply (jac_final_ok n (method_tri m n X) TDuration d (/ INR (n - 1))); auto.
    + simpl. destruct (Nat.eqb_spec n 1); [lia|]. auto_derive; auto. field. apply not_0_INR; lia.
    + unfold jac_qf_duration, Rdiv. lra.
Qed.

Lemma unit_integral n tri rate i : (1 < n)%nat -> (i < n)%nat ->
  integ_q n tri (TDt 1) true 0 rate i = mvec n tri rate i.
Proof. intros. rewrite integ_q_eq by auto. simpl. lra. Qed.

Lemma jac_bounds_all m n X ti tf zs qi rate :
    method_size m n -> is_inverse (n - 1) (method_lhs m) X ->
    let tri := method_tri m n X in
    ((forall i, (1 <= i < n)%nat -> integ_q n tri (TDt 1) true 0 rate i <> 0) \/
     (forall i, (i < n)%nat -> integ_q n tri (TDt 1) true 0 rate i = 0)) ->
    (exists J, jac_q_bounds (-1) n tri rate = Ok J /\ forall r, (r < n)%nat ->
       is_derive (fun t => integ_q n tri (TBounds t tf) zs qi rate r) ti (J r)) /\
    (exists J, jac_q_bounds 1 n tri rate = Ok J /\ forall r, (r < n)%nat ->
       is_derive (fun t => integ_q n tri (TBounds ti t) zs qi rate r) tf (J r)).
Proof.
  intros H HX tri HZ. pose proof (method_size_gt1 m n H) as Hn.
  assert (HC : consistent n tri) by now apply method_consistent.
  assert (HZ' : no_accidental_zero n tri rate).
  { destruct HZ as [HZ|HZ]; [left|right]; intros i Hi.
    - specialize (HZ i Hi). rewrite unit_integral in HZ by lia. exact HZ.
    - specialize (HZ i Hi). rewrite unit_integral in HZ by lia. exact HZ. }
  split.
  - apply (jac_bounds_ok (-1) n tri (fun t => TBounds t tf)); auto.
    replace (-1 / INR (n - 1)) with (- / INR (n - 1)) by (unfold Rdiv; lra). now apply time_step_ti.
  - apply (jac_bounds_ok 1 n tri (fun t => TBounds ti t)); auto.
    replace (1 / INR (n - 1)) with (/ INR (n - 1)) by (unfold Rdiv; lra). now apply time_step_tf.
Qed.

Lemma jac_bounds_final n tri ti tf zs qi rate : (1 < n)%nat ->
    is_derive (fun t => integ_q_final n tri (TBounds t tf) zs qi rate) ti (jac_qf_bounds (-1) n tri rate) /\
    is_derive (fun t => integ_q_final n tri (TBounds ti t) zs qi rate) tf (jac_qf_bounds 1 n tri rate).
Proof.
  intro Hn. rewrite !jac_final_bounds_eq. split.
  - apply (jac_final_ok n tri (fun t => TBounds t tf)); auto.
    replace (-1 / INR (n - 1)) with (- / INR (n - 1)) by (unfold Rdiv; lra). now apply time_step_ti.
  - apply (jac_final_ok n tri (fun t => TBounds ti t)); auto.
    replace (1 / INR (n - 1)) with (/ INR (n - 1)) by (unfold Rdiv; lra). now apply time_step_tf.
Qed.

Lemma jac_bounds_wrong X ti tf zs qi : is_inverse (3 - 1) simpson_a X ->
    exists rate J, jac_q_bounds 1 3 (method_tri Simpson 3 X) rate = Ok J /\
      ~ is_derive (fun t => integ_q 3 (method_tri Simpson 3 X) (TBounds ti t) zs qi rate 1%nat) tf (J 1%nat).
Proof.
  intro HX. destruct (jac_bounds_broadcast X HX) as (J & HJ & HJ1).
  exists rate3, J. split; [exact HJ|]. rewrite HJ1. intro D.
  destruct (simpson_delta_rate3 X HX) as (_ & E1 & _).
  assert (D0 : is_derive (fun t => integ_q 3 (method_tri Simpson 3 X) (TBounds ti t) zs qi rate3 1%nat) tf 0).
  { apply (is_derive_ext (fun _ => start_value zs qi)); [|apply (is_derive_const (start_value zs qi) tf)].
    intro t. simpl method_tri. rewrite integ_q_eq, E1 by lia. lra. }
  apply is_derive_unique in D. apply is_derive_unique in D0. lra.
Qed.

Lemma jac_bounds_raises X : is_inverse (5 - 1) simpson_a X ->
    exists rate, jac_q_bounds 1 5 (method_tri Simpson 5 X) rate = Err ValueError.
Proof. intro HX. exists rate5. now apply jac_bounds_crash. Qed.

Lemma bounds_example :
  exists X, method_size Simpson 3 /\ is_inverse (3 - 1) (method_lhs Simpson) X /\
    forall i, (1 <= i < 3)%nat -> integ_q 3 (method_tri Simpson 3 X) (TDt 1) true 0 (fun _ => 1) i <> 0.
Proof.
  destruct (simpson_invertible 3) as [X HX]. exists X.
  assert (HM : method_size Simpson 3) by (split; simpl; auto).
  split; [exact HM|]. split; [exact HX|]. intros i Hi.
  rewrite unit_integral by lia. destruct (method_consistent Simpson 3 X HM HX) as [_ HC].
  rewrite HC by lia. apply not_0_INR. lia.
Qed.

Lemma old_chain_all n m dts tri q0 v k i : (1 < n)%nat -> (i < n)%nat -> (k < m)%nat ->
    let q := old_q n m None None dts tri q0 v in
    q (k * n + i)%nat
    = integ_q n tri (TDt (dts k)) false (seg_start n q0 q k) (fun j => v (k * n + j)%nat) i.
Proof. intros. now apply (old_chain n m None None dts tri q0 v k i). Qed.

Lemma old_no_gap meth n m X dts q0 v k :
    method_size meth n -> is_inverse (n - 1) (method_lhs meth) X -> (S k < m)%nat ->
    let q := old_q n m None None dts (method_tri meth n X) q0 v in
    q (S k * n)%nat = q (k * n + (n - 1))%nat.
Proof.
  intros H HX Hk q. pose proof (method_size_gt1 _ _ H) as Hn.
  pose proof (old_chain_all n m dts (method_tri meth n X) q0 v (S k) 0 Hn ltac:(lia) Hk) as E.
  rewrite Nat.add_0_r in E. fold q in E. rewrite E. now rewrite (integ_first meth n X).
Qed.

Lemma old_jac_all meth n m X names count dts q0 v j :
    method_size meth n -> is_inverse (n - 1) (method_lhs meth) X -> (j < m)%nat ->
    let tri := method_tri meth n X in
    (forall i, (1 <= i < n)%nat -> integ_q n tri (TDt 1) true 0 (fun c => v (j * n + c)%nat) i <> 0) ->
    exists J, old_jac_dt n m names count tri v j = Ok J /\
      forall r, (r < n * m)%nat ->
        is_derive (fun t => old_q n m names count (updv dts j t) tri q0 v r) (dts j) (J r).
Proof.
  intros H HX Hj tri HZ. pose proof (method_size_gt1 _ _ H) as Hn.
  apply old_jac_ok; auto. now apply method_consistent.
  intros i Hi. rewrite <- unit_integral by lia. now apply HZ.
Qed.

Lemma old_jac_raises meth n m X v j :
    method_size meth n -> is_inverse (n - 1) (method_lhs meth) X -> (j < m)%nat ->
    (forall c, (c < n)%nat -> v (j * n + c)%nat = 0) ->
    old_jac_dt n m None None (method_tri meth n X) v j = Err ValueError.
Proof.
  intros H HX Hj Hv. apply old_jac_crash; auto; [|now apply method_consistent].
  destruct H as [_ H]; destruct meth; lia.
Qed.

Lemma old_time_setup names ts : old_time_setup_ok (Some names) ts = Ok tt <-> ts = "dt"%string.
Proof.
  unfold old_time_setup_ok. destruct (String.eqb_spec ts "dt"); split; congruence.
Qed.

Lemma counted_spec names count k :
  counted (Some names) (Some count) k = true <-> In (nth k names ""%string) count.
Proof.
  simpl. rewrite existsb_exists. split.
  - intros (x & Hx & E). apply String.eqb_eq in E. now subst.
  - intro H. eexists; split; [exact H|]. apply String.eqb_refl.
Qed.

Lemma old_skip_hold n m names count dts tri q0 v k i :
    (1 < n)%nat -> (i < n)%nat -> (k < m)%nat -> ~ In (nth k names ""%string) count ->
    let q := old_q n m (Some names) (Some count) dts tri q0 v in
    q (k * n + i)%nat = seg_start n q0 q k.
Proof.
  intros Hn Hi Hk Hin q.
  pose proof (old_chain n m (Some names) (Some count) dts tri q0 v k i Hn Hi Hk) as E. cbv zeta in E.
  destruct (counted (Some names) (Some count) k) eqn:C.
  - apply counted_spec in C. contradiction.
  - exact E.
Qed.

Lemma old_skip_zero n m names count dts tri q0 v w r : (0 < n)%nat -> (r < n * m)%nat ->
    (forall k i, (k < m)%nat -> (i < n)%nat ->
       (In (nth k names ""%string) count -> w (k * n + i)%nat = v (k * n + i)%nat) /\
       (~ In (nth k names ""%string) count -> w (k * n + i)%nat = 0)) ->
    old_q n m (Some names) (Some count) dts tri q0 v r = old_q n m None None dts tri q0 w r.
Proof.
  intros Hn Hr Hw. rewrite old_zero_rate by auto. unfold old_q, multistep. f_equal.
  apply mvec_ext; [auto|]. intros c Hc.
  assert (Hd : (c = (c / n) * n + c mod n)%nat) by (rewrite (Nat.div_mod c n) at 1; lia).
  assert (Hi : (c mod n < n)%nat) by (apply Nat.mod_upper_bound; lia).
  assert (Hk : (c / n < m)%nat) by (apply Nat.div_lt_upper_bound; lia).
  destruct (Hw _ _ Hk Hi) as [H1 H2]. rewrite <- Hd in H1, H2.
  destruct (counted (Some names) (Some count) (c / n)) eqn:C.
  - apply counted_spec in C. symmetry; auto.
  - symmetry. apply H2. intro Hin. apply counted_spec in Hin. congruence.
Qed.
