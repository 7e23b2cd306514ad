(** Property theorems C01-C07 (openconcept/utilities/math/integrals.py). *)
From Coq Require Import Reals Lra Lia List Bool PeanoNat String ZArith.
From Coquelicot Require Import Coquelicot.
From Verif Require Import Py RSum Model_Integrals Spec_Integrals Proofs_Integrals Proofs_BDF3
  Proofs_IntegJac Proofs_IntegMore.
Import ListNotations.
Open Scope R_scope.

(** ** C01 *)
Theorem C01_simpson_quadratic_exact :
  forall n X c0 c1 c2 t0 dt zs qi rate,
    method_size Simpson n -> is_inverse (n - 1) simpson_a X ->
    (forall i, (i < n)%nat -> rate i = poly3 c0 c1 c2 0 (t0 + INR i * dt)) ->
    forall i, (i < n)%nat ->
      integ_q n (method_tri Simpson n X) (TDt dt) zs qi rate i
      = (if zs then 0 else qi) + RInt (poly3 c0 c1 c2 0) t0 (t0 + INR i * dt).
Proof. exact simpson_quadratic'. Qed.
Print Assumptions C01_simpson_quadratic_exact.

Theorem C01_simpson_cubic_exact_at_even_nodes :
  forall n X c0 c1 c2 c3 t0 dt zs qi rate,
    method_size Simpson n -> is_inverse (n - 1) simpson_a X ->
    (forall i, (i < n)%nat -> rate i = poly3 c0 c1 c2 c3 (t0 + INR i * dt)) ->
    (forall k, (2 * k < n)%nat ->
      integ_q n (method_tri Simpson n X) (TDt dt) zs qi rate (2 * k)%nat
      = (if zs then 0 else qi) + RInt (poly3 c0 c1 c2 c3) t0 (t0 + INR (2 * k) * dt)) /\
    integ_q_final n (method_tri Simpson n X) (TDt dt) zs qi rate
      = (if zs then 0 else qi) + RInt (poly3 c0 c1 c2 c3) t0 (t0 + INR (n - 1) * dt).
Proof. exact simpson_cubic'. Qed.
Print Assumptions C01_simpson_cubic_exact_at_even_nodes.

(** For every rate vector the final value is the composite Simpson sum. *)
Theorem C01_simpson_final_is_composite_rule :
  forall m X dt zs qi rate,
    (0 < m)%nat -> is_inverse (2 * m) simpson_a X ->
    integ_q_final (2 * m + 1) (method_tri Simpson (2 * m + 1) X) (TDt dt) zs qi rate
    = (if zs then 0 else qi)
      + dt / 3 * rsum m (fun k => rate (2 * k)%nat + 4 * rate (2 * k + 1)%nat + rate (2 * k + 2)%nat).
Proof. exact simpson_final_composite. Qed.
Print Assumptions C01_simpson_final_is_composite_rule.

(** The matrix handed to [sp.linalg.inv] is invertible for every size. *)
Theorem C01_simpson_matrix_invertible :
  forall n, exists X, is_inverse (n - 1) simpson_a X.
Proof. exact simpson_invertible. Qed.
Print Assumptions C01_simpson_matrix_invertible.

Example C01_hypotheses_met :
  exists X, method_size Simpson 11 /\ is_inverse (11 - 1) simpson_a X /\
    (forall i, (i < 11)%nat -> INR i ^ 2 - 3 = poly3 (-3) 0 1 0 (0 + INR i * 1)).
Proof.
  destruct (simpson_invertible 11) as [X HX]. exists X.
  split; [split; [reflexivity|lia]|]. split; [exact HX|]. intros; unfold poly3; lra.
Qed.

(** ** C02 *)
Theorem C02_bdf3_quadratic_exact :
  forall n X c0 c1 c2 t0 dt zs qi rate,
    method_size Bdf3 n -> is_inverse (n - 1) bdf3_A X ->
    (forall i, (i < n)%nat -> rate i = poly3 c0 c1 c2 0 (t0 + INR i * dt)) ->
    forall i, (i < n)%nat ->
      integ_q n (method_tri Bdf3 n X) (TDt dt) zs qi rate i
      = (if zs then 0 else qi) + RInt (poly3 c0 c1 c2 0) t0 (t0 + INR i * dt).
Proof. exact bdf3_quadratic'. Qed.
Print Assumptions C02_bdf3_quadratic_exact.

Theorem C02_bdf3_output_is_the_scheme_solution :
  forall n X dt (zs : bool) qi rate y,
    method_size Bdf3 n -> is_inverse (n - 1) bdf3_A X ->
    (y 0%nat = (if zs then 0 else qi) /\ bdf3_scheme n dt rate y
     <-> forall i, (i < n)%nat -> y i = integ_q n (method_tri Bdf3 n X) (TDt dt) zs qi rate i).
Proof. exact bdf3_characterised. Qed.
Print Assumptions C02_bdf3_output_is_the_scheme_solution.

Theorem C02_bdf3_matrix_invertible :
  forall n, (4 <= n)%nat -> exists X, is_inverse (n - 1) bdf3_A X.
Proof. exact bdf3_invertible. Qed.
Print Assumptions C02_bdf3_matrix_invertible.

(** The constructor accepts exactly the odd node counts ... *)
Theorem C02_accepts_exactly_odd_node_counts :
  forall n, integrator_nodes_ok n = Ok tt <-> Nat.odd n = true.
Proof. exact nodes_ok_odd. Qed.
Print Assumptions C02_accepts_exactly_odd_node_counts.

(** ... but the default method then fails on the documented size 2*1+1. *)
Theorem C02_every_documented_size_works_refuted :
  exists n, Nat.odd n = true /\ (1 < n)%nat /\
    integrator_nodes_ok n = Ok tt /\ bdf3_size_ok n = Err ValueError.
Proof. exact three_nodes_fail. Qed.
Print Assumptions C02_every_documented_size_works_refuted.

Example C02_hypotheses_met :
  exists X, method_size Bdf3 11 /\ is_inverse (11 - 1) bdf3_A X /\ bdf3_size_ok 11 = Ok tt.
Proof.
  destruct (bdf3_invertible 11) as [X HX]; [lia|]. exists X.
  split; [split; [reflexivity|lia]|]. split; [exact HX|reflexivity].
Qed.

(** ** C03 *)
Theorem C03_time_modes_interchangeable :
  forall n tri dt ti zs qi rate i, (1 < n)%nat ->
    integ_q n tri (TDuration (INR (n - 1) * dt)) zs qi rate i = integ_q n tri (TDt dt) zs qi rate i /\
    integ_q n tri (TBounds ti (ti + INR (n - 1) * dt)) zs qi rate i = integ_q n tri (TDt dt) zs qi rate i.
Proof. exact time_modes. Qed.
Print Assumptions C03_time_modes_interchangeable.

(** ** C04 *)
Theorem C04_integrator_affine :
  forall n tri ts qi1 qi2 a b u v i, (1 < n)%nat -> (i < n)%nat ->
    integ_q n tri ts false (a * qi1 + b * qi2) (fun j => a * u j + b * v j) i
    = a * integ_q n tri ts false qi1 u i + b * integ_q n tri ts false qi2 v i.
Proof. exact integ_affine. Qed.
Print Assumptions C04_integrator_affine.

Theorem C04_shift_and_step_scaling :
  forall n tri dt zs qi s rate i, (1 < n)%nat -> (i < n)%nat ->
    integ_q n tri (TDt dt) false (qi + s) rate i = integ_q n tri (TDt dt) false qi rate i + s /\
    integ_q n tri (TDt (s * dt)) zs qi rate i = integ_q n tri (TDt dt) zs qi (fun j => s * rate j) i.
Proof. exact integ_shift_scale. Qed.
Print Assumptions C04_shift_and_step_scaling.

Theorem C04_first_entry_is_start_value :
  forall m n X ts zs qi rate,
    method_size m n -> is_inverse (n - 1) (method_lhs m) X ->
    integ_q n (method_tri m n X) ts zs qi rate 0%nat = (if zs then 0 else qi).
Proof. exact integ_first. Qed.
Print Assumptions C04_first_entry_is_start_value.

Theorem C04_final_is_last_entry_and_single_node :
  forall n tri ts zs qi rate,
    integ_q_final n tri ts zs qi rate = integ_q n tri ts zs qi rate (n - 1)%nat /\
    integ_q 1 tri ts zs qi rate 0%nat = (if zs then 0 else qi).
Proof. exact integ_final_single. Qed.
Print Assumptions C04_final_is_last_entry_and_single_node.

(** ** C05 *)
Theorem C05_jacobian_rate_and_start :
  forall n tri ts zs qi rate, (1 < n)%nat ->
    (forall r c, (r < n)%nat -> (c < n)%nat ->
      is_derive (fun t => integ_q n tri ts zs qi (updv rate c t) r) (rate c) (jac_q_rate n tri ts r c)) /\
    (forall c, (c < n)%nat ->
      is_derive (fun t => integ_q_final n tri ts zs qi (updv rate c t)) (rate c) (jac_qf_rate n tri ts c)) /\
    (forall r, is_derive (fun t => integ_q n tri ts false t rate r) qi (jac_q_start r)).
Proof. exact jac_rate_start. Qed.
Print Assumptions C05_jacobian_rate_and_start.

Theorem C05_jacobian_dt :
  forall m n X dt zs qi rate,
    method_size m n -> is_inverse (n - 1) (method_lhs m) X ->
    (exists J, jac_q_dt n (method_tri m n X) rate = Ok J /\ forall r, (r < n)%nat ->
       is_derive (fun t => integ_q n (method_tri m n X) (TDt t) zs qi rate r) dt (J r)) /\
    is_derive (fun t => integ_q_final n (method_tri m n X) (TDt t) zs qi rate) dt
              (jac_qf_dt n (method_tri m n X) rate).
Proof. exact jac_dt_all. Qed.
Print Assumptions C05_jacobian_dt.

Theorem C05_jacobian_duration :
  forall m n X d zs qi rate,
    method_size m n -> is_inverse (n - 1) (method_lhs m) X ->
    (exists J, jac_q_duration n (method_tri m n X) rate = Ok J /\ forall r, (r < n)%nat ->
       is_derive (fun t => integ_q n (method_tri m n X) (TDuration t) zs qi rate r) d (J r)) /\
    is_derive (fun t => integ_q_final n (method_tri m n X) (TDuration t) zs qi rate) d
              (jac_qf_duration n (method_tri m n X) rate).
Proof. exact jac_duration_all. Qed.
Print Assumptions C05_jacobian_duration.

(** "bounds": the final value is always right; the state column is right when the
    integral of the rate vanishes at no node after the first, or at all of them. *)
Theorem C05_jacobian_bounds_partial :
  forall m n X ti tf zs qi rate,
    method_size m n -> is_inverse (n - 1) (method_lhs m) X ->
    let tri := method_tri m n X in
    ((forall i, (1 <= i < n)%nat -> integ_q n tri (TDt 1) true 0 rate i <> 0) \/
     (forall i, (i < n)%nat -> integ_q n tri (TDt 1) true 0 rate i = 0)) ->
    (exists J, jac_q_bounds (-1) n tri rate = Ok J /\ forall r, (r < n)%nat ->
       is_derive (fun t => integ_q n tri (TBounds t tf) zs qi rate r) ti (J r)) /\
    (exists J, jac_q_bounds 1 n tri rate = Ok J /\ forall r, (r < n)%nat ->
       is_derive (fun t => integ_q n tri (TBounds ti t) zs qi rate r) tf (J r)).
Proof. exact jac_bounds_all. Qed.
Print Assumptions C05_jacobian_bounds_partial.

Theorem C05_jacobian_bounds_final_value :
  forall n tri ti tf zs qi rate, (1 < n)%nat ->
    is_derive (fun t => integ_q_final n tri (TBounds t tf) zs qi rate) ti (jac_qf_bounds (-1) n tri rate) /\
    is_derive (fun t => integ_q_final n tri (TBounds ti t) zs qi rate) tf (jac_qf_bounds 1 n tri rate).
Proof. exact jac_bounds_final. Qed.
Print Assumptions C05_jacobian_bounds_final_value.

(** Finding: with rates 1, 0, 5 the integral vanishes at the middle node and the
    partial of that node is silently set to the partial of the last node ... *)
Theorem C05_jacobian_bounds_wrong_refuted :
  forall X ti tf zs qi, is_inverse (3 - 1) simpson_a X ->
    exists rate J, jac_q_bounds 1 3 (method_tri Simpson 3 X) rate = Ok J /\
      ~ is_derive (fun t => integ_q 3 (method_tri Simpson 3 X) (TBounds ti t) zs qi rate 1%nat) tf (J 1%nat).
Proof. exact jac_bounds_wrong. Qed.
Print Assumptions C05_jacobian_bounds_wrong_refuted.

(** ... and with rates 1, 0, 5, 0, 0 compute_partials raises. *)
Theorem C05_jacobian_bounds_raises_refuted :
  forall X, is_inverse (5 - 1) simpson_a X ->
    exists rate, jac_q_bounds 1 5 (method_tri Simpson 5 X) rate = Err ValueError.
Proof. exact jac_bounds_raises. Qed.
Print Assumptions C05_jacobian_bounds_raises_refuted.

Example C05_hypotheses_met :
  exists X, method_size Simpson 3 /\ is_inverse (3 - 1) (method_lhs Simpson) X /\
    forall i, (1 <= i < 3)%nat -> integ_q 3 (method_tri Simpson 3 X) (TDt 1) true 0 (fun _ => 1) i <> 0.
Proof. exact bounds_example. Qed.

(** ** C06 *)
Theorem C06_segments_chain :
  forall n m dts tri q0 v k i, (1 < n)%nat -> (i < n)%nat -> (k < m)%nat ->
    let q := old_q n m None None dts tri q0 v in
    q (k * n + i)%nat
    = integ_q n tri (TDt (dts k)) false (seg_start n q0 q k) (fun j => v (k * n + j)%nat) i.
Proof. exact old_chain_all. Qed.
Print Assumptions C06_segments_chain.

Theorem C06_segment_starts_where_previous_ended :
  forall meth n m X dts q0 v k,
    method_size meth n -> is_inverse (n - 1) (method_lhs meth) X -> (S k < m)%nat ->
    let q := old_q n m None None dts (method_tri meth n X) q0 v in
    q (S k * n)%nat = q (k * n + (n - 1))%nat.
Proof. exact old_no_gap. Qed.
Print Assumptions C06_segment_starts_where_previous_ended.

Theorem C06_segment_step_partials_partial :
  forall meth n m X names count dts q0 v j,
    method_size meth n -> is_inverse (n - 1) (method_lhs meth) X -> (j < m)%nat ->
    let tri := method_tri meth n X in
    (forall i, (1 <= i < n)%nat -> integ_q n tri (TDt 1) true 0 (fun c => v (j * n + c)%nat) i <> 0) ->
    exists J, old_jac_dt n m names count tri v j = Ok J /\
      forall r, (r < n * m)%nat ->
        is_derive (fun t => old_q n m names count (updv dts j t) tri q0 v r) (dts j) (J r).
Proof. exact old_jac_all. Qed.
Print Assumptions C06_segment_step_partials_partial.

(** Finding: a segment with zero rates (the default input value) makes compute_partials raise. *)
Theorem C06_segment_step_partials_refuted :
  forall meth n m X v j,
    method_size meth n -> is_inverse (n - 1) (method_lhs meth) X -> (j < m)%nat ->
    (forall c, (c < n)%nat -> v (j * n + c)%nat = 0) ->
    old_jac_dt n m None None (method_tri meth n X) v j = Err ValueError.
Proof. exact old_jac_raises. Qed.
Print Assumptions C06_segment_step_partials_refuted.

Theorem C06_only_dt_with_segments :
  forall names ts, old_time_setup_ok (Some names) ts = Ok tt <-> ts = "dt"%string.
Proof. exact old_time_setup. Qed.
Print Assumptions C06_only_dt_with_segments.

(** ** C07 *)
Theorem C07_skipped_segments_hold_their_value :
  forall n m names count dts tri q0 v k i,
    (1 < n)%nat -> (i < n)%nat -> (k < m)%nat -> ~ In (nth k names ""%string) count ->
    let q := old_q n m (Some names) (Some count) dts tri q0 v in
    q (k * n + i)%nat = seg_start n q0 q k.
Proof. exact old_skip_hold. Qed.
Print Assumptions C07_skipped_segments_hold_their_value.

Theorem C07_counted_segments_as_if_others_had_zero_rate :
  forall n m names count dts tri q0 v w r, (0 < n)%nat -> (r < n * m)%nat ->
    (forall k i, (k < m)%nat -> (i < n)%nat ->
       (In (nth k names ""%string) count -> w (k * n + i)%nat = v (k * n + i)%nat) /\
       (~ In (nth k names ""%string) count -> w (k * n + i)%nat = 0)) ->
    old_q n m (Some names) (Some count) dts tri q0 v r = old_q n m None None dts tri q0 w r.
Proof. exact old_skip_zero. Qed.
Print Assumptions C07_counted_segments_as_if_others_had_zero_rate.

Example C07_hypotheses_met :
  ~ In (nth 1 ["climb"; "cruise"; "descent"]%string ""%string) ["climb"; "descent"]%string.
Proof. simpl. intros [H|[H|[]]]; discriminate. Qed.
