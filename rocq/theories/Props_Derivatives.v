(** Property theorems C08-C09 (openconcept/utilities/math/derivatives.py). *)
From Coq Require Import Reals Lra Lia List Bool PeanoNat.
From Coquelicot Require Import Coquelicot.
From Verif Require Import Py RSum Model_Derivatives Spec_Integrals Proofs_Derivatives.
Open Scope R_scope.

(** Points per segment needed by each stencil. *)
Definition enough_points (o : order) (n : nat) : Prop :=
  (match o with Second => 3 | Fourth => 5 end <= n)%nat.

(** ** C08: segment [k] holds a polynomial; the other segments are arbitrary. *)
Theorem C08_fourth_order_exact_to_degree_four :
  forall n m dts q k i c0 c1 c2 c3 c4 t0,
    (5 <= n)%nat -> (i < n)%nat -> (k < m)%nat -> dts k <> 0 ->
    (forall j, (j < n)%nat -> q (k * n + j)%nat = poly4 c0 c1 c2 c3 c4 (t0 + INR j * dts k)) ->
    first_deriv Fourth n m dts q (k * n + i)%nat = Derive (poly4 c0 c1 c2 c3 c4) (t0 + INR i * dts k).
Proof. exact fourth_exact. Qed.
Print Assumptions C08_fourth_order_exact_to_degree_four.

Theorem C08_second_order_exact_to_degree_two :
  forall n m dts q k i c0 c1 c2 t0,
    (3 <= n)%nat -> (i < n)%nat -> (k < m)%nat -> dts k <> 0 ->
    (forall j, (j < n)%nat -> q (k * n + j)%nat = poly4 c0 c1 c2 0 0 (t0 + INR j * dts k)) ->
    first_deriv Second n m dts q (k * n + i)%nat = Derive (poly4 c0 c1 c2 0 0) (t0 + INR i * dts k).
Proof. exact second_exact. Qed.
Print Assumptions C08_second_order_exact_to_degree_two.

Theorem C08_segments_independent :
  forall o n m dts dts' q q' k i, (i < n)%nat -> (k < m)%nat ->
    dts k = dts' k -> (forall j, (j < n)%nat -> q (k * n + j)%nat = q' (k * n + j)%nat) ->
    first_deriv o n m dts q (k * n + i)%nat = first_deriv o n m dts' q' (k * n + i)%nat.
Proof. exact first_deriv_local. Qed.
Print Assumptions C08_segments_independent.

(** Which calls are accepted. *)
Theorem C08_argument_checks :
  forall len_dts len_q m n_int ord,
    (exists o, first_deriv_check len_dts len_q m n_int ord = Ok o) <->
    len_dts = m /\ len_q = (m * (n_int * 2 + 1))%nat /\ (ord = 2%nat \/ (ord = 4%nat /\ (2 <= n_int)%nat)).
Proof. exact check_iff. Qed.
Print Assumptions C08_argument_checks.

Theorem C08_accepted_order_is_the_requested_one :
  forall len_dts len_q m n_int ord o, first_deriv_check len_dts len_q m n_int ord = Ok o ->
    len_dts = m /\ len_q = (m * (n_int * 2 + 1))%nat /\
    ((ord = 4%nat /\ o = Fourth /\ (2 <= n_int)%nat) \/ (ord = 2%nat /\ o = Second)).
Proof. exact check_ok. Qed.
Print Assumptions C08_accepted_order_is_the_requested_one.

Example C08_hypotheses_met :
  exists q, forall j, (j < 5)%nat -> q (1 * 5 + j)%nat = poly4 1 2 3 4 5 (10 + INR j * (1/2)).
Proof.
  exists (fun x => poly4 1 2 3 4 5 (10 + INR (x - 5) * (1/2))). intros j Hj.
  replace (1 * 5 + j - 5)%nat with j by lia. reflexivity.
Qed.

(** ** C09 *)
Theorem C09_partials_wrt_values :
  forall o n m dts q r c, enough_points o n -> (r < m * n)%nat -> (c < m * n)%nat ->
    is_derive (fun t => first_deriv o n m dts (updv q c t) r) (q c) (jac_dq o n m dts r c).
Proof. exact jac_dq_ok. Qed.
Print Assumptions C09_partials_wrt_values.

Theorem C09_partials_wrt_steps :
  forall o n m dts q r j, (0 < n)%nat -> (r < m * n)%nat -> (j < m)%nat -> dts j <> 0 ->
    is_derive (fun t => first_deriv o n m (updv dts j t) q r) (dts j) (jac_ddt o n dts q j r).
Proof. exact jac_ddt_ok. Qed.
Print Assumptions C09_partials_wrt_steps.
