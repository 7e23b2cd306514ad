(** Specification vocabulary for the integrator properties: plain mathematics, no
    reference to how the code computes. *)
From Coq Require Import Reals List Bool PeanoNat.
From Verif Require Import RSum Model_Integrals.
Open Scope R_scope.

(** A polynomial in time of degree at most three. *)
Definition poly3 (c0 c1 c2 c3 t : R) : R := c0 + c1 * t + c2 * t ^ 2 + c3 * t ^ 3.

(** The published scheme (documentation block integrals.py:59-70), written out
    for a state vector [y] and rate vector [f]: *)
Definition bdf3_scheme (n : nat) (dt : R) (f y : vec) : Prop :=
  (- (1/3) * y 0%nat - 1/2 * y 1%nat + y 2%nat - 1/6 * y 3%nat = dt * f 1%nat) /\
  (1/6 * y 0%nat - y 1%nat + 1/2 * y 2%nat + 1/3 * y 3%nat = dt * f 2%nat) /\
  (forall k, (k + 3 < n)%nat ->
     - (2/11) * y k + 9/11 * y (k + 1)%nat - 18/11 * y (k + 2)%nat + y (k + 3)%nat
     = 6/11 * (dt * f (k + 3)%nat)).

(** The sizes a method accepts (constructor check plus scipy's size check). *)
Definition method_size (m : method) (n : nat) : Prop :=
  Nat.odd n = true /\ match m with Bdf3 => (5 <= n)%nat | Simpson => (3 <= n)%nat end.

(** A polynomial of degree at most four. *)
Definition poly4 (c0 c1 c2 c3 c4 t : R) : R := c0 + c1 * t + c2 * t ^ 2 + c3 * t ^ 3 + c4 * t ^ 4.

(** One entry of a vector replaced. *)
Definition updv (v : vec) (c : nat) (t : R) : vec := fun j => if Nat.eqb j c then t else v j.

(** Value at the end of the previous segment (the start value for the first). *)
Definition seg_start (n : nat) (q0 : R) (q : vec) (k : nat) : R :=
  match k with O => q0 | S k' => q (k' * n + (n - 1))%nat end.

