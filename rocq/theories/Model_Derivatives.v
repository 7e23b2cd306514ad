(** Model of openconcept/utilities/math/derivatives.py.

    Simplifications: exact reals; a vector of length [m * n] is a function
    [nat -> R] together with its length; [n] is the number of points per segment
    ([nn_seg]), [m] the number of segments. *)
From Coq Require Import Reals List Bool PeanoNat.
From Verif Require Import Py RSum.
Import ListNotations.
Open Scope R_scope.

(** A COO triplet list as scipy's [csr_matrix((data, (row, col)))] reads it:
    entry (r, c) is the sum of the data stored there. *)
Definition coo (K : nat) (row col : nat -> nat) (data : nat -> R) : mat := fun r c =>
  rsum K (fun k => if Nat.eqb (row k) r && Nat.eqb (col k) c then data k else 0).

(** derivatives.py:7-28 *)
Definition st2_len (n : nat) : nat := (3 + 2 * (n - 2) + 3)%nat.
Definition st2_row (n k : nat) : nat :=
  if Nat.ltb k 3 then 0%nat
  else if Nat.ltb k (3 + 2 * (n - 2)) then (1 + (k - 3) / 2)%nat
  else (n - 1)%nat.
Definition st2_col (n k : nat) : nat :=
  if Nat.ltb k 3 then k
  else if Nat.ltb k (3 + 2 * (n - 2)) then (nth ((k - 3) mod 2) [0; 2] 0 + (k - 3) / 2)%nat
  else ((n - 3) + (k - (3 + 2 * (n - 2))))%nat.
Definition st2_data (n k : nat) : R :=
  if Nat.ltb k 3 then nth k [-(3)/2; 2; -(1)/2] 0
  else if Nat.ltb k (3 + 2 * (n - 2)) then nth ((k - 3) mod 2) [-(1)/2; 1/2] 0
  else nth (k - (3 + 2 * (n - 2))) [1/2; -(2); 3/2] 0.

(** derivatives.py:31-57; the assignments to the first and last ten entries
    happen in program order, so the later ones win. *)
Definition st4_len (n : nat) : nat := (n * 5)%nat.
Definition st4_row (n k : nat) : nat := (k / 5)%nat.
Definition st4_col (n k : nat) : nat :=
  if Nat.leb (n * 5 - 10) k then ((n - 5) + (k - (n * 5 - 10)) mod 5)%nat
  else if Nat.ltb k 10 then (k mod 5)%nat
  else (k mod 5 + k / 5 - 2)%nat.
Definition st4_data (n k : nat) : R :=
  if Nat.leb (n * 5 - 5) k then nth (k - (n * 5 - 5)) [1/4; -(4)/3; 3; -(4); 25/12] 0
  else if Nat.leb (n * 5 - 10) k then nth (k - (n * 5 - 10)) [-(1)/12; 1/2; -(3)/2; 5/6; 1/4] 0
  else if Nat.ltb k 5 then nth k [-(25)/12; 4; -(3); 4/3; -(1)/4] 0
  else if Nat.ltb k 10 then nth (k - 5) [-(1)/4; -(5)/6; 3/2; -(1)/2; 1/12] 0
  else nth (k mod 5) [1/12; -(2)/3; 0; 2/3; -(1)/12] 0.

Inductive order := Second | Fourth.
Definition st_len (o : order) := match o with Second => st2_len | Fourth => st4_len end.
Definition st_row (o : order) := match o with Second => st2_row | Fourth => st4_row end.
Definition st_col (o : order) := match o with Second => st2_col | Fourth => st4_col end.
Definition st_data (o : order) := match o with Second => st2_data | Fourth => st4_data end.
Definition stencil (o : order) (n : nat) : mat := coo (st_len o n) (st_row o n) (st_col o n) (st_data o n).

(** derivatives.py:92-110 (and 155-173): argument checks, in program order. *)
Definition read_order (k : nat) : res order :=
  if Nat.eqb k 4 then Ok Fourth else if Nat.eqb k 2 then Ok Second else Err ValueError.
Definition first_deriv_check (len_dts len_q m n_int ord : nat) : res order :=
  if Nat.eqb ord 4 && Nat.ltb n_int 2 then Err ValueError
  else if negb (Nat.eqb len_q (m * (n_int * 2 + 1))) then Err ValueError
  else if negb (Nat.eqb len_dts m) then Err ValueError
  else read_order ord.

(** derivatives.py:112-121 - block diagonal of [stencil_mat / dt_seg]. *)
Definition block_stencil (o : order) (n : nat) (dts : nat -> R) : mat := fun r c =>
  if Nat.eqb (r / n) (c / n) then stencil o n (r mod n) (c mod n) / dts (r / n)%nat else 0.
Definition first_deriv (o : order) (n m : nat) (dts : nat -> R) (q : vec) : vec :=
  mvec (m * n) (block_stencil o n dts) q.

(** derivatives.py:183-192 - triplets of d(dqdt)/dq, segment [k / len] entry [k mod len]. *)
Definition jac_dq (o : order) (n m : nat) (dts : nat -> R) : mat :=
  coo (m * st_len o n)
      (fun k => (st_row o n (k mod st_len o n) + (k / st_len o n) * n)%nat)
      (fun k => (st_col o n (k mod st_len o n) + (k / st_len o n) * n)%nat)
      (fun k => st_data o n (k mod st_len o n) / dts (k / st_len o n)%nat).
(** derivatives.py:194-199 - column d(dqdt)/d dt_i: rows [i*n .. i*n+n-1]. *)
Definition jac_ddt (o : order) (n : nat) (dts : nat -> R) (q : vec) (i : nat) : vec := fun r =>
  if Nat.eqb (r / n) i
  then - mvec n (stencil o n) (fun c => q (i * n + c)%nat) (r mod n) * / (dts i ^ 2)
  else 0.
