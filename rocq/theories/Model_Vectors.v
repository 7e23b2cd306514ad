(** Model of the vector utilities:
    openconcept/utilities/math/combine_split_comp.py, math/max_min_comp.py,
    selector.py, linearinterp.py and FlipVectorComp of mission/phases.py.

    Simplifications: exact reals, no NaN; an array of shape (v, length) is the
    function of its flat C-order index; stored-only options are left out. *)
From Coq Require Import Reals List Bool PeanoNat String ZArith.
From Verif Require Import Base Py Model_Algebra.
Import ListNotations.
Open Scope R_scope.

(** ** VectorConcatenateComp and VectorSplitComp *)

(** combine_split_comp.py:59, 147, 278, 366 - one stored relation.  [cs_one] is
    the name of the long vector (output of concatenate, input of split),
    [cs_many] are the names of the pieces. *)
Record cs_sys := { cs_one : string; cs_many : list string; cs_sizes : list nat; cs_len : nat }.

(** [setup] over all stored relations: combine_split_comp.py:166-167 and 385-386, then
    the duplicate-name check of [add_input]/[add_output] (names are shared by the component). *)
Fixpoint cs_setup_from (names : list string) (l : list cs_sys) : res unit :=
  match l with
  | [] => Ok tt
  | s :: l' =>
      if negb (Nat.eqb (List.length (cs_sizes s)) (List.length (cs_many s))) then Err ValueError
      else res_bind (declare names (cs_one s :: cs_many s)) (fun names' => cs_setup_from names' l')
  end.
Definition cs_setup := cs_setup_from [].

(** combine_split_comp.py:182-186, 400-404: [np.sum(vec_sizes[0:i])]. *)
Definition start_idx (s : cs_sys) (i : nat) : nat := list_sum (firstn i (cs_sizes s)).
Definition end_idx (s : cs_sys) (i : nat) : nat := list_sum (firstn (i + 1) (cs_sizes s)).

(** combine_split_comp.py:197-223: successive [np.concatenate] onto an empty array. *)
Definition concat_compute (s : cs_sys) (E : env) : list R :=
  fold_left (fun temp p => temp ++ map (E (fst p)) (seq 0 (snd p * cs_len s)))%list
            (combine (cs_many s) (cs_sizes s)) [].

(** combine_split_comp.py:415-439: rows [start_idx:end_idx] of the input. *)
Definition split_compute (s : cs_sys) (X : nat -> R) (i : nat) : list R :=
  map X (seq (start_idx s i * cs_len s) (end_idx s i * cs_len s - start_idx s i * cs_len s)).

(** combine_split_comp.py:182-195: declared ones at
    (rows[k], cols[k]) = (start*length + k, k), k < size*length. *)
Definition concat_jac (s : cs_sys) (i r c : nat) : R :=
  if existsb (fun k => Nat.eqb (start_idx s i * cs_len s + k) r && Nat.eqb k c)
             (seq 0 (nth i (cs_sizes s) 0 * cs_len s))%nat then 1 else 0.
(** combine_split_comp.py:400-413: (rows[k], cols[k]) = (k, start*length + k). *)
Definition split_jac (s : cs_sys) (i r c : nat) : R :=
  if existsb (fun k => Nat.eqb k r && Nat.eqb (start_idx s i * cs_len s + k) c)
             (seq 0 (nth i (cs_sizes s) 0 * cs_len s))%nat then 1 else 0.

(** ** MaxComp, MinComp *)

(** numpy [amax] / [amin]: a reduction from the first element; empty input raises ValueError. *)
Definition amax (n : nat) (x : nat -> R) : res R :=
  match n with O => Err ValueError | S m => Ok (fold_left Rmax (map x (seq 1 m)) (x 0%nat)) end.
Definition amin (n : nat) (x : nat -> R) : res R :=
  match n with O => Err ValueError | S m => Ok (fold_left Rmin (map x (seq 1 m)) (x 0%nat)) end.
(** max_min_comp.py:44, 88: [np.where(array == amax(array), 1, 0)], column [c]. *)
Definition max_jac (n : nat) (x : nat -> R) (c : nat) : res R :=
  res_bind (amax n x) (fun m => Ok (if Req_EM_T (x c) m then 1 else 0)).
Definition min_jac (n : nat) (x : nat -> R) (c : nat) : res R :=
  res_bind (amin n x) (fun m => Ok (if Req_EM_T (x c) m then 1 else 0)).

(** ** SelectorComp *)

(** numpy [around]: nearest integer, halves to the even one. *)
Definition around (x : R) : Z :=
  let f := Int_part x in
  let d := frac_part x in
  if Rlt_dec d (1/2) then f
  else if Rgt_dec d (1/2) then (f + 1)%Z
  else if Z.even f then f else (f + 1)%Z.

(** selector.py:51-66 *)
Definition sel_setup (names : list string) : res unit :=
  match names with
  | [] => Err ValueError
  | _ => res_bind (declare [] (app names ["selector"; "result"]%string)) (fun _ => Ok tt)
  end.
(** selector.py:68-81: all [n] nodes; [raise RuntimeWarning] as soon as one selector is out of range. *)
Definition sel_compute (n : nat) (names : list string) (E : env) : res (nat -> R) :=
  let sel := fun k => around (E "selector"%string k) in
  let bad := fun k => (Z.ltb (sel k) 0 || Z.geb (sel k) (Z.of_nat (List.length names)))%bool in
  if existsb bad (seq 0 n) then Err RuntimeWarning
  else Ok (fun k => fold_left (fun acc i =>
             acc + E (nth i names ""%string) k * (if Z.eqb (sel k) (Z.of_nat i) then 1 else 0))
             (seq 0 (List.length names)) 0).
(** selector.py:83-89 (rows = cols = arange): entry (r, c) of the block of input [i];
    nothing is declared with respect to [selector]. *)
Definition sel_jac (E : env) (i r c : nat) : R :=
  if Nat.eqb r c then (if Z.eqb (around (E "selector"%string r)) (Z.of_nat i) then 1 else 0) else 0.

(** ** LinearInterpolator *)

(** numpy [linspace(a, b, n)]: [a + k * step]; for n > 1 the last entry is set to b. *)
Definition linspace (a b : R) (n k : nat) : R :=
  if Nat.eqb n 1 then a
  else if Nat.eqb k (n - 1) then b else a + INR k * ((b - a) / INR (n - 1)).
(** linearinterp.py:43-45 *)
Definition lin_compute (n : nat) (a b : R) (k : nat) : R := linspace a b n k.
(** linearinterp.py:40-41 *)
Definition lin_jac_start (n k : nat) : R := linspace 1 0 n k.
Definition lin_jac_end (n k : nat) : R := linspace 0 1 n k.

(** ** FlipVectorComp *)

(** mission/phases.py:112-118 *)
Definition flip_scaler (negative : bool) : R := if negative then -1 else 1.
Definition flip_compute (n : nat) (negative : bool) (x : nat -> R) (k : nat) : R :=
  flip_scaler negative * x (n - 1 - k)%nat.
(** mission/phases.py:104-110: rows = arange(nn-1, -1, -1), cols = arange(nn). *)
Definition flip_jac (n : nat) (negative : bool) (r c : nat) : R :=
  if existsb (fun k => Nat.eqb (n - 1 - k) r && Nat.eqb k c) (seq 0 n) then flip_scaler negative else 0.
