(** Model of openconcept/utilities/math/integrals.py.

    Simplifications: entries are exact reals; scipy sparse matrices are functions
    [nat -> nat -> R] together with their size; [sp.linalg.inv] is represented by
    its contract ([is_inverse], see [RSum]), the caller supplies the matrix it
    returned; warnings and units strings are modelled in [Model_Units]. *)
From Coq Require Import Reals Lra Lia List Bool PeanoNat String ZArith.
From Verif Require Import Py RSum.
Import ListNotations.
Open Scope R_scope.

(** [scipy.sparse.diags]: diagonal [d] at offset [k] puts [d.(min i j)] at every
    entry with [j - i = k] (only the first entries of a too long diagonal are used). *)
Fixpoint diags (ds : list (Z * (nat -> R))) (i j : nat) : R :=
  match ds with
  | [] => 0
  | (k, d) :: ds' =>
      (if Z.eqb (Z.of_nat j - Z.of_nat i) k then d (Nat.min i j) else 0) + diags ds' i j
  end.

(** Diagonal that is constant [c] except for overridden leading entries. *)
Definition const_diag (c : R) (lead : list R) : nat -> R := fun k => nth k lead c.

(** integrals.py:91-105 - matrix [A] of the default (not all_bdf) scheme. *)
Definition bdf3_A : mat := diags
  [ (2%Z,  const_diag 0 [-(1)/6]);
    (1%Z,  const_diag 0 [1; 1/3]);
    (0%Z,  const_diag 1 [-(1)/2; 1/2]);
    ((-1)%Z, const_diag (-(18)/11) [-(1)]);
    ((-2)%Z, const_diag (9/11) []);
    ((-3)%Z, const_diag (-(2)/11) []) ].

(** integrals.py:107-110 - matrix [B]. *)
Definition bdf3_B : mat := diags [ (0%Z, const_diag (6/11) [1; 1]) ].

(** integrals.py:73-88, 110 - the [all_bdf=True] variant (BDF1, BDF2 start-up). *)
Definition allbdf_A : mat := diags
  [ (1%Z,  const_diag 0 []);
    (0%Z,  const_diag 1 [1]);
    ((-1)%Z, const_diag (-(18)/11) [-(4)/3]);
    ((-2)%Z, const_diag (9/11) []);
    ((-3)%Z, const_diag (-(2)/11) []) ].
Definition allbdf_B : mat := diags [ (0%Z, const_diag (6/11) [1; 2/3]) ].

(** integrals.py:103-105 - scipy raises ValueError when an offset lies outside
    the (n-1) x (n-1) matrix: offset -3 needs n - 1 >= 3. *)
Definition bdf3_size_ok (n : nat) : res unit :=
  if Nat.leb 4 n then Ok tt else Err ValueError.

(** integrals.py:112-119 - [tri_mat]: C = inv(A).B shifted by one row and column. *)
Definition shift_mat (C : mat) : mat := fun i j =>
  match i, j with S i', S j' => C i' j' | _, _ => 0 end.
Definition bdf3_tri (n : nat) (Ainv : mat) : mat := shift_mat (mmul (n - 1) Ainv bdf3_B).
Definition allbdf_tri (n : nat) (Ainv : mat) : mat := shift_mat (mmul (n - 1) Ainv allbdf_B).

(** integrals.py:121-123, 156-158 - last row of [tri_mat] tiled. *)
Definition repeat_mat (n : nat) (tri : mat) : mat := fun _ j => tri (n - 1)%nat j.

(** integrals.py:138-143 - COO triplets of the Simpson "delta" matrix:
    row index [k/3], column index [2*(k/6) + k mod 3], data tiled [5 8 -1 -1 8 5]/12. *)
Definition simpson_row (k : nat) : nat := (k / 3)%nat.
Definition simpson_col (k : nat) : nat := (2 * (k / 6) + k mod 3)%nat.
Definition simpson_data (k : nat) : R := nth (k mod 6) [5; 8; -(1); -(1); 8; 5] 0 / 12.
Definition simpson_base (n : nat) : mat := fun r c =>
  rsum (3 * (n - 1)) (fun k =>
    if Nat.eqb (simpson_row k) r && Nat.eqb (simpson_col k) c then simpson_data k else 0).

(** integrals.py:147 - first-difference matrix whose inverse accumulates the deltas. *)
Definition simpson_a : mat := diags [ ((-1)%Z, fun _ => -(1)); (0%Z, fun _ => 1) ].

(** integrals.py:144-153 - [tri_mat]: zero first row, then [inv(a)] times the
    first column [bv] and the remaining columns [b]. *)
Definition simpson_tri (n : nat) (ainv : mat) : mat := fun i j =>
  match i with
  | O => 0
  | S i' => mmul (n - 1) ainv (simpson_base n) i' j
  end.

(** integrals.py:176-181 - is segment [j] counted? *)
Definition counted (names : option (list string)) (count : option (list string)) (j : nat) : bool :=
  match names, count with
  | Some ns, Some cs => existsb (String.eqb (nth j ns ""%string)) cs
  | _, _ => true
  end.

(** integrals.py:172-191 - the block matrix dQ/d(rate). *)
Definition big_mat (n : nat) (cnt : nat -> bool) (dts : nat -> R) (tri rep : mat) : mat :=
  fun r c =>
    let i := (r / n)%nat in let j := (c / n)%nat in
    if Nat.ltb j i && cnt j then rep (r mod n) (c mod n) * dts j
    else if Nat.eqb i j && cnt j then tri (r mod n) (c mod n) * dts j
    else 0.

(** integrals.py:192-194 - [multistep_integrator(..., partials=False)]; [m] segments of [n] nodes. *)
Definition multistep (n m : nat) (cnt : nat -> bool) (dts : nat -> R) (tri rep : mat)
    (q0 : R) (dqdt : vec) : vec :=
  fun r => mvec (n * m) (big_mat n cnt dts tri rep) dqdt r + q0.

(** integrals.py:196-215 - dQ / d dt_j, row [r]. *)
Definition multistep_ddt (n m : nat) (cnt : nat -> bool) (tri rep : mat)
    (dqdt : vec) (j : nat) : vec :=
  fun r =>
    let i := (r / n)%nat in
    let blk := if Nat.ltb j i && cnt j then rep
               else if Nat.eqb i j && cnt j then tri else (fun _ _ => 0) in
    mvec n (fun _ c => blk (r mod n) c) (fun c => dqdt (j * n + c)%nat) r.

(** Integrator component (integrals.py:481-851), one integrand. *)
Inductive time_setup := TDt (dt : R) | TDuration (duration : R) | TBounds (t_initial t_final : R).

(** integrals.py:751-760 *)
Definition time_step (n : nat) (ts : time_setup) : R :=
  match ts with
  | TDt dt => dt
  | TDuration d => if Nat.eqb n 1 then d else d / INR (n - 1)
  | TBounds ti tf => (tf - ti) / INR (n - 1)
  end.

(** integrals.py:528 - num_nodes must be odd. *)
Definition integrator_nodes_ok (n : nat) : res unit :=
  if Z.ltb 0 ((Z.of_nat n - 1) mod 2) then Err ValueError else Ok tt.

(** integrals.py:763-766 *)
Definition start_value (zero_start : bool) (q_initial : R) : R :=
  if zero_start then 0 else q_initial.

(** integrals.py:742-784 - state output (entry [i]) and final-value output. *)
Definition integ_q (n : nat) (tri : mat) (ts : time_setup) (zero_start : bool)
    (q_initial : R) (rate : vec) : vec := fun i =>
  let q0 := start_value zero_start q_initial in
  if Nat.eqb n 1 then q0
  else multistep n 1 (fun _ => true) (fun _ => time_step n ts) tri (repeat_mat n tri) q0 rate i.
Definition integ_q_final (n : nat) (tri : mat) (ts : time_setup) (zero_start : bool)
    (q_initial : R) (rate : vec) : R :=
  integ_q n tri ts zero_start q_initial rate (n - 1)%nat.

(** The matrix actually used by a method (integrals.py:531-535); the inverse is
    the one returned by [sp.linalg.inv]. *)
Inductive method := Bdf3 | Simpson.
Definition method_tri (m : method) (n : nat) (X : mat) : mat :=
  match m with Bdf3 => bdf3_tri n X | Simpson => simpson_tri n X end.
Definition method_lhs (m : method) : mat :=
  match m with Bdf3 => bdf3_A | Simpson => simpson_a end.

(** ** Jacobian bookkeeping *)

(** scipy: a sparse matrix built from a dense vector stores only non-zero entries. *)
Definition nz (x : R) : bool := if Req_EM_T x 0 then false else true.
(** [M.nonzero()[0]] of an [n] x 1 matrix. *)
Definition nonzero_rows (n : nat) (v : vec) : list nat := filter (fun i => nz (v i)) (seq 0 n).
(** [csr_matrix(v).transpose().data] *)
Definition stored_data (n : nat) (v : vec) : list R := map v (nonzero_rows n v).

(** OpenMDAO: [J[of, wrt] = vals] for a partial declared with [rows=pat, cols=zeros]:
    the values must match the declared number of entries, except that a single
    value is broadcast; any other length raises ValueError.  The result is the
    column of the Jacobian. *)
Fixpoint place (pat : list nat) (vals : list R) (r : nat) : R :=
  match pat, vals with
  | p :: pat', v :: vals' => if Nat.eqb p r then v else place pat' vals' r
  | _, _ => 0
  end.
Definition set_sub (pat : list nat) (vals : list R) : res vec :=
  if Nat.eqb (List.length vals) (List.length pat) then Ok (place pat vals)
  else match vals with
       | [v] => Ok (place pat (repeat v (List.length pat)))
       | _ => Err ValueError
       end.

(** integrals.py:670-693 - rows declared for the time-step partials (rates all one). *)
Definition dt_pattern (n : nat) (tri : mat) : list nat :=
  nonzero_rows n (multistep_ddt n 1 (fun _ => true) tri (repeat_mat n tri) (fun _ => 1) 0).
(** integrals.py:196-215, 813-822 - column dQ/d dt computed for the current rates. *)
Definition dQddt (n : nat) (tri : mat) (rate : vec) : vec :=
  multistep_ddt n 1 (fun _ => true) tri (repeat_mat n tri) rate 0.
Definition dense_tail (n : nat) (v : vec) : list R := map v (seq 1 (n - 1)).

(** integrals.py:828-836 - [J[q,"dt"]], [J[q,"duration"]] *)
Definition jac_q_dt (n : nat) (tri : mat) (rate : vec) : res vec :=
  set_sub (dt_pattern n tri) (dense_tail n (dQddt n tri rate)).
Definition jac_q_duration (n : nat) (tri : mat) (rate : vec) : res vec :=
  set_sub (dt_pattern n tri) (map (fun x => x / INR (n - 1)) (dense_tail n (dQddt n tri rate))).
(** integrals.py:838-845 - [J[q,"t_initial"]] ([sgn] = -1), [J[q,"t_final"]] ([sgn] = 1) *)
Definition jac_q_bounds (sgn : R) (n : nat) (tri : mat) (rate : vec) : res vec :=
  let data := stored_data n (dQddt n tri rate) in
  match data with
  | [] => Ok (fun _ => 0)
  | _ => set_sub (dt_pattern n tri) (map (fun x => sgn * x / INR (n - 1)) data)
  end.
(** integrals.py:828-851 - the same for the final value (one declared entry). *)
Definition jac_qf_dt (n : nat) (tri : mat) (rate : vec) : R := dQddt n tri rate (n - 1)%nat.
Definition jac_qf_duration (n : nat) (tri : mat) (rate : vec) : R :=
  dQddt n tri rate (n - 1)%nat / INR (n - 1).
Definition jac_qf_bounds (sgn : R) (n : nat) (tri : mat) (rate : vec) : R :=
  if nz (dQddt n tri rate (n - 1)%nat) then sgn * dQddt n tri rate (n - 1)%nat / INR (n - 1) else 0.
(** integrals.py:823-826 - [J[q, rate]], [J[q_final, rate]] *)
Definition jac_q_rate (n : nat) (tri : mat) (ts : time_setup) : mat :=
  big_mat n (fun _ => true) (fun _ => time_step n ts) tri (repeat_mat n tri).
Definition jac_qf_rate (n : nat) (tri : mat) (ts : time_setup) : vec :=
  fun c => jac_q_rate n tri ts (n - 1)%nat c.
(** integrals.py:658-668 - constant partials w.r.t. the start value *)
Definition jac_q_start : vec := fun _ => 1.

(** OldIntegrator (integrals.py:854-1216), multi-segment mode: output and the
    partial w.r.t. ["<segment>|dt"] (1213-1216; sparse [.data] assigned directly). *)
Definition old_q (n m : nat) (names count : option (list string)) (dts : nat -> R) (tri : mat)
    (q0 : R) (dqdt : vec) : vec :=
  multistep n m (counted names count) dts tri (repeat_mat n tri) q0 dqdt.
Definition old_jac_dt (n m : nat) (names count : option (list string)) (tri : mat)
    (dqdt : vec) (j : nat) : res vec :=
  set_sub (nonzero_rows (n * m)
             (multistep_ddt n m (counted names count) tri (repeat_mat n tri) (fun _ => 1) j))
          (stored_data (n * m)
             (multistep_ddt n m (counted names count) tri (repeat_mat n tri) dqdt j)).
(** integrals.py:1019-1048, 1062-1071 - only "dt" is accepted together with segment names. *)
Definition old_time_setup_ok (names : option (list string)) (time_setup : string) : res unit :=
  match names with
  | Some _ => if String.eqb time_setup "dt" then Ok tt else Err ValueError
  | None => if existsb (String.eqb time_setup) ["dt"; "duration"; "bounds"]%string
            then Ok tt else Err ValueError
  end.
