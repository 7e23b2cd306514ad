(** Model of the components that tabulate OpenAeroStruct analyses for the surrogate
    drag polars: VLMDataGen (openconcept/aerodynamics/openaerostruct/drag_polar.py:379-684)
    and OASDataGen (openconcept/aerodynamics/openaerostruct/aerostructural.py:255-756).
    Both keep their results in attributes of the class, shared by all instances in
    the process; the two classes have the same code up to the lists of inputs and
    outputs, so one model takes the class as a parameter.

    OpenAeroStruct itself is a parameter: a function that answers one analysis, or
    fails.  Arrays are real-valued (no NaN); multi-dimensional inputs are read
    through their flat index. *)
From Coq Require Import Reals List Bool PeanoNat String.
From Verif Require Import Base Py.
Import ListNotations.
Open Scope string_scope.
Open Scope list_scope.
Open Scope R_scope.

Inductive gen := VLMData | OASData.

(** The values found in surface option dictionaries. *)
Inductive sval := SNum (x : R) | SBool (b : bool) | SStr (s : string) | SArr (l : list R).
Definition surf := list (string * sval).
(** Lists of training values: drag_polar.py:192-210 accepts lists and arrays. *)
Inductive tlist := PyList (l : list R) | NdArray (l : list R).

(** drag_polar.py:430-444, aerostructural.py:344-363; the last five only for OASDataGen. *)
Record options := {
  o_x : nat; o_y : nat;
  o_Mach : tlist; o_alpha : tlist; o_alt : tlist;
  o_surf : surf;
  o_tol : R; o_twist : nat; o_toverc : nat; o_skin : nat; o_spar : nat
}.

(** drag_polar.py:450-452, 484-486, 511-513; aerostructural.py:366-392, 426-434, 479-487:
    the inputs kept in the class, with their shapes, in the order in which they are
    compared and copied. *)
Definition kept (g : gen) (o : options) : list (string * list nat) :=
  match g with
  | VLMData =>
      [("ac|geom|wing|OAS_mesh", [S (o_x o); S (o_y o); 3%nat]); ("ac|geom|wing|toverc", [o_y o]);
       ("fltcond|TempIncrement", [1%nat])]
  | OASData =>
      [("ac|geom|wing|S_ref", [1%nat]); ("ac|geom|wing|AR", [1%nat]); ("ac|geom|wing|taper", [1%nat]);
       ("ac|geom|wing|c4sweep", [1%nat]); ("ac|geom|wing|twist", [o_twist o]); ("ac|geom|wing|toverc", [o_toverc o]);
       ("ac|geom|wing|skin_thickness", [o_skin o]); ("ac|geom|wing|spar_thickness", [o_spar o]);
       ("fltcond|TempIncrement", [1%nat])]
  end.
(** drag_polar.py:484-486, aerostructural.py:426-434: values before the first run. *)
Definition initial : env := fun k _ => if String.eqb k "fltcond|TempIncrement" then - (42) else - (1).
(** drag_polar.py:500, aerostructural.py:457 *)
Definition tolerance (g : gen) (o : options) : R :=
  match g with VLMData => / 10 ^ 13 | OASData => o_tol o end.
(** drag_polar.py:621, aerostructural.py:634: outputs tabulated on the grid. *)
Definition tabulated (g : gen) : list string :=
  match g with
  | VLMData => ["CL_train"; "CD_train"]
  | OASData => ["CL_train"; "CD_train"; "failure_train"]
  end.

(** One analysis: drag_polar.py:644-684, aerostructural.py:685-756.  The answer holds the
    outputs and their total derivatives ([a_d of wrt col]); [None] when it raises. *)
Record answer := { a_out : string -> R; a_d : string -> string -> nat -> R }.
Definition analysis := nat -> nat -> surf -> env -> R -> R -> R -> option answer.

Definition array3 := nat -> nat -> nat -> R.
Definition shape3 := (nat * nat * nat)%type.
Definition size3 (s : shape3) : nat := let '(a, b, c) := s in (a * b * c)%nat.
Definition same_shape3 (s t : shape3) : bool :=
  let '(a, b, c) := s in let '(d, e, f) := t in ((a =? d) && (b =? e) && (c =? f))%nat.
(** numpy.unravel_index(r, shape) (row-major order) *)
Definition unravel (s : shape3) (r : nat) : shape3 :=
  let '(a, b, c) := s in ((r / (b * c)), ((r / c) mod b), (r mod c))%nat.
Definition at3 (A : array3) (p : shape3) : R := let '(i, j, k) := p in A i j k.
(** ndarray.flatten() *)
Definition flatten (s : shape3) (A : array3) : list R := map (fun r => at3 A (unravel s r)) (seq 0 (size3 s)).
(** A[p] = v *)
Definition put3 (A : array3) (p : shape3) (v : R) : array3 :=
  fun i j k => if same_shape3 (i, j, k) p then v else A i j k.
Definition zeros3 : array3 := fun _ _ _ => 0.
(** numpy.meshgrid(x, y, z, indexing="ij"): drag_polar.py:487-489, aerostructural.py:435-437 *)
Definition meshgrid (x y z : list R) : array3 * array3 * array3 :=
  (fun i _ _ => nth i x 0, fun _ j _ => nth j y 0, fun _ _ k => nth k z 0).

Definition outputs := string -> array3.
Definition jacobian := string -> string -> nat -> nat -> R.

(** The attributes of the class.  [c_surf] exists from the first [setup] of the process on;
    the rest is replaced by every [setup]. *)
Record cache := {
  c_kept : list (string * list nat); (* shapes of the kept inputs *)
  c_in : env;
  c_shape : shape3; c_Mach : array3; c_alpha : array3; c_alt : array3;
  c_out : outputs;
  c_part : option jacobian
}.
Record cls := { c_surf : option surf; c_cache : option cache }.
Definition fresh : cls := {| c_surf := None; c_cache := None |}.

(** ** setup *)

Definition sval_neq (a b : sval) : bool :=
  match a, b with
  | SNum x, SNum y => if Req_EM_T x y then false else true
  | SBool x, SBool y => negb (Bool.eqb x y)
  | SStr x, SStr y => negb (String.eqb x y)
  | SArr x, SArr y => negb ((List.length x =? List.length y)%nat && forallb (fun p => if Req_EM_T (fst p) (snd p) then true else false) (combine x y))
  | _, _ => true
  end.
Definition has (s : surf) (k : string) : bool := existsb (fun e => String.eqb (fst e) k) s.
Definition same_keys (s t : surf) : bool := forallb (fun e => has t (fst e)) s && forallb (fun e => has s (fst e)) t.
(** drag_polar.py:464-473, aerostructural.py:406-415: the options differ from the stored
    ones.  ([error or ...] does not evaluate the right side once the key sets differ, so a
    missing key raises no KeyError.)  Simplified: python's [!=] between values of different
    types is taken to be true (numpy compares an array with a number entrywise). *)
Definition surf_differs (stored new : surf) : bool :=
  negb (same_keys stored new) ||
  existsb (fun e => match assoc (fst e) new with Some v => sval_neq (snd e) v | None => true end) stored.

(** [.size] of the training values: drag_polar.py:454-456, aerostructural.py:394-396. *)
Definition numpy_values (l : tlist) : res (list R) := match l with NdArray l => Ok l | PyList _ => Err AttributeError end.

(** drag_polar.py:446-492, aerostructural.py:365-442 *)
Definition setup (g : gen) (o : options) (st : cls) : cls * res unit :=
  match numpy_values (o_Mach o), numpy_values (o_alpha o), numpy_values (o_alt o) with
  | Ok m, Ok a, Ok h =>
      if match c_surf st with Some s => surf_differs s (o_surf o) | None => false end then (st, Err ValueError)
      else
        let '(M, A, H) := meshgrid m a h in
        ({| c_surf := Some (match c_surf st with Some s => s | None => o_surf o end);
            c_cache := Some {|
              c_kept := kept g o; c_in := initial;
              c_shape := (List.length m, List.length a, List.length h); c_Mach := M; c_alpha := A; c_alt := H;
              c_out := fun _ => zeros3; c_part := None |} |}, Ok tt)
  | _, _, _ => (st, Err AttributeError)
  end.

(** ** compute_training_data *)

Fixpoint all_some {A} (l : list (option A)) : option (list A) :=
  match l with
  | [] => Some []
  | Some a :: r => match all_some r with Some t => Some (a :: t) | None => None end
  | None :: _ => None
  end.
(** drag_polar.py:592-613, aerostructural.py:596-627: the rows (Mach, alpha, altitude) of the
    test points, and the analyses.  A pool of processes runs them; the map keeps the order. *)
Definition test_points (c : cache) : list (R * (R * R)) :=
  combine (flatten (c_shape c) (c_Mach c)) (combine (flatten (c_shape c) (c_alpha c)) (flatten (c_shape c) (c_alt c))).
Definition run_all (sv : analysis) (o : options) (x : env) (c : cache) : option (list answer) :=
  all_some (map (fun p => sv (o_x o) (o_y o) (o_surf o) x (fst p) (fst (snd p)) (snd (snd p))) (test_points c)).
(** drag_polar.py:630-632, aerostructural.py:662-665: [data[f][unravel_index(i, shape)] = out[i][f]]. *)
Definition table (s : shape3) (out : list answer) (f : string) : array3 :=
  fold_left (fun A p => put3 A (unravel s (fst p)) (a_out (snd p) f)) (combine (seq 0 (List.length out)) out) zeros3.
(** drag_polar.py:633-634, aerostructural.py:666-675.  [W_wing] comes from the first analysis only. *)
Definition rows_of (out : list answer) : jacobian := fun f u r c =>
  match nth_error out r with Some a => a_d a f u c | None => 0 end.
Definition training_data (g : gen) (s : shape3) (out : list answer) : res (outputs * jacobian) :=
  match g, out with
  | VLMData, _ => Ok (table s out, rows_of out)
  | OASData, [] => Err IndexError
  | OASData, a0 :: _ =>
      Ok (fun f => if String.eqb f "W_wing" then (fun _ _ _ => a_out a0 "W_wing") else table s out f,
          fun f u r c => if String.eqb f "W_wing" then a_d a0 "W_wing" u c else rows_of out f u r c)
  end.

(** ** compute *)

Definition prod (l : list nat) : nat := fold_right Nat.mul 1%nat l.
Definition all_close (tol : R) (n : nat) (x y : nat -> R) : bool :=
  forallb (fun i => if Rlt_dec (Rabs (x i - y i)) tol then true else false) (seq 0 n).
Definition same_list (a b : list nat) : bool := if list_eq_dec Nat.eq_dec a b then true else false.
(** drag_polar.py:501-505, aerostructural.py:458-468: [and] stops at the first input that
    changed; an input of another shape than the kept one cannot be compared.  (Simplified:
    numpy would broadcast a vector of length one.) *)
Fixpoint unchanged (tol : R) (ks : list (string * list nat)) (c : cache) (x : env) : res bool :=
  match ks with
  | [] => Ok true
  | (k, s) :: r =>
      match assoc k (c_kept c) with
      | Some t => if same_list s t then (if all_close tol (prod s) (x k) (c_in c k) then unchanged tol r c x else Ok false)
                  else Err ValueError
      | None => Err AttributeError
      end
  end.
(** drag_polar.py:511-513, aerostructural.py:479-487: copied one after the other. *)
Fixpoint copy_in (ks : list (string * list nat)) (t : list (string * list nat)) (x y : env) : env * res unit :=
  match ks with
  | [] => (y, Ok tt)
  | (k, s) :: r =>
      match assoc k t with
      | Some s' => if same_list s s' then copy_in r t x (fun k' => if String.eqb k' k then x k else y k') else (y, Err ValueError)
      | None => (y, Err AttributeError)
      end
  end.
Definition with_in (c : cache) (x : env) : cache := {|
  c_kept := c_kept c; c_in := x; c_shape := c_shape c; c_Mach := c_Mach c; c_alpha := c_alpha c; c_alt := c_alt c;
  c_out := c_out c; c_part := c_part c |}.
Definition with_data (c : cache) (d : outputs * jacobian) : cache := {|
  c_kept := c_kept c; c_in := c_in c; c_shape := c_shape c; c_Mach := c_Mach c; c_alpha := c_alpha c; c_alt := c_alt c;
  c_out := fst d; c_part := Some (snd d) |}.

(** The tables are up to date after this: drag_polar.py:494-531, aerostructural.py:444-515
    without the assignments to [outputs].  [fine] is false when the analyses are interrupted
    (an exception in a worker, a killed process, ^C). *)
Definition refresh (g : gen) (sv : analysis) (o : options) (x : env) (fine : bool) (c : cache) : cache * res unit :=
  match unchanged (tolerance g o) (kept g o) c x with
  | Err e => (c, Err e)
  | Ok true => (c, Ok tt)
  | Ok false =>
      match copy_in (kept g o) (c_kept c) x (c_in c) with
      | (y, Err e) => (with_in c y, Err e)
      | (y, Ok _) =>
          let c1 := with_in c y in
          match (if fine then run_all sv o x c1 else None) with
          | None => (c1, Err AnalysisError)
          | Some out =>
              match training_data g (c_shape c1) out with
              | Err e => (c1, Err e)
              | Ok d => (with_data c1 d, Ok tt)
              end
          end
      end
  end.
Definition own_shape (o : options) : res shape3 :=
  match numpy_values (o_Mach o), numpy_values (o_alpha o), numpy_values (o_alt o) with
  | Ok m, Ok a, Ok h => Ok (List.length m, List.length a, List.length h)
  | _, _, _ => Err AttributeError
  end.
(** drag_polar.py:506-508, 530-531, aerostructural.py:469-473, 512-515.  OpenMDAO rejects a
    value of another shape than the output's. *)
Definition deliver (g : gen) (o : options) (x : env) (c : cache) : res outputs :=
  match own_shape o with
  | Ok s => if same_shape3 s (c_shape c) then
              Ok (match g with
                  | VLMData => c_out c
                  | OASData => fun f => if String.eqb f "CD_train" then (fun i j k => c_out c f i j k + x "ac|aero|CD_nonwing" 0%nat) else c_out c f
                  end)
            else Err ValueError
  | Err e => Err e
  end.
Definition compute (g : gen) (sv : analysis) (o : options) (x : env) (fine : bool) (st : cls) : cls * res outputs :=
  match c_cache st with
  | None => (st, Err AttributeError)
  | Some c =>
      match refresh g sv o x fine c with
      | (c', Ok _) => ({| c_surf := c_surf st; c_cache := Some c' |}, deliver g o x c')
      | (c', Err e) => ({| c_surf := c_surf st; c_cache := Some c' |}, Err e)
      end
  end.
(** drag_polar.py:533-537, aerostructural.py:517-522.  Partials never assigned stay zero. *)
Definition compute_partials (g : gen) (sv : analysis) (o : options) (x : env) (fine : bool) (st : cls) : cls * res jacobian :=
  match c_cache st with
  | None => (st, Err AttributeError)
  | Some c =>
      match refresh g sv o x fine c with
      | (c', Ok _) =>
          ({| c_surf := c_surf st; c_cache := Some c' |},
           match c_part c', own_shape o with
           | None, _ => Err AttributeError
           | Some J, Ok s =>
               if same_shape3 s (c_shape c') then
                 Ok (match g with
                     | VLMData => J
                     | OASData => fun f u r col =>
                         if String.eqb u "ac|aero|CD_nonwing" then (if String.eqb f "CD_train" then 1 else 0) else J f u r col
                     end)
               else Err ValueError
           | Some _, Err e => Err e
           end)
      | (c', Err e) => ({| c_surf := c_surf st; c_cache := Some c' |}, Err e)
      end
  end.

(** ** Histories of the calls OpenMDAO makes to instances of the class in one process *)
Inductive event :=
  | Setup (o : options)
  | Compute (o : options) (x : env) (fine : bool)
  | Partials (o : options) (x : env) (fine : bool).
Inductive response := RSetup (r : res unit) | ROut (r : res outputs) | RJac (r : res jacobian).
Definition step (g : gen) (sv : analysis) (st : cls) (e : event) : cls * response :=
  match e with
  | Setup o => let '(s, r) := setup g o st in (s, RSetup r)
  | Compute o x fine => let '(s, r) := compute g sv o x fine st in (s, ROut r)
  | Partials o x fine => let '(s, r) := compute_partials g sv o x fine st in (s, RJac r)
  end.
Definition after (g : gen) (sv : analysis) (es : list event) (st : cls) : cls :=
  fold_left (fun s e => fst (step g sv s e)) es st.
