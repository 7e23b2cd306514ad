(** Independent specification of the add/subtract and multiply/divide components. *)
From Coq Require Import Reals List Bool PeanoNat String ZArith.
From Verif Require Import Base Py RSum Model_Algebra.
Import ListNotations.
Open Scope R_scope.

(** Size of input [i] and of the output. *)
Definition in_size (v : vsize) (i : nat) : nat := match v with VInt n => n | VList l => nth i l 0%nat end.
Definition out_size (v : vsize) : nat := match v with VInt n => n | VList l => list_max l end.
(** "Default is None which results in a scaling factor of 1 on each input". *)
Definition factor (s : add_sys) (i : nat) : R := match as_sf s with None => 1 | Some l => nth i l 0 end.
Definition divided (s : mul_sys) (i : nat) : bool := match ms_div s with None => false | Some l => nth i l false end.

(** Entry (row, col) of an array with [v] rows and [len] columns, where a
    one-row array stands for the same row repeated. *)
Definition row_of (v row : nat) : nat := if Nat.eqb v 1 then 0%nat else row.
Definition entry (x : nat -> R) (v len row col : nat) : R := x (row_of v row * len + col)%nat.

(** A call is well formed. *)
Definition sizes_wf (v : vsize) (nin : nat) : Prop :=
  match v with
  | VInt _ => True
  | VList l => l <> [] /\ List.length l = nin /\ forall n, In n l -> n = 1%nat \/ n = list_max l
  end.
Definition add_wf (s : add_sys) : Prop :=
  sizes_wf (as_vec s) (List.length (as_ins s)) /\
  match as_sf s with None => True | Some l => List.length l = List.length (as_ins s) end.
Definition mul_wf (s : mul_sys) : Prop :=
  sizes_wf (ms_vec s) (List.length (ms_ins s)) /\
  match ms_div s with None => True | Some l => List.length l = List.length (ms_ins s) end /\
  match ms_units s with None => True | Some l => List.length l = List.length (ms_ins s) end.
Definition add_names (s : add_sys) : list string := as_out s :: as_ins s.
Definition mul_names (s : mul_sys) : list string := ms_out s :: ms_ins s.

(** Product of [f 0 .. f (n-1)]. *)
Fixpoint rprod (n : nat) (f : nat -> R) : R := match n with O => 1 | S k => rprod k f * f k end.

(** Value of a unit expression as Python evaluates it (left-associative [*] and
    [/], [**] binding tightest, parentheses).  [w] gives the exponent of one
    fixed base unit in each unit name, so a product of units is a sum.
    A frame is either waiting for an operand, or has one:
    (value so far, whether the operand is divided, operand). *)
Inductive frame := Expect (acc : Z) (start : bool) (neg : bool) | Have (acc : Z) (neg : bool) (last : Z).
Definition fval (acc : Z) (neg : bool) (last : Z) : Z := if neg then (acc - last)%Z else (acc + last)%Z.
Definition ustep (w : string -> Z) (st : list frame) (t : tok) : option (list frame) :=
  match t, st with
  | TUnit u, Expect a _ n :: k => Some (Have a n (w u) :: k)
  | TMul, Have a n l :: k => Some (Expect (fval a n l) false false :: k)
  | TDiv, Have a n l :: k => Some (Expect (fval a n l) false true :: k)
  | TPow p, Have a n l :: k => Some (Have a n (p * l)%Z :: k)
  | TOpen, Expect a s n :: k => Some (Expect 0 true false :: Expect a s n :: k)
  | TClose, Have a n l :: Expect a' _ n' :: k => Some (Have a' n' (fval a n l) :: k)
  | _, _ => None
  end.
Fixpoint urun (w : string -> Z) (st : list frame) (ts : list tok) : option (list frame) :=
  match ts with [] => Some st | t :: ts' => match ustep w st t with Some st' => urun w st' ts' | None => None end end.
(** [None]: the text is not a valid unit expression. *)
Definition ueval (w : string -> Z) (ts : list tok) : option Z :=
  match urun w [Expect 0 true false] ts with
  | Some [Have a n l] => Some (fval a n l)
  | _ => None
  end.

(** Exponent of the base unit in the product of the inputs' units, divided
    inputs inverted, unitless inputs contributing nothing. *)
Fixpoint units_product (l : list (bool * option Z)) : Z :=
  match l with
  | [] => 0
  | (d, Some z) :: l' => ((if (d : bool) then - z else z) + units_product l')%Z
  | (_, None) :: l' => units_product l'
  end.

(** [zs] are the values of the input units [l] (same divide flags, same unitless inputs). *)
Definition uvals (w : string -> Z) (l : list (bool * option (list tok))) (zs : list (bool * option Z)) : Prop :=
  Forall2 (fun p q => fst p = fst q /\
    match snd p, snd q with
    | Some u, Some z => ueval w u = Some z
    | None, None => True
    | _, _ => False
    end) l zs.

(** The value of a computation known to succeed. *)
Definition get (r : res R) : R := match r with Ok v => v | Err _ => 0 end.

(** A declaration with its units erased, and the units of a declaration. *)
Definition strip (d : decl) : decl :=
  match d with DIn n v l _ => DIn n v l None | DOut n v l _ => DOut n v l None | p => p end.

(** [setup] called [n] more times after the first one; result of the last call. *)
Fixpoint setup_n (n : nat) (l : list add_sys) : res (list decl * list add_sys) :=
  match n with
  | O => add_setup l
  | S k => res_bind (setup_n k l) (fun dl => add_setup (snd dl))
  end.

