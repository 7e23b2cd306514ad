(** Model of openconcept/utilities/math/add_subtract_comp.py and
    openconcept/utilities/math/multiply_divide_comp.py.

    Simplifications: exact reals; an array of shape (v, length) is the function
    of its flat C-order index; options that OpenMDAO only stores (val, res_units,
    lower, upper, ref, ref0, res_ref, tags) are left out; [input_names] given as
    a single string is the one-element list. *)
From Coq Require Import Reals List Bool PeanoNat String ZArith.
From Verif Require Import Base Py.
Import ListNotations.
Open Scope R_scope.
Open Scope string_scope.

(** [vec_size]: an integer, or one integer per input. *)
Inductive vsize := VInt (n : nat) | VList (l : list nat).

(** add_subtract_comp.py:196-204, 216-219 (and multiply_divide_comp.py:233-241):
    output size and the per-input sizes; [max] of an empty list raises ValueError. *)
Definition read_sizes (v : vsize) (nin : nat) : res (nat * list nat) :=
  match v with
  | VInt n => Ok (n, repeat n nin)
  | VList l => if negb (Nat.eqb (List.length l) nin) then Err ValueError
               else match l with [] => Err ValueError | _ => Ok (list_max l, l) end
  end.

(** numpy broadcasting of an array of shape (vin, length) to (vout, length):
    flat entry [r] of the result reads this flat entry of the operand. *)
Definition bidx (vin len r : nat) : nat := if Nat.eqb vin 1 then (r mod len)%nat else r.
(** numpy (and OpenMDAO's check of declared columns) refuse any other size. *)
Definition fits (vin vout : nat) : bool := Nat.eqb vin 1 || Nat.eqb vin vout.

(** add_subtract_comp.py:226-231, multiply_divide_comp.py:258-263: declared column of row [r]. *)
Definition part_col (vin r : nat) : nat := if Nat.eqb vin 1 then 0%nat else r.

(** OpenMDAO [add_input]/[add_output]: a name may be declared only once. *)
Fixpoint declare (names new : list string) : res (list string) :=
  match new with
  | [] => Ok names
  | x :: new' => if existsb (String.eqb x) names then Err ValueError else declare (x :: names) new'
  end.

(** What a component has declared: a variable with its shape and units, or a
    sparse Jacobian block. *)
Inductive decl :=
| DIn (name : string) (vin len : nat) (units : option string)
| DOut (name : string) (vout len : nat) (units : option string)
| DPart (of_ wrt : string) (nrows : nat) (vin : nat).

(** ** AddSubtractComp *)

(** add_subtract_comp.py:172 - the tuple stored by [add_equation] / [__init__]. *)
Record add_sys := {
  as_out : string; as_ins : list string; as_vec : vsize; as_len : nat;
  as_sf : option (list R); as_units : option string
}.

(** add_subtract_comp.py:190-219: (output size, [(input, size, factor)]).
    The exception order is the program order. *)
Definition add_resolve (s : add_sys) : res (nat * list (string * nat * R)) :=
  let nin := List.length (as_ins s) in
  let sfs := match as_sf s with None => repeat 1 nin | Some l => l end in
  if negb (Nat.eqb (List.length sfs) nin) then Err ValueError
  else res_bind (read_sizes (as_vec s) nin) (fun vs =>
    if negb (forallb (fun v => fits v (fst vs)) (snd vs)) then Err ValueError
    else Ok (fst vs, combine (combine (as_ins s) (snd vs)) sfs)).

Definition add_decls (s : add_sys) (vout : nat) (ins : list (string * nat * R)) : list decl :=
  DOut (as_out s) vout (as_len s) (as_units s) ::
  flat_map (fun p => [DIn (fst (fst p)) (snd (fst p)) (as_len s) (as_units s);
                      DPart (as_out s) (fst (fst p)) (vout * as_len s) (snd (fst p))]) ins.

(** add_subtract_comp.py:211-213: [kwargs.pop("units")] edits the stored tuple. *)
Definition add_popped (s : add_sys) : add_sys :=
  {| as_out := as_out s; as_ins := as_ins s; as_vec := as_vec s; as_len := as_len s;
     as_sf := as_sf s; as_units := None |}.

(** add_subtract_comp.py:182-240: [setup] returns the declarations and leaves
    the stored equations changed. *)
Fixpoint add_setup_from (names : list string) (l : list add_sys) : res (list decl * list add_sys) :=
  match l with
  | [] => Ok ([], [])
  | s :: l' =>
      res_bind (add_resolve s) (fun vi =>
      res_bind (declare names (as_out s :: as_ins s)) (fun names' =>
      res_bind (add_setup_from names' l') (fun dl =>
        Ok ((add_decls s (fst vi) (snd vi) ++ fst dl)%list, add_popped s :: snd dl))))
  end.
Definition add_setup := add_setup_from [].

(** add_subtract_comp.py:242-279: flat entry [r] of the output. *)
Definition add_compute (s : add_sys) (E : env) (r : nat) : res R :=
  res_bind (add_resolve s) (fun vi =>
    Ok (fold_left (fun temp p => temp + E (fst (fst p)) (bidx (snd (fst p)) (as_len s) r) * snd p)
                  (snd vi) 0)).

Fixpoint find_in {A} (x : string) (l : list (string * nat * A)) : option (nat * A) :=
  match l with
  | [] => None
  | (y, v, a) :: l' => if String.eqb x y then Some (v, a) else find_in x l'
  end.

(** add_subtract_comp.py:233-240: declared constant partial, row [r], column [c]. *)
Definition add_jac (s : add_sys) (x : string) (r c : nat) : res R :=
  res_bind (add_resolve s) (fun vi =>
    match find_in x (snd vi) with
    | Some (vin, sf) => Ok (if Nat.eqb (part_col vin r) c then sf else 0)
    | None => Ok 0
    end).

(** add_subtract_comp.py:77-89 and 174-180: what may be passed as first argument. *)
Inductive init_arg := AStr | AIter | ANone | AOther.
Definition comp_init (a : init_arg) : res bool :=
  match a with AStr => Ok true | AIter => Err NotImplementedError | ANone => Ok false | AOther => Err ValueError end.
Definition comp_add_output : res unit := Err NotImplementedError.

(** ** ElementMultiplyDivideComp *)

(** Text of a unit expression, as the tokens OpenMDAO's evaluator sees. *)
Inductive tok := TUnit (u : string) | TMul | TDiv | TOpen | TClose | TPow (k : Z).

(** multiply_divide_comp.py:192-194 *)
Record mul_sys := {
  ms_out : string; ms_ins : list string; ms_vec : vsize; ms_len : nat;
  ms_sf : R; ms_div : option (list bool); ms_units : option (list (option (list tok)))
}.

(** multiply_divide_comp.py:223-249 *)
Definition mul_resolve (s : mul_sys)
  : res (nat * (list (string * nat * bool)) * list (bool * option (list tok))) :=
  let nin := List.length (ms_ins s) in
  let divs := match ms_div s with None => repeat false nin | Some l => l end in
  let units := match ms_units s with None => repeat None nin | Some l => l end in
  if negb (Nat.eqb (List.length divs) nin) then Err ValueError
  else if negb (Nat.eqb (List.length units) nin) then Err ValueError
  else res_bind (read_sizes (ms_vec s) nin) (fun vs =>
    if negb (forallb (fun v => fits v (fst vs)) (snd vs)) then Err ValueError
    else Ok (fst vs, combine (combine (ms_ins s) (snd vs)) divs, combine divs units)).

(** multiply_divide_comp.py:268-278: the piece appended for input [i]. *)
Definition unit_piece (i : nat) (d : bool) (u : list tok) : list tok :=
  if d then if Nat.eqb i 0 then (TOpen :: u ++ [TClose; TPow (-1)])%list
            else (TDiv :: TOpen :: u ++ [TClose])%list
  else if Nat.eqb i 0 then u else (TMul :: TOpen :: u ++ [TClose])%list.
Fixpoint unit_pieces (i : nat) (l : list (bool * option (list tok))) : list (list tok) :=
  match l with
  | [] => []
  | (d, Some u) :: l' => unit_piece i d u :: unit_pieces (S i) l'
  | (d, None) :: l' => unit_pieces (S i) l'
  end.
(** multiply_divide_comp.py:279-281 *)
Definition out_units (l : list (bool * option (list tok))) : option (list tok) :=
  match unit_pieces 0 l with [] => None | ps => Some (concat ps) end.

(** multiply_divide_comp.py:292-342: flat entry [r] of the output. *)
Definition mul_compute (s : mul_sys) (E : env) (r : nat) : res R :=
  res_bind (mul_resolve s) (fun vi =>
    Ok (fold_left (fun temp p =>
          let v := E (fst (fst p)) (bidx (snd (fst p)) (ms_len s) r) in
          if (snd p : bool) then temp / v else temp * v) (snd (fst vi)) 1 * ms_sf s)).

(** multiply_divide_comp.py:372-387: value stored at row [r] of the block of [x]. *)
Definition mul_partial (s : mul_sys) (ins : list (string * nat * bool)) (E : env) (x : string) (r : nat) : R :=
  fold_left (fun temp p =>
    let v := E (fst (fst p)) (bidx (snd (fst p)) (ms_len s) r) in
    if negb (String.eqb (fst (fst p)) x)
    then (if (snd p : bool) then temp / v else temp * v)
    else (if (snd p : bool) then - temp / v ^ 2 else temp)) ins 1 * ms_sf s.
Definition mul_jac (s : mul_sys) (E : env) (x : string) (r c : nat) : res R :=
  res_bind (mul_resolve s) (fun vi =>
    match find_in x (snd (fst vi)) with
    | Some (vin, _) => Ok (if Nat.eqb (part_col vin r) c then mul_partial s (snd (fst vi)) E x r else 0)
    | None => Ok 0
    end).

(** multiply_divide_comp.py:204-290; nothing stored is changed. *)
Fixpoint mul_setup_from (names : list string) (l : list mul_sys) : res (list string) :=
  match l with
  | [] => Ok names
  | s :: l' =>
      res_bind (mul_resolve s) (fun _ =>
      res_bind (declare names (ms_ins s ++ [ms_out s])) (fun names' => mul_setup_from names' l'))
  end.
Definition mul_setup := mul_setup_from [].
