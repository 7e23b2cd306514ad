(** Model of openconcept/utilities/dict_indepvarcomp.py and dvlabel.py. *)
From Coq Require Import Reals List Bool PeanoNat String Ascii.
From Verif Require Import Base Py.
Import ListNotations.
Open Scope R_scope.

(** ** DictIndepVarComp *)

(** The Python values found in a data dictionary (numbers, numpy arrays, text,
    None, nested dictionaries). *)
Inductive pyval := PNum (x : R) | PArr (l : list R) | PStr (s : string) | PNone | PDict (l : list (string * pyval)).

(** [v[key]] for a string key: only dictionaries raise KeyError. *)
Definition subscript (v : pyval) (key : string) : res pyval :=
  match v with
  | PDict l => match assoc key l with Some a => Ok a | None => Err KeyError end
  | PArr _ => Err IndexError
  | _ => Err TypeError
  end.

(** [s.split(sep)] for a one-character separator. *)
Fixpoint split_on (sep : ascii) (s : string) : list string :=
  match s with
  | EmptyString => [EmptyString]
  | String c s' =>
      if Ascii.eqb c sep then EmptyString :: split_on sep s'
      else match split_on sep s' with
           | [] => [String c EmptyString]
           | w :: ws => String c w :: ws
           end
  end.

(** A declared output: name, value entries, units. *)
Definition out_decl := (string * list R * option string)%type.

(** dict_indepvarcomp.py:55-62 *)
Definition walk (d : pyval) (names : list string) : res pyval :=
  fold_left (fun acc k => res_bind acc (fun v => subscript v k)) names (Ok d).
(** dict_indepvarcomp.py:67; OpenMDAO rejects units that are not text. *)
Definition get_units (v : pyval) : res (option string) :=
  match v with
  | PDict l => match assoc "units"%string l with
               | None => Ok None | Some PNone => Ok None
               | Some (PStr s) => Ok (Some s) | Some _ => Err TypeError end
  | _ => Err AttributeError
  end.
(** dict_indepvarcomp.py:69-72: a number becomes a one-element array; [val.shape]. *)
Definition get_value (v : pyval) : res (list R) :=
  match v with PNum x => Ok [x] | PArr l => Ok l | _ => Err AttributeError end.
(** dict_indepvarcomp.py:41-72.  First component: the outputs afterwards. *)
Definition add_from_dict (d : pyval) (sep : ascii) (outs : list out_decl) (name : string)
  : list out_decl * res unit :=
  match res_bind (walk d (split_on sep name)) (fun leaf =>
        res_bind (subscript leaf "value"%string) (fun v =>
        res_bind (get_units leaf) (fun u =>
        res_bind (get_value v) (fun val =>
          if existsb (fun o => String.eqb (fst (fst o)) name) outs then Err ValueError
          else Ok (name, val, u))))) with
  | Ok o => ((outs ++ [o])%list, Ok tt)
  | Err e => (outs, Err e)
  end.

(** ** DVLabel *)

(** One entry of the caller's list [[input, output, val, units, size, ...]];
    [dv_sizes] are the elements appended after the fourth. *)
Record dv_entry := { dv_in : string; dv_out : string; dv_val : list R; dv_units : option string;
                     dv_sizes : list nat }.
(** dvlabel.py:28-37: the constructor appends to the caller's own lists.
    (A scalar is a one-element value.) *)
Definition dv_append (e : dv_entry) : dv_entry :=
  {| dv_in := dv_in e; dv_out := dv_out e; dv_val := dv_val e; dv_units := dv_units e;
     dv_sizes := (dv_sizes e ++ [List.length (dv_val e)])%list |}.
Definition dv_init (l : list dv_entry) : list dv_entry := map dv_append l.
(** dvlabel.py:39-54: [size = var_list[4]] is the first appended element. *)
Definition dv_size (e : dv_entry) : res nat :=
  match dv_sizes e with n :: _ => Ok n | [] => Err IndexError end.
(** Declared (name in, name out, value, units, rows of the diagonal). *)
Definition dv_decl (e : dv_entry) : res (string * string * list R * option string * nat) :=
  res_bind (dv_size e) (fun n => Ok (dv_in e, dv_out e, dv_val e, dv_units e, n)).
(** dvlabel.py:56-60 *)
Definition dv_compute (e : dv_entry) (E : env) (k : nat) : R := E (dv_in e) k.
(** dvlabel.py:53-54: ones at rows = cols = arange(size). *)
Definition dv_jac (e : dv_entry) (r c : nat) : res R :=
  res_bind (dv_size e) (fun n => Ok (if (Nat.eqb r c && Nat.ltb r n)%bool then 1 else 0)).
