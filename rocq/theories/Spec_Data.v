(** Independent specification for the data dictionary component. *)
From Coq Require Import Reals List Bool PeanoNat String Ascii.
From Verif Require Import Base Py Model_Data.
Import ListNotations.
Open Scope R_scope.

Fixpoint contains_char (c : ascii) (s : string) : bool :=
  match s with EmptyString => false | String d s' => (Ascii.eqb d c || contains_char c s')%bool end.
(** k1|k2|...|kn *)
Fixpoint join (sep : ascii) (ks : list string) : string :=
  match ks with
  | [] => EmptyString
  | [k] => k
  | k :: ks' => (k ++ String sep (join sep ks'))%string
  end.
(** [v] is what the nested dictionary [d] stores at [ks]. *)
Inductive at_path : pyval -> list string -> pyval -> Prop :=
| at_here d : at_path d [] d
| at_key k ks l a v : assoc k l = Some a -> at_path a ks v -> at_path (PDict l) (k :: ks) v.
Definition is_leaf (v : pyval) : bool := match v with PDict _ => false | _ => true end.
(** The "value" and "units" stored in a leaf dictionary. *)
Definition stored_value (l : list (string * pyval)) (v : list R) : Prop :=
  (exists x, assoc "value"%string l = Some (PNum x) /\ v = [x]) \/ assoc "value"%string l = Some (PArr v).
Definition stored_units (l : list (string * pyval)) (u : option string) : Prop :=
  match assoc "units"%string l with
  | None => u = None
  | Some PNone => u = None
  | Some (PStr s) => u = Some s
  | Some _ => False
  end.
