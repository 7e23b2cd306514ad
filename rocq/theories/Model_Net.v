(** OpenMDAO groups, as OpenConcept's [setup] methods build them: a list of
    subsystems with the promotions given to [add_subsystem] and the explicit
    [self.connect] calls.  This is the part of OpenMDAO the library's groups rely
    on; no file of /repo implements it.

    A converged group assigns a value to every variable of the group such that
    each subsystem's outputs are the ones its inputs determine; this is what
    OpenMDAO's solvers (also the Newton solvers used for cyclic groups) deliver
    when they converge.  Values are physical quantities, so unit conversions
    between a source and its targets do not show. *)
From Coq Require Import Reals List Bool PeanoNat String Ascii.
From Verif Require Import Base Py.
Import ListNotations.
Open Scope string_scope.
Open Scope list_scope.

(** An entry of [promotes_inputs] / [promotes_outputs]: a name or glob pattern, or
    a pair (old name, new name). *)
Inductive promo := P (pattern : string) | As (old new : string).

(** Glob matching with "*" (python's fnmatch). *)
Fixpoint glob (p s : string) {struct p} : bool :=
  match p with
  | EmptyString => match s with EmptyString => true | _ => false end
  | String c p' =>
      if Ascii.eqb c "*"%char then
        (fix any (s : string) : bool :=
           glob p' s || match s with EmptyString => false | String _ s' => any s' end) s
      else match s with
           | EmptyString => false
           | String d s' => Ascii.eqb c d && glob p' s'
           end
  end.

Definition promo_match (p : promo) (x : string) : bool :=
  match p with P pat => glob pat x | As old _ => String.eqb old x end.

(** The name variable [x] is promoted to: renamings first, then patterns. *)
Definition promoted (l : list promo) (x : string) : option string :=
  match find (fun p => match p with As old _ => String.eqb old x | P _ => false end) l with
  | Some (As _ new) => Some new
  | _ => if existsb (fun p => promo_match p x) l then Some x else None
  end.

(** The name by which the group knows variable [x] of subsystem [s]. *)
Definition gname (s : string) (l : list promo) (x : string) : string :=
  match promoted l x with Some y => y | None => String.append s (String.append "." x) end.

(** A subsystem: names of its inputs and outputs, the relation between their
    values when it is converged, and its promotions. *)
Record gsub := {
  gs_name : string;
  gs_ins : list string;
  gs_outs : list string;
  gs_rel : env -> env -> Prop;
  gs_pin : list promo;
  gs_pout : list promo
}.

Record group := { g_subs : list gsub; g_conns : list (string * string) (* source, target *) }.

(** [setup] raises an error if a promotion matches no variable of the subsystem
    or a connection names a source or target that does not exist. *)
Definition promos_ok (l : list promo) (vars : list string) : bool :=
  forallb (fun p => existsb (promo_match p) vars) l.
Definition group_ins (g : group) : list string :=
  flat_map (fun s => map (gname (gs_name s) (gs_pin s)) (gs_ins s)) (g_subs g).
Definition group_outs (g : group) : list string :=
  flat_map (fun s => map (gname (gs_name s) (gs_pout s)) (gs_outs s)) (g_subs g).
Definition mem (x : string) (l : list string) : bool := existsb (String.eqb x) l.
Fixpoint no_dup (l : list string) : bool :=
  match l with [] => true | x :: r => negb (mem x r) && no_dup r end.
Definition setup (g : group) : res group :=
  if negb (forallb (fun s => promos_ok (gs_pin s) (gs_ins s) && promos_ok (gs_pout s) (gs_outs s)) (g_subs g))
  then Err RuntimeError
  else if negb (forallb (fun c => mem (fst c) (group_outs g) && mem (snd c) (group_ins g)) (g_conns g))
  then Err NameError
  else if negb (no_dup (group_outs g)) then Err NameError
  else if negb (no_dup (map snd (g_conns g))) then Err RuntimeError
  else Ok g.

(** Where a group-level input name gets its value: the source connected to it,
    else the output of the same name (or, if there is none, the value given to
    the group from outside under that name). *)
Definition source (g : group) (x : string) : string :=
  match find (fun c => String.eqb (snd c) x) (g_conns g) with Some c => fst c | None => x end.

Definition reads (g : group) (s : gsub) (V : env) : env := fun x => V (source g (gname (gs_name s) (gs_pin s) x)).
Definition writes (s : gsub) (V : env) : env := fun o => V (gname (gs_name s) (gs_pout s) o).

(** [V] gives values to all variables of the group and every subsystem is satisfied. *)
Definition solution (g : group) (V : env) : Prop :=
  forall s, In s (g_subs g) -> gs_rel s (reads g s V) (writes s V).

(** An explicit component with [n] nodes as a subsystem. *)
Definition comp (n : nat) (name : string) (C : pcomp) (pin pout : list promo) : gsub := {|
  gs_name := name; gs_ins := map fst (pc_ins C); gs_outs := map fst (pc_outs C);
  gs_rel := fun I O => forall o k f i, assoc o (pc_outs C) = Some (k, f) -> (i < size n k)%nat -> O o i = vcompute C I o i;
  gs_pin := pin; gs_pout := pout
|}.

(** A group as a subsystem of another one: [ins] are its inputs not set inside,
    [outs] the outputs visible from outside. *)
Definition nested (name : string) (g : group) (ins outs : list string) (pin pout : list promo) : gsub := {|
  gs_name := name; gs_ins := ins; gs_outs := outs;
  gs_rel := fun I O => exists V, solution g V /\ (forall x i, In x ins -> V x i = I x i) /\ (forall o i, In o outs -> V o i = O o i);
  gs_pin := pin; gs_pout := pout
|}.
