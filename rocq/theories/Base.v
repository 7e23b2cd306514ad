(** Common vocabulary of the model.

    An OpenMDAO [ExplicitComponent] of OpenConcept reads named inputs and writes
    named outputs; each is a vector of [num_nodes] entries ([shape=(nn,)]) or a
    scalar.  This file defines such components, the values they compute, the
    Jacobian OpenMDAO assembles from [declare_partials], and the specification
    [jac_correct] that this Jacobian is the derivative. *)
From Coq Require Export Reals String List Lra Lia Bool PeanoNat.
From Coquelicot Require Export Coquelicot.
Export ListNotations.
Open Scope R_scope.
Open Scope string_scope.

(** [Vec]: declared with [shape=(nn,)].  [Sca]: declared without a shape. *)
Inductive kind := Vec | Sca.

(** Values of all input variables: name -> index -> value. *)
Definition env := string -> nat -> R.
(** Values of all input variables as seen by one node. *)
Definition nenv := string -> R.

Definition size (n : nat) (k : kind) : nat := match k with Vec => n | Sca => 1%nat end.

Fixpoint assoc {A} (x : string) (l : list (string * A)) : option A :=
  match l with
  | [] => None
  | (y, a) :: l' => if String.eqb x y then Some a else assoc x l'
  end.

Fixpoint assoc2 {A} (o x : string) (l : list (string * string * A)) : option A :=
  match l with
  | [] => None
  | (o', x', a) :: l' =>
      if String.eqb o o' then if String.eqb x x' then Some a else assoc2 o x l'
      else assoc2 o x l'
  end.

(** A component whose outputs are computed node by node.
    [pc_outs] gives for each output its shape and the expression assigned to
    [outputs[name]] in [compute]; [pc_J] gives, for each pair named in
    [declare_partials], the expression assigned to [J[of, wrt]] (or the [val=]
    of a constant declaration). *)
Record pcomp := {
  pc_ins  : list (string * kind);
  pc_outs : list (string * (kind * (nenv -> R)));
  pc_J    : list (string * string * (nenv -> R))
}.

(** numpy broadcasting: a vector input contributes its own node, a scalar input
    contributes its single entry to every node. *)
Definition node (C : pcomp) (E : env) (i : nat) : nenv := fun x =>
  match assoc x (pc_ins C) with
  | Some Vec => E x i
  | _ => E x 0%nat
  end.

Definition nval (C : pcomp) (o : string) (e : nenv) : R :=
  match assoc o (pc_outs C) with Some (_, f) => f e | None => 0 end.

(** Entry [i] of output [o]. *)
Definition vcompute (C : pcomp) (E : env) (o : string) (i : nat) : R :=
  nval C o (node C E i).

Definition njac (C : pcomp) (o x : string) (e : nenv) : R :=
  match assoc2 o x (pc_J C) with Some g => g e | None => 0 end.

(** Entry (row [r], column [c]) of the Jacobian of [o] w.r.t. [x] as OpenMDAO
    assembles it: [rows = cols = arange(nn)] for vector inputs,
    [cols = zeros(nn)] for scalar inputs, zero for pairs never declared. *)
Definition vjac (C : pcomp) (E : env) (o : string) (r : nat) (x : string) (c : nat) : R :=
  match assoc x (pc_ins C) with
  | Some Vec => if Nat.eqb r c then njac C o x (node C E r) else 0
  | _ => njac C o x (node C E r)
  end.

(** Change one entry of one input. *)
Definition updE (E : env) (x : string) (c : nat) (t : R) : env := fun y j =>
  if String.eqb x y then (if Nat.eqb c j then t else E y j) else E y j.

Definition upd (e : nenv) (x : string) (t : R) : nenv := fun y =>
  if String.eqb x y then t else e y.

(** Specification: every entry of the assembled Jacobian is the derivative of
    the corresponding output entry with respect to the corresponding input
    entry, all other inputs held fixed. *)
Definition jac_correct (n : nat) (C : pcomp) (E : env) : Prop :=
  forall o ko f x kx r c,
    assoc o (pc_outs C) = Some (ko, f) ->
    assoc x (pc_ins C) = Some kx ->
    (r < size n ko)%nat -> (c < size n kx)%nat ->
    is_derive (fun t => vcompute C (updE E x c t) o r) (E x c) (vjac C E o r x c).

(** Node-wise obligation from which [jac_correct] follows. *)
Definition node_jac_ok (C : pcomp) (e : nenv) : Prop :=
  List.Forall (fun ok => List.Forall (fun xk =>
    is_derive (fun t => nval C (fst ok) (upd e (fst xk) t)) (e (fst xk))
              (njac C (fst ok) (fst xk) e)) (pc_ins C)) (pc_outs C).

Lemma assoc_In {A} x (l : list (string * A)) a : assoc x l = Some a -> In (x, a) l.
Proof.
  induction l as [|[y b] l IH]; simpl; [discriminate|].
  destruct (String.eqb_spec x y); intro H.
  - inversion H; subst; now left.
  - right; auto.
Qed.

Lemma node_updE_hit C E x c t r kx :
  assoc x (pc_ins C) = Some kx -> (kx = Vec -> r = c) -> (kx = Sca -> c = 0%nat) ->
  node C (updE E x c t) r = upd (node C E r) x t.
Proof.
  intros Hx Hv Hs. apply FunctionalExtensionality.functional_extensionality. intro y.
  unfold node, updE, upd. destruct (String.eqb_spec x y) as [<-|Hne].
  - rewrite Hx. destruct kx.
    + rewrite (Hv eq_refl), Nat.eqb_refl. reflexivity.
    + rewrite (Hs eq_refl). reflexivity.
  - reflexivity.
Qed.

Lemma node_updE_miss C E x c t r :
  assoc x (pc_ins C) = Some Vec -> r <> c -> node C (updE E x c t) r = node C E r.
Proof.
  intros Hx Hne. apply FunctionalExtensionality.functional_extensionality. intro y.
  unfold node, updE. destruct (String.eqb_spec x y) as [<-|Hy]; [|reflexivity].
  rewrite Hx. destruct (Nat.eqb_spec c r); [congruence|reflexivity].
Qed.

Lemma node_at C E x kx r : assoc x (pc_ins C) = Some kx ->
  node C E r x = E x (match kx with Vec => r | Sca => 0%nat end).
Proof. intro H. unfold node. rewrite H. now destruct kx. Qed.

Lemma jac_correct_lift n C E :
  (0 < n)%nat ->
  (forall i, (i < n)%nat -> node_jac_ok C (node C E i)) ->
  jac_correct n C E.
Proof.
  intros Hn H o ko f x kx r c Ho Hx Hr Hc.
  assert (Hrn : (r < n)%nat) by (destruct ko; simpl in Hr; lia).
  specialize (H r Hrn). unfold node_jac_ok in H. rewrite Forall_forall in H.
  specialize (H _ (assoc_In _ _ _ Ho)). rewrite Forall_forall in H.
  specialize (H _ (assoc_In _ _ _ Hx)). cbn [fst] in H.
  unfold vcompute, vjac. rewrite Hx.
  destruct kx.
  - destruct (Nat.eqb_spec r c) as [<-|Hne].
    + rewrite (node_at _ _ _ _ r Hx) in H. 
      eapply is_derive_ext; [|exact H].
      intro t. rewrite (node_updE_hit _ _ _ _ _ _ _ Hx); congruence.
    + eapply is_derive_ext; [|apply (is_derive_const (nval C o (node C E r)))].
      intro t. now rewrite node_updE_miss.
  - assert (c = 0%nat) by (simpl in Hc; lia). subst c.
    rewrite (node_at _ _ _ _ r Hx) in H.
    eapply is_derive_ext; [|exact H].
    intro t. rewrite (node_updE_hit _ _ _ _ _ _ _ Hx); congruence.
Qed.

(** Reduce concrete name lookups. *)
Ltac names :=
  cbn [nval njac assoc assoc2 upd node vcompute pc_ins pc_outs pc_J fst snd
       String.eqb Ascii.eqb Bool.eqb size].
Ltac names_in H :=
  cbn [nval njac assoc assoc2 upd node vcompute pc_ins pc_outs pc_J fst snd
       String.eqb Ascii.eqb Bool.eqb size] in H.

(** Split a [node_jac_ok] goal of a concrete component into one derivative goal
    per (output, input) pair. *)
Ltac split_jac C :=
  unfold node_jac_ok, C; cbn [pc_outs pc_ins];
  repeat (apply Forall_cons; [repeat (apply Forall_cons; [|]); try apply Forall_nil|]);
  try apply Forall_nil;
  unfold nval, njac, upd; names.
