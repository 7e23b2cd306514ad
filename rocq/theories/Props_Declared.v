(** C62: every component declares what it uses. *)
From Coq Require Import List String FunctionalExtensionality.
From Verif Require Import Base Py Model_Atmos Model_Phases Model_Propulsion Model_Aero Model_Tank Model_Thermal Model_HX Model_Ducts Model_HeatPipe Model_Weights Model_Drag Model_Polar Model_Net Spec_Declared.
Import ListNotations.
Open Scope R_scope.
Open Scope string_scope.

(** Checking by computation: [f] applied to an environment in which everything but the
    allowed names is erased. *)
Definition only (l : list string) (e : nenv) : nenv := fun x => if mem x l then e x else 0.
Definition readable (k : kind) (C : pcomp) : list string :=
  map fst (filter (fun x => match k, snd x with Sca, Vec => false | _, _ => true end) (pc_ins C)).
Definition keys (C : pcomp) : list (string * string) := map fst (pc_J C).
Definition pair_eqb (a b : string * string) : bool := String.eqb (fst a) (fst b) && String.eqb (snd a) (snd b).
Fixpoint no_dup2 (l : list (string * string)) : bool :=
  match l with [] => true | x :: r => negb (existsb (pair_eqb x) r) && no_dup2 r end.
Definition declared (C : pcomp) : bool :=
  no_dup (map fst (pc_ins C)) && no_dup (map fst (pc_outs C)) && no_dup2 (keys C) &&
  forallb (fun k => mem (fst k) (map fst (pc_outs C)) && mem (snd k) (map fst (pc_ins C))) (keys C).
Lemma mem_spec x l : mem x l = true <-> In x l.
Proof.
  unfold mem. rewrite existsb_exists. split; [intros (y & H & E); apply String.eqb_eq in E; now subst|].
  intro H. exists x. split; [exact H|apply String.eqb_refl].
Qed.
Lemma no_dup_spec l : no_dup l = true -> NoDup l.
Proof.
  induction l as [|x l IH]; [constructor|]. cbn [no_dup]. intro H. apply andb_prop in H. destruct H as [H1 H2].
  constructor; [|auto]. intro H. apply mem_spec in H. rewrite H in H1. discriminate.
Qed.
Lemma no_dup2_spec l : no_dup2 l = true -> NoDup l.
Proof.
  induction l as [|x l IH]; [constructor|]. cbn [no_dup2]. intro H. apply andb_prop in H. destruct H as [H1 H2].
  constructor; [|auto]. intro H. apply Bool.negb_true_iff in H1. apply Bool.not_true_iff_false in H1. apply H1.
  apply existsb_exists. exists x. split; [exact H|]. unfold pair_eqb. now rewrite !String.eqb_refl.
Qed.
Lemma only_agree l e e' : (forall x, In x l -> e x = e' x) -> only l e = only l e'.
Proof.
  intro H. apply functional_extensionality. intro x. unfold only. destruct (mem x l) eqn:M; [|reflexivity]. apply H. now apply mem_spec.
Qed.
Lemma declared_ok C : declared C = true ->
  List.Forall (fun o => forall e, snd (snd o) e = snd (snd o) (only (readable (fst (snd o)) C) e)) (pc_outs C) ->
  List.Forall (fun j => forall e, snd j e = snd j (only (map fst (pc_ins C)) e)) (pc_J C) -> well_declared C.
Proof.
  unfold declared. rewrite !Bool.andb_true_iff. intros [[[D1 D2] D3] D4] HO HJ. constructor.
  - now apply no_dup_spec.
  - now apply no_dup_spec.
  - intros o x g H. rewrite forallb_forall in D4. specialize (D4 (o, x)). unfold keys in D4.
    specialize (D4 (in_map fst _ _ H)). apply andb_prop in D4. cbn [fst snd] in D4. rewrite !mem_spec in D4. exact D4.
  - apply no_dup2_spec. exact D3.
  - intros o k f e e' H A. rewrite List.Forall_forall in HO. specialize (HO _ H). cbn [fst snd] in HO.
    rewrite (HO e), (HO e'). f_equal. apply only_agree. intros x Hx. unfold readable in Hx. apply in_map_iff in Hx.
    destruct Hx as ([y ky] & <- & Hy). apply filter_In in Hy. destruct Hy as [Hy K]. cbn [fst snd] in *. apply (A y ky Hy).
    intros ->. destruct ky; [discriminate|reflexivity].
  - intros o x g e e' H A. rewrite List.Forall_forall in HJ. specialize (HJ _ H). cbn [fst snd] in HJ.
    rewrite (HJ e), (HJ e'). f_equal. apply only_agree. intros y Hy. apply in_map_iff in Hy. destruct Hy as ([z kz] & <- & Hz). exact (A z kz Hz).
Qed.
Lemma cs_partials_in ins outs o x g : In (o, x, g) (cs_partials ins outs) ->
  exists k f, In (o, (k, f)) outs /\ In x (map fst ins) /\ g = cs f x.
Proof.
  unfold cs_partials. intro H. apply in_flat_map in H. destruct H as ([o' [k f]] & Ho & H). apply in_map_iff in H.
  destruct H as ([y ky] & E & Hy). cbn [fst snd] in *. injection E as <- <- <-. exists k, f. split; [exact Ho|]. split; [|reflexivity].
  apply (in_map fst) in Hy. exact Hy.
Qed.
Lemma declared_cs_ok ins outs : let C := {| pc_ins := ins; pc_outs := outs; pc_J := cs_partials ins outs |} in
  declared C = true -> List.Forall (fun o => forall e, snd (snd o) e = snd (snd o) (only (readable (fst (snd o)) C) e)) outs -> well_declared C.
Proof.
  intros C D HO. assert (L : forall o k f e e', In (o, (k, f)) outs -> (forall x, In x (map fst ins) -> e x = e' x) -> f e = f e').
  { intros o k f e e' H A. rewrite List.Forall_forall in HO. specialize (HO _ H). cbn [fst snd] in HO.
    rewrite (HO e), (HO e'). f_equal. apply only_agree. intros x Hx. apply A. unfold readable in Hx. apply in_map_iff in Hx.
    destruct Hx as (y & <- & Hy). apply filter_In in Hy. apply in_map. exact (proj1 Hy). }
  apply declared_ok; [exact D|exact HO|].
  apply List.Forall_forall. intros [[o x] g] H. apply cs_partials_in in H. destruct H as (k & f & Ho & Hx & ->). intro e. cbn [fst snd].
  assert (A : forall y, In y (map fst ins) -> e y = only (map fst ins) e y).
  { intros y Hy. unfold only. apply mem_spec in Hy. now rewrite Hy. }
  unfold cs. cbn [pc_ins C]. rewrite <- (A x Hx). apply Derive_ext. intro t. apply (L o k f _ _ Ho). intros y Hy. unfold upd.
  destruct (String.eqb x y); [reflexivity|apply A, Hy].
Qed.
Ltac peel := repeat first [apply List.Forall_nil|apply List.Forall_cons]; let e := fresh "e" in intro e; reflexivity.
Ltac declared_by := first
  [apply declared_cs_ok; [reflexivity|peel]
  |apply declared_ok; [reflexivity|peel|peel]].
(** No name is declared twice or forgotten, and scalar outputs are computed from scalars. *)
Theorem C62_declarations C : shipped C -> well_declared C /\ explicit C.
Proof.
  intro H. split.
  - destruct H; declared_by.
  - assert (D : forallb (fun x => negb (mem x (map fst (pc_outs C)))) (map fst (pc_ins C)) = true) by (destruct H; reflexivity).
    rewrite forallb_forall in D. intros x Hx K. apply D in Hx. apply mem_spec in K. rewrite K in Hx. discriminate.
Qed.
Print Assumptions C62_declarations.
Theorem C62_residuals C : shipped_residual C -> well_declared C /\ residual C.
Proof.
  intro H. split; [destruct H; declared_by|]. destruct H; intros x Hx; cbn in *; intuition.
Qed.
Print Assumptions C62_residuals.

(** So outputs are determined by the declared inputs: two runs whose inputs agree, entry
    by entry up to the declared sizes, give the same outputs and the same Jacobian. *)
Theorem C62_determined C n E E' : shipped C \/ shipped_residual C -> (0 < n)%nat ->
  (forall x k j, assoc x (pc_ins C) = Some k -> (j < size n k)%nat -> E x j = E' x j) ->
  (forall o k f i, assoc o (pc_outs C) = Some (k, f) -> (i < size n k)%nat -> vcompute C E o i = vcompute C E' o i) /\
  (forall o x r c, (r < n)%nat -> vjac C E o r x c = vjac C E' o r x c).
Proof.
  intros HC Hn A. assert (W : well_declared C) by (destruct HC as [H|H]; [apply C62_declarations, H|apply C62_residuals, H]). destruct W as [N1 N2 _ _ WR WJ].
  assert (IA : forall x k, In (x, k) (pc_ins C) -> assoc x (pc_ins C) = Some k).
  { clear -N1. induction (pc_ins C) as [|[y b] l IH]; [contradiction|]. cbn [assoc map fst] in *. inversion N1; subst.
    intros x k [H|H]; [injection H as -> ->; now rewrite String.eqb_refl|].
    destruct (String.eqb_spec x y) as [->|]; [|auto]. exfalso. apply H1. apply (in_map fst) in H. exact H. }
  assert (NA : forall i, (i < n)%nat -> forall y ky, In (y, ky) (pc_ins C) -> node C E i y = node C E' i y).
  { intros i Hi y ky Hy. unfold node. rewrite (IA _ _ Hy). destruct ky; apply (A y _ _ (IA _ _ Hy)); cbn; lia. }
  split.
  - intros o k f i Ho Hi. unfold vcompute, nval. rewrite Ho. apply (WR o k f); [now apply assoc_In|]. intros x kx Hx _. apply (NA i) with kx; [|exact Hx].
    destruct k; cbn in Hi; lia.
  - intros o x r c Hr. assert (J : njac C o x (node C E r) = njac C o x (node C E' r)).
    { unfold njac. destruct (assoc2 o x (pc_J C)) as [g|] eqn:G; [|reflexivity]. apply (WJ o x g).
      - clear -G. induction (pc_J C) as [|[[a b] h] l IH]; [discriminate|]. cbn [assoc2] in G.
        destruct (String.eqb_spec o a) as [->|]; [|right; auto]. destruct (String.eqb_spec x b) as [->|]; [|right; auto]. injection G as ->. left; reflexivity.
      - exact (NA r Hr). }
    unfold vjac. rewrite J. reflexivity.
Qed.
Print Assumptions C62_determined.

(** The hose is the one component whose scalar output reads a vector: its weight uses
    the coolant's density at the first node, and nothing else of the vectors. *)
Theorem C62_hose sigma rho E E' :
  (forall x, In x ["hose_diameter"; "hose_length"; "hose_design_pressure"; "rho_coolant"] -> E x 0%nat = E' x 0%nat) ->
  vcompute (SimpleHose sigma rho) E "component_weight" 0 = vcompute (SimpleHose sigma rho) E' "component_weight" 0.
Proof.
  intro A. unfold vcompute, nval, SimpleHose. cbn [pc_outs assoc String.eqb Ascii.eqb Bool.eqb]. unfold node; cbn [pc_ins assoc String.eqb Ascii.eqb Bool.eqb].
  rewrite (A "hose_diameter"), (A "hose_length"), (A "hose_design_pressure"), (A "rho_coolant") by (cbn; tauto). reflexivity.
Qed.
Print Assumptions C62_hose.
(** A component that forgot to declare an input would not be well declared. *)
Definition forgetful : pcomp := {|
  pc_ins := [("a", Vec)]; pc_outs := [("b", (Vec, fun e : nenv => e "a" + e "c"))]; pc_J := [] |}.
Example C62_rejects : ~ well_declared forgetful.
Proof.
  intros [_ _ _ _ W _]. specialize (W "b" Vec _ (fun _ => 0) (fun x => if String.eqb x "c" then 1 else 0) (or_introl eq_refl)).
  cbn in W. enough (0 + 0 = 0 + 1) by lra. apply W. intros x kx [H|[]] _. injection H as <- <-. reflexivity.
Qed.
