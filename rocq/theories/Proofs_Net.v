(** Reading equations off a converged group. *)
From Coq Require Import Reals List Bool PeanoNat String Lia.
From Verif Require Import Base Py Model_Net.
Import ListNotations.

Lemma sol_comp G V n name C pin pout o k f i :
  solution G V -> In (comp n name C pin pout) (g_subs G) ->
  assoc o (pc_outs C) = Some (k, f) -> (i < size n k)%nat ->
  V (gname name pout o) i = f (node C (fun x => V (source G (gname name pin x))) i).
Proof.
  intros S I A Hi. specialize (S _ I). cbn [comp gs_rel gs_name gs_pin gs_pout] in S.
  unfold writes in S. cbn [comp gs_name gs_pout] in S. rewrite (S o k f i A Hi).
  unfold vcompute, nval. rewrite A. reflexivity.
Qed.

Lemma sol_rel G V s : solution G V -> In s (g_subs G) -> gs_rel s (reads G s V) (writes s V).
Proof. intros S I. exact (S s I). Qed.

(** ** Feed-forward groups
    Running the subsystems in order gives a solution, provided no subsystem reads
    what it or a later one writes. *)
Definition out_names (s : gsub) : list string := map (gname (gs_name s) (gs_pout s)) (gs_outs s).
Definition in_names (g : group) (s : gsub) : list string :=
  map (fun x => source g (gname (gs_name s) (gs_pin s) x)) (gs_ins s).
Definition run_step (g : group) (V : env) (p : gsub * (env -> env)) : env := fun x i =>
  match find (fun o => String.eqb x (gname (gs_name (fst p)) (gs_pout (fst p)) o)) (gs_outs (fst p)) with
  | Some o => snd p (reads g (fst p) V) o i
  | None => V x i
  end.
Definition run (g : group) (l : list (gsub * (env -> env))) (V : env) : env := fold_left (run_step g) l V.
Definition disjoint (l1 l2 : list string) : bool := forallb (fun x => negb (mem x l2)) l1.
Fixpoint ordered (g : group) (l : list gsub) : bool :=
  match l with
  | [] => true
  | s :: r => no_dup (out_names s) && disjoint (in_names g s) (flat_map out_names l) &&
              disjoint (out_names s) (flat_map out_names r) && ordered g r
  end.
(** [f] depends on the declared inputs only. *)
Definition local (s : gsub) (f : env -> env) : Prop := forall I I' o i,
  In o (gs_outs s) -> (forall x j, In x (gs_ins s) -> I x j = I' x j) -> f I o i = f I' o i.

Lemma mem_In x l : mem x l = true <-> In x l.
Proof.
  unfold mem. rewrite existsb_exists. split.
  - intros [y [H E]]. apply String.eqb_eq in E. now subst.
  - intro H. exists x. split; auto. apply String.eqb_refl.
Qed.
Lemma disjoint_spec l1 l2 x : disjoint l1 l2 = true -> In x l1 -> ~ In x l2.
Proof.
  unfold disjoint. rewrite forallb_forall. intros H I K. specialize (H x I).
  apply mem_In in K. rewrite K in H. discriminate.
Qed.
Lemma run_step_other g V p x i : ~ In x (out_names (fst p)) -> run_step g V p x i = V x i.
Proof.
  intro H. unfold run_step. destruct (find _ _) as [o|] eqn:F; auto. apply find_some in F. destruct F as [I E].
  apply String.eqb_eq in E. exfalso. apply H. subst. unfold out_names. apply (in_map (gname (gs_name (fst p)) (gs_pout (fst p)))). exact I.
Qed.
Lemma run_other g l V x i : ~ In x (flat_map out_names (map fst l)) -> run g l V x i = V x i.
Proof.
  revert V. induction l as [|p l IH]; intros V H; [reflexivity|]. cbn [run fold_left]. change (run g l (run_step g V p) x i = V x i).
  cbn [map flat_map] in H. rewrite IH by (intro K; apply H, in_or_app; now right).
  apply run_step_other. intro K. apply H, in_or_app. now left.
Qed.
Lemma no_dup_inj (f : string -> string) l o o' : no_dup (map f l) = true -> In o l -> In o' l -> f o = f o' -> o = o'.
Proof.
  induction l as [|y l IH]; [contradiction|]. cbn [map no_dup In]. intros H I I' E.
  apply andb_prop in H. destruct H as [H1 H2]. apply negb_true_iff in H1.
  assert (M : forall z, In z l -> f y <> f z).
  { intros z Hz K. assert (mem (f y) (map f l) = true) by (apply mem_In; rewrite K; now apply in_map). congruence. }
  destruct I as [<-|I], I' as [<-|I']; auto.
  - exfalso. exact (M _ I' E).
  - exfalso. exact (M _ I (eq_sym E)).
Qed.
Lemma run_step_writes g V p o i : no_dup (out_names (fst p)) = true -> In o (gs_outs (fst p)) ->
  run_step g V p (gname (gs_name (fst p)) (gs_pout (fst p)) o) i = snd p (reads g (fst p) V) o i.
Proof.
  intros N I. unfold run_step. set (gn := gname (gs_name (fst p)) (gs_pout (fst p))) in *.
  destruct (find _ _) as [o'|] eqn:F.
  - apply find_some in F. destruct F as [I' E]. apply String.eqb_eq in E.
    now rewrite (no_dup_inj gn _ o o' N I I' E).
  - exfalso. pose proof (find_none _ _ F o I) as K. cbv beta in K. rewrite String.eqb_refl in K. discriminate.
Qed.

Lemma feed_forward g l V0 : ordered g (map fst l) = true -> (forall p, In p l -> local (fst p) (snd p)) ->
  forall p o i, In p l -> In o (gs_outs (fst p)) ->
  writes (fst p) (run g l V0) o i = snd p (reads g (fst p) (run g l V0)) o i.
Proof.
  revert V0. induction l as [|q l IH]; intros V0 Hord Hloc p o i Hp Ho; [contradiction|].
  cbn [map ordered] in Hord. apply andb_prop in Hord. destruct Hord as [Hord O4]. apply andb_prop in Hord. destruct Hord as [Hord O3].
  apply andb_prop in Hord. destruct Hord as [O1 O2].
  cbn [run fold_left]. change (fold_left (run_step g) l (run_step g V0 q)) with (run g l (run_step g V0 q)).
  destruct Hp as [<-|Hp].
  - unfold writes. rewrite run_other.
    + rewrite run_step_writes by auto. apply (Hloc q (or_introl eq_refl)); auto.
      intros x j Hx. unfold reads.
      assert (A : In (source g (gname (gs_name (fst q)) (gs_pin (fst q)) x)) (in_names g (fst q))).
      { unfold in_names. apply (in_map (fun x => source g (gname (gs_name (fst q)) (gs_pin (fst q)) x))). exact Hx. }
      pose proof (disjoint_spec _ _ _ O2 A) as D. cbn [flat_map] in D.
      rewrite run_other by (intro K; apply D, in_or_app; now right).
      rewrite run_step_other; auto. intro K. apply D, in_or_app. now left.
    + apply (disjoint_spec _ _ _ O3). unfold out_names. apply (in_map (gname (gs_name (fst q)) (gs_pout (fst q)))). exact Ho.
  - apply IH; auto. intros; apply Hloc; now right.
Qed.

(** An explicit component is local when its expressions are. *)
Definition local_comp (C : pcomp) : Prop := forall o k f e e', assoc o (pc_outs C) = Some (k, f) ->
  (forall x, In x (map fst (pc_ins C)) -> e x = e' x) -> f e = f e'.
Lemma comp_local n name C pin pout : local_comp C -> local (comp n name C pin pout) (vcompute C).
Proof.
  intros L I I' o i Ho Hx. cbn [comp gs_outs gs_ins] in Ho, Hx. unfold vcompute, nval.
  destruct (assoc o (pc_outs C)) as [[k f]|] eqn:A; [|reflexivity].
  apply (L _ _ _ _ _ A). intros x H. unfold node. destruct (assoc x (pc_ins C)) as [[|]|]; apply Hx; auto.
Qed.
Lemma comp_rel n name C pin pout I O : (forall o i, In o (map fst (pc_outs C)) -> O o i = vcompute C I o i) ->
  gs_rel (comp n name C pin pout) I O.
Proof.
  intros H o k f i A _. apply H. apply assoc_In in A. apply (in_map fst) in A. exact A.
Qed.

(** Groups that promote everything. *)
Lemma glob_star x : glob "*" x = true.
Proof.
  cbn [glob Ascii.eqb Bool.eqb]. induction x as [|c x IH]; [reflexivity|]. cbn [orb] in *. exact IH.
Qed.
Lemma gname_star name x : gname name [P "*"] x = x.
Proof. unfold gname, promoted. cbn [find existsb promo_match]. rewrite glob_star. reflexivity. Qed.
Lemma star_comp G V n name C o k f i : g_conns G = [] -> solution G V -> In (comp n name C [P "*"] [P "*"]) (g_subs G) ->
  assoc o (pc_outs C) = Some (k, f) -> (i < size n k)%nat -> V o i = f (node C V i).
Proof.
  intros HG S I A Hi. pose proof (sol_comp G V n name C _ _ o k f i S I A Hi) as B. rewrite gname_star in B. rewrite B.
  f_equal. unfold node. apply FunctionalExtensionality.functional_extensionality. intro x. unfold source. rewrite HG. cbn [find].
  now rewrite gname_star.
Qed.
Lemma star_reads G V s x : g_conns G = [] -> gs_pin s = [P "*"] -> reads G s V x = V x.
Proof. intros HG Hp. unfold reads, source. rewrite HG, Hp. cbn [find]. now rewrite gname_star. Qed.
Lemma star_writes V s x : gs_pout s = [P "*"] -> writes s V x = V x.
Proof. intros Hp. unfold writes. now rewrite Hp, gname_star. Qed.
Lemma star_rel_env G V s : g_conns G = [] -> gs_pin s = [P "*"] -> gs_pout s = [P "*"] -> solution G V -> In s (g_subs G) ->
  gs_rel s V V.
Proof.
  intros HG Hi Ho S I. pose proof (S s I) as R. 
  replace (reads G s V) with V in R by (apply FunctionalExtensionality.functional_extensionality; intro x; symmetry; now apply star_reads).
  replace (writes s V) with V in R by (apply FunctionalExtensionality.functional_extensionality; intro x; symmetry; now apply star_writes).
  exact R.
Qed.
