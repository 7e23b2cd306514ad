(** Proofs about DictIndepVarComp and DVLabel. *)
From Coq Require Import Reals List Bool PeanoNat String Ascii Lra Lia.
From Coquelicot Require Import Coquelicot.
From Verif Require Import Base Py Model_Algebra Spec_Algebra Proofs_Algebra Model_Data Spec_Data.
Import ListNotations.
Open Scope R_scope.

Lemma split_on_nonempty sep s : split_on sep s <> [].
Proof. destruct s; simpl; [discriminate|]. destruct (Ascii.eqb a sep); [discriminate|]. destruct (split_on sep s); discriminate. Qed.

Lemma split_plain sep k : contains_char sep k = false -> split_on sep k = [k].
Proof.
  induction k as [|c k IH]; simpl; auto. intro H. apply orb_false_iff in H. destruct H as [H1 H2].
  rewrite H1, IH; auto.
Qed.
Lemma split_prefix sep k rest : contains_char sep k = false ->
  split_on sep (k ++ String sep rest)%string = k :: split_on sep rest.
Proof.
  induction k as [|c k IH]; simpl; intro H.
  - now rewrite Ascii.eqb_refl.
  - apply orb_false_iff in H. destruct H as [H1 H2]. rewrite H1, IH; auto.
Qed.
Lemma split_join sep ks : ks <> [] -> (forall k, In k ks -> contains_char sep k = false) ->
  split_on sep (join sep ks) = ks.
Proof.
  induction ks as [|k ks IH]; intros Hne H; [tauto|]. destruct ks as [|k' ks].
  - simpl. apply split_plain. apply H. now left.
  - cbn [join]. rewrite split_prefix by (apply H; now left). f_equal.
    apply IH; [discriminate|]. intros; apply H; now right.
Qed.

Lemma fold_err (e : pyerr) ks : fold_left (fun acc k => res_bind acc (fun v => subscript v k)) ks (Err e) = Err e.
Proof. induction ks; simpl; auto. Qed.

Lemma walk_iff d ks v : walk d ks = Ok v <-> at_path d ks v.
Proof.
  unfold walk. revert d. induction ks as [|k ks IH]; intro d; simpl.
  - split; intro H; [injection H as ->; constructor|]. inversion H; auto.
  - destruct d; simpl; try (rewrite fold_err; split; [discriminate|intro H; inversion H]).
    destruct (assoc k l) as [a|] eqn:E.
    + rewrite IH. split; intro H; [econstructor; eauto|]. inversion H; subst. congruence.
    + rewrite fold_err. split; [discriminate|]. intro H. inversion H; subst. congruence.
Qed.

Lemma walk_missing d ks1 k ks2 l : at_path d ks1 (PDict l) -> assoc k l = None ->
  walk d (ks1 ++ k :: ks2) = Err KeyError.
Proof.
  intros H Hk. apply walk_iff in H. unfold walk in *. rewrite fold_left_app, H. simpl. rewrite Hk. apply fold_err.
Qed.
Lemma walk_leaf d ks1 k ks2 v : at_path d ks1 v -> is_leaf v = true ->
  walk d (ks1 ++ k :: ks2) = Err (match v with PArr _ => IndexError | _ => TypeError end).
Proof.
  intros H Hk. apply walk_iff in H. unfold walk in *. rewrite fold_left_app, H. simpl.
  destruct v; simpl in *; try discriminate; apply fold_err.
Qed.

Lemma dict_publish d sep outs ks l v u : ks <> [] -> (forall k, In k ks -> contains_char sep k = false) ->
  at_path d ks (PDict l) -> stored_value l v -> stored_units l u ->
  ~ In (join sep ks) (map (fun o => fst (fst o)) outs) ->
  add_from_dict d sep outs (join sep ks) = ((outs ++ [(join sep ks, v, u)])%list, Ok tt).
Proof.
  intros Hne Hs Hp Hv Hu Hn. unfold add_from_dict. rewrite split_join by auto.
  apply walk_iff in Hp. rewrite Hp. cbn [res_bind].
  destruct Hv as [[x [Hx ->]]|Hx]; cbn [subscript]; rewrite Hx; cbn [res_bind].
  all: assert (Hgu : get_units (PDict l) = Ok u)
    by (unfold get_units; unfold stored_units in Hu; destruct (assoc "units"%string l) as [[]|]; try contradiction; subst; auto).
  all: rewrite Hgu; cbn [res_bind get_value].
  all: destruct (existsb _ outs) eqn:Ex; auto.
  all: exfalso; apply Hn; apply existsb_exists in Ex; destruct Ex as [o [Ho He]];
    apply String.eqb_eq in He; rewrite <- He; now apply (in_map (fun o => fst (fst o))).
Qed.

Lemma dict_ok_only d sep outs name outs' : add_from_dict d sep outs name = (outs', Ok tt) ->
  exists l v u, at_path d (split_on sep name) (PDict l) /\ stored_value l v /\ stored_units l u /\
    outs' = (outs ++ [(name, v, u)])%list.
Proof.
  unfold add_from_dict. destruct (walk d (split_on sep name)) as [leaf|] eqn:W; cbn [res_bind]; [|discriminate].
  apply walk_iff in W. destruct leaf; cbn [subscript res_bind]; try discriminate.
  destruct (assoc "value"%string l) as [v|] eqn:V; cbn [res_bind]; [|discriminate].
  destruct (get_units (PDict l)) as [u|] eqn:U; cbn [res_bind]; [|discriminate].
  assert (Hu : stored_units l u).
  { unfold get_units in U. unfold stored_units. destruct (assoc "units"%string l) as [[]|]; congruence. }
  destruct v; cbn [get_value res_bind]; try discriminate.
  all: destruct (existsb (fun o => String.eqb (fst (fst o)) name) outs); [discriminate|]; intro H; inversion H; subst.
  - exists l, [x], u. repeat split; auto. left. exists x. auto.
  - exists l, l0, u. repeat split; auto. now right.
Qed.

Lemma dict_missing d sep outs ks1 k ks2 l : (forall x, In x (ks1 ++ k :: ks2) -> contains_char sep x = false) ->
  at_path d ks1 (PDict l) -> assoc k l = None ->
  add_from_dict d sep outs (join sep (ks1 ++ k :: ks2)) = (outs, Err KeyError).
Proof.
  intros Hs Hp Hk. unfold add_from_dict. rewrite split_join; auto.
  - rewrite (walk_missing d ks1 k ks2 l) by auto. reflexivity.
  - destruct ks1; discriminate.
Qed.
Lemma dict_no_value d sep outs ks l : ks <> [] -> (forall x, In x ks -> contains_char sep x = false) ->
  at_path d ks (PDict l) -> assoc "value"%string l = None ->
  add_from_dict d sep outs (join sep ks) = (outs, Err KeyError).
Proof.
  intros Hne Hs Hp Hk. unfold add_from_dict. rewrite split_join by auto. apply walk_iff in Hp. rewrite Hp.
  cbn [res_bind subscript]. rewrite Hk. reflexivity.
Qed.
Lemma dict_error_adds_nothing d sep outs name outs' e :
  add_from_dict d sep outs name = (outs', Err e) -> outs' = outs.
Proof.
  unfold add_from_dict. destruct (res_bind _ _); intro H; inversion H; auto.
Qed.
Lemma dict_through_leaf d sep outs ks1 k ks2 v : (forall x, In x (ks1 ++ k :: ks2) -> contains_char sep x = false) ->
  at_path d ks1 v -> is_leaf v = true ->
  exists e, add_from_dict d sep outs (join sep (ks1 ++ k :: ks2)) = (outs, Err e) /\ e <> KeyError.
Proof.
  intros Hs Hp Hk. unfold add_from_dict. rewrite split_join; auto.
  - rewrite (walk_leaf d ks1 k ks2 v) by auto. eexists; split; [reflexivity|]. destruct v; discriminate.
  - destruct ks1; discriminate.
Qed.

(** ** DVLabel *)
Lemma dv_init_n_sizes n e : dv_sizes (Nat.iter n dv_append e) = (dv_sizes e ++ repeat (List.length (dv_val e)) n)%list
  /\ dv_in (Nat.iter n dv_append e) = dv_in e /\ dv_out (Nat.iter n dv_append e) = dv_out e
  /\ dv_val (Nat.iter n dv_append e) = dv_val e /\ dv_units (Nat.iter n dv_append e) = dv_units e.
Proof.
  induction n; simpl.
  - rewrite app_nil_r. auto.
  - destruct IHn as [H1 [H2 [H3 [H4 H5]]]]. rewrite H1, H2, H3, H4, H5, <- app_assoc.
    repeat split. f_equal. rewrite <- repeat_cons. reflexivity.
Qed.

Lemma dv_reuse n e : dv_sizes e = [] ->
  dv_decl (Nat.iter (S n) dv_append e) = Ok (dv_in e, dv_out e, dv_val e, dv_units e, List.length (dv_val e)).
Proof.
  intro H. unfold dv_decl, dv_size.
  destruct (dv_init_n_sizes (S n) e) as [-> [-> [-> [-> ->]]]]. rewrite H. reflexivity.
Qed.

Lemma dv_jac_ok n e E r c : dv_sizes e = [] ->
  (r < List.length (dv_val e))%nat -> (c < List.length (dv_val e))%nat ->
  exists J, dv_jac (Nat.iter (S n) dv_append e) r c = Ok J /\
    is_derive (fun t => dv_compute (Nat.iter (S n) dv_append e) (updE E (dv_in e) c t) r) (E (dv_in e) c) J.
Proof.
  intros Hs Hr Hc. unfold dv_jac, dv_size, dv_compute.
  destruct (dv_init_n_sizes (S n) e) as [-> [-> _]]. rewrite Hs. simpl. eexists; split; [reflexivity|].
  evar_last; [apply updE_derive|]. rewrite String.eqb_refl. simpl.
  apply Nat.ltb_lt in Hr. rewrite Hr, andb_true_r, Nat.eqb_sym. reflexivity.
Qed.
