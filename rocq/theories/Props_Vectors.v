(** Property theorems C14-C19 and C34 (vector and data utilities). *)
From Coq Require Import Reals List Bool PeanoNat String Ascii ZArith Lra Lia.
From Coquelicot Require Import Coquelicot.
From Verif Require Import Base Py RSum Model_Algebra Spec_Algebra Model_Vectors Spec_Integrals Proofs_Algebra Proofs_Vectors.
From Verif Require Import Model_Data Spec_Data Proofs_Data.
Import ListNotations.
Open Scope R_scope.

(** ** C14.  [nth i sizes * len] entries belong to piece [i]. *)
Theorem C14_split_undoes_concatenate :
  forall s E i, List.length (cs_sizes s) = List.length (cs_many s) -> (i < List.length (cs_many s))%nat ->
    split_compute s (fun r => nth r (concat_compute s E) 0) i =
    map (E (nth i (cs_many s) ""%string)) (seq 0 (nth i (cs_sizes s) 0%nat * cs_len s)).
Proof. exact split_concat. Qed.
Print Assumptions C14_split_undoes_concatenate.

Theorem C14_concatenate_undoes_split :
  forall s X E, List.length (cs_sizes s) = List.length (cs_many s) ->
    (forall i, (i < List.length (cs_many s))%nat -> forall k, (k < nth i (cs_sizes s) 0 * cs_len s)%nat ->
       E (nth i (cs_many s) ""%string) k = nth k (split_compute s X i) 0) ->
    concat_compute s E = map X (seq 0 (list_sum (cs_sizes s) * cs_len s)).
Proof. exact concat_split. Qed.
Print Assumptions C14_concatenate_undoes_split.

Theorem C14_pieces_in_order :
  forall s E, List.length (cs_sizes s) = List.length (cs_many s) ->
    concat_compute s E = concat (map (fun i => map (E (nth i (cs_many s) ""%string))
                                   (seq 0 (nth i (cs_sizes s) 0%nat * cs_len s))) (seq 0 (List.length (cs_many s)))).
Proof.
  intros s E H. rewrite concat_flat. rewrite (combine_nth_seq _ _ ""%string 0%nat) by auto.
  rewrite flat_map_concat_map, map_map. reflexivity.
Qed.
Print Assumptions C14_pieces_in_order.

Theorem C14_concatenate_jacobian :
  forall s E i r c, List.length (cs_sizes s) = List.length (cs_many s) -> NoDup (cs_many s) ->
    (i < List.length (cs_many s))%nat ->
    (r < list_sum (cs_sizes s) * cs_len s)%nat -> (c < nth i (cs_sizes s) 0 * cs_len s)%nat ->
    let x := nth i (cs_many s) ""%string in
    is_derive (fun t => nth r (concat_compute s (updE E x c t)) 0) (E x c) (concat_jac s i r c).
Proof. exact concat_jac_ok. Qed.
Print Assumptions C14_concatenate_jacobian.

Theorem C14_split_jacobian :
  forall s X i r c, (i < List.length (cs_sizes s))%nat -> (r < nth i (cs_sizes s) 0 * cs_len s)%nat ->
    is_derive (fun t => nth r (split_compute s (updv X c t) i) 0) (X c) (split_jac s i r c).
Proof. exact split_jac_ok. Qed.
Print Assumptions C14_split_jacobian.

Theorem C14_accepted_calls :
  forall l, cs_setup l = Ok tt <->
    List.Forall (fun s => List.length (cs_sizes s) = List.length (cs_many s)) l /\
    NoDup (concat (map (fun s => cs_one s :: cs_many s) l)).
Proof. exact cs_setup_iff. Qed.
Print Assumptions C14_accepted_calls.

Definition ex_cs : cs_sys := {| cs_one := "z"; cs_many := ["a"; "b"]%string; cs_sizes := [2; 3]%nat; cs_len := 2 |}.
Example C14_hypotheses_met : cs_setup [ex_cs] = Ok tt /\
  concat_compute ex_cs (fun x k => if String.eqb x "a" then INR k else 10 * INR k)
  = [INR 0; INR 1; INR 2; INR 3; 10 * INR 0; 10 * INR 1; 10 * INR 2; 10 * INR 3; 10 * INR 4; 10 * INR 5].
Proof. split; reflexivity. Qed.

(** ** C15 *)
Theorem C15_max_is_the_largest_element :
  forall n x m, amax n x = Ok m <->
    (exists k, (k < n)%nat /\ x k = m) /\ (forall k, (k < n)%nat -> x k <= m).
Proof. exact amax_spec. Qed.
Print Assumptions C15_max_is_the_largest_element.

Theorem C15_min_is_the_smallest_element :
  forall n x m, amin n x = Ok m <->
    (exists k, (k < n)%nat /\ x k = m) /\ (forall k, (k < n)%nat -> m <= x k).
Proof.
  intros n x m. rewrite amin_amax. destruct (amax n (fun k => - x k)) as [m'|e] eqn:E; cbn [res_bind].
  - apply amax_spec in E. destruct E as [[k [Hk He]] Hub]. split.
    + intro H. injection H as <-. split; [exists k; split; auto; lra|]. intros j Hj. specialize (Hub j Hj). lra.
    + intros [[j [Hj Hej]] Hlb]. f_equal. specialize (Hub j Hj). specialize (Hlb k Hk). lra.
  - split; [discriminate|]. intros [[j [Hj _]] _]. destruct n; [lia|discriminate].
Qed.
Print Assumptions C15_min_is_the_smallest_element.

(** Partials are the gradient unless the entry ties for the extreme value. *)
Theorem C15_max_partials :
  forall n x c, (c < n)%nat ->
    (x c = get (amax n x) -> forall k, (k < n)%nat -> k <> c -> x k < x c) ->
    exists J, max_jac n x c = Ok J /\ is_derive (fun t => get (amax n (updv x c t))) (x c) J.
Proof. exact max_jac_ok. Qed.
Print Assumptions C15_max_partials.

Theorem C15_min_partials :
  forall n x c, (c < n)%nat ->
    (x c = get (amin n x) -> forall k, (k < n)%nat -> k <> c -> x c < x k) ->
    exists J, min_jac n x c = Ok J /\ is_derive (fun t => get (amin n (updv x c t))) (x c) J.
Proof. exact min_jac_ok. Qed.
Print Assumptions C15_min_partials.

(** Where the maximum is attained twice, the declared partial is not a derivative. *)
Theorem C15_partials_at_ties :
  forall n x i j m, (i < n)%nat -> (j < n)%nat -> i <> j -> amax n x = Ok m -> x i = m -> x j = m ->
    exists J, max_jac n x i = Ok J /\ ~ is_derive (fun t => get (amax n (updv x i t))) (x i) J.
Proof. exact max_tie. Qed.
Print Assumptions C15_partials_at_ties.

Example C15_hypotheses_met : amax 3 (fun k => nth k [1; 5; 3] 0) = Ok 5 /\ amax 3 (fun k => nth k [5; 5; 3] 0) = Ok 5.
Proof.
  split; apply amax_spec; (split; [exists 1%nat; split; [lia|reflexivity]|]);
  intros [|[|[|k]]] H; simpl; try lra; lia.
Qed.

(** ** C16 *)
Theorem C16_selected_input :
  forall n names E, (forall k, (k < n)%nat ->
      (0 <= around (E "selector"%string k) < Z.of_nat (List.length names))%Z) ->
    exists f, sel_compute n names E = Ok f /\
      forall k, (k < n)%nat -> f k = E (nth (Z.to_nat (around (E "selector"%string k))) names ""%string) k.
Proof. exact sel_value. Qed.
Print Assumptions C16_selected_input.

(** [around] is the nearest integer, halves going to the even neighbour. *)
Theorem C16_rounding :
  forall x, Rabs (x - IZR (around x)) <= 1/2 /\ (frac_part x = 1/2 -> Z.even (around x) = true) /\
    forall z, Rabs (x - IZR z) < 1/2 -> around x = z.
Proof. intro x. split; [apply around_near|]. split; [apply around_half_even|apply around_unique]. Qed.
Print Assumptions C16_rounding.

Theorem C16_out_of_range_rejected :
  forall n names E k, (k < n)%nat ->
    (around (E "selector"%string k) < 0 \/ Z.of_nat (List.length names) <= around (E "selector"%string k))%Z ->
    sel_compute n names E = Err RuntimeWarning.
Proof. exact sel_reject. Qed.
Print Assumptions C16_out_of_range_rejected.

Theorem C16_partials_wrt_inputs :
  forall n names E i r c, NoDup names -> ~ In "selector"%string names ->
    (forall k, (k < n)%nat -> (0 <= around (E "selector"%string k) < Z.of_nat (List.length names))%Z) ->
    (i < List.length names)%nat -> (r < n)%nat ->
    let x := nth i names ""%string in
    is_derive (fun t => sel_get (sel_compute n names (updE E x c t)) r) (E x c) (sel_jac E i r c).
Proof. exact sel_jac_ok. Qed.
Print Assumptions C16_partials_wrt_inputs.

(** No partial is declared with respect to the selector: it is indeed zero
    whenever the selector is not half-way between two integers. *)
Theorem C16_partials_wrt_selector :
  forall n names E r c, ~ In "selector"%string names ->
    (forall k, (k < n)%nat -> (0 <= around (E "selector"%string k) < Z.of_nat (List.length names))%Z) ->
    (r < n)%nat -> (c < n)%nat ->
    Rabs (E "selector"%string c - IZR (around (E "selector"%string c))) < 1/2 ->
    is_derive (fun t => sel_get (sel_compute n names (updE E "selector" c t)) r) (E "selector"%string c) 0.
Proof. exact sel_locally_constant. Qed.
Print Assumptions C16_partials_wrt_selector.

Theorem C16_setup_accepts :
  forall names, sel_setup names = Ok tt <-> names <> [] /\ NoDup (names ++ ["selector"; "result"]%string)%list.
Proof.
  intros [|x names]; [simpl; split; [discriminate|tauto]|]. unfold sel_setup.
  pose proof (declare_ok [] ((x :: names) ++ ["selector"; "result"]%string)%list) as H.
  destruct (declare [] _) as [n'|e]; cbn [res_bind].
  - split; auto. intros _. split; [discriminate|]. apply H. eauto.
  - split; [discriminate|]. intros [_ Hn]. destruct (proj2 H) as [n' Hn']; [split; auto|discriminate].
Qed.
Print Assumptions C16_setup_accepts.

Example C16_hypotheses_met :
  let E : env := fun x k => if String.eqb x "selector" then nth k [1/4; 13/10] 0 else if String.eqb x "A" then 10 else 20 in
  NoDup ["A"; "B"]%string /\ (forall k, (k < 2)%nat -> (0 <= around (E "selector"%string k) < 2)%Z) /\
  Rabs (E "selector"%string 1%nat - IZR (around (E "selector"%string 1%nat))) < 1/2.
Proof.
  intro E. assert (H0 : around (1/4) = 0%Z) by (apply around_unique; apply Rabs_def1; lra).
  assert (H1 : around (13/10) = 1%Z) by (apply around_unique; apply Rabs_def1; lra).
  split; [repeat constructor; simpl; intuition discriminate|]. split.
  - intros [|[|k]] Hk; unfold E; simpl; rewrite ?H0, ?H1; lia.
  - unfold E; simpl. rewrite H1. apply Rabs_def1; lra.
Qed.

(** ** C17 *)
Theorem C17_linear :
  forall n a b k, (2 <= n)%nat -> (k < n)%nat -> lin_compute n a b k = a + (b - a) * (INR k / INR (n - 1)).
Proof. exact lin_value. Qed.
Print Assumptions C17_linear.
Theorem C17_end_points :
  forall n a b, (2 <= n)%nat -> lin_compute n a b 0 = a /\ lin_compute n a b (n - 1) = b.
Proof.
  intros n a b Hn. assert (INR (n - 1) <> 0) by (apply not_0_INR; lia).
  rewrite !lin_value by lia. simpl INR at 1. split; field; auto.
Qed.
Print Assumptions C17_end_points.
Theorem C17_between_the_ends :
  forall n a b k, (2 <= n)%nat -> (k < n)%nat -> Rmin a b <= lin_compute n a b k <= Rmax a b.
Proof. exact lin_between. Qed.
Print Assumptions C17_between_the_ends.
Theorem C17_equal_spacing :
  forall n a b k, (2 <= n)%nat -> (S k < n)%nat ->
    lin_compute n a b (S k) - lin_compute n a b k = (b - a) / INR (n - 1).
Proof. exact lin_spacing. Qed.
Print Assumptions C17_equal_spacing.
Theorem C17_partials :
  forall n a b k, (1 <= n)%nat -> (k < n)%nat ->
    is_derive (fun t => lin_compute n t b k) a (lin_jac_start n k) /\
    is_derive (fun t => lin_compute n a t k) b (lin_jac_end n k).
Proof. intros. split; [now apply lin_jac_start_ok|now apply lin_jac_end_ok]. Qed.
Print Assumptions C17_partials.

(** ** C18 *)
(** A path leading to a stored value publishes exactly that value and units. *)
Theorem C18_publishes_the_stored_value :
  forall d sep outs ks l v u, ks <> [] -> (forall k, In k ks -> contains_char sep k = false) ->
    at_path d ks (PDict l) -> stored_value l v -> stored_units l u ->
    ~ In (join sep ks) (map (fun o => fst (fst o)) outs) ->
    add_from_dict d sep outs (join sep ks) = ((outs ++ [(join sep ks, v, u)])%list, Ok tt).
Proof. exact dict_publish. Qed.
Print Assumptions C18_publishes_the_stored_value.

(** Conversely nothing else is ever published. *)
Theorem C18_publishes_nothing_else :
  forall d sep outs name outs', add_from_dict d sep outs name = (outs', Ok tt) ->
    exists l v u, at_path d (split_on sep name) (PDict l) /\ stored_value l v /\ stored_units l u /\
      outs' = (outs ++ [(name, v, u)])%list.
Proof. exact dict_ok_only. Qed.
Print Assumptions C18_publishes_nothing_else.

Theorem C18_missing_key :
  forall d sep outs ks1 k ks2 l, (forall x, In x (ks1 ++ k :: ks2) -> contains_char sep x = false) ->
    at_path d ks1 (PDict l) -> assoc k l = None ->
    add_from_dict d sep outs (join sep (ks1 ++ k :: ks2)) = (outs, Err KeyError).
Proof. exact dict_missing. Qed.
Print Assumptions C18_missing_key.

Theorem C18_missing_value :
  forall d sep outs ks l, ks <> [] -> (forall x, In x ks -> contains_char sep x = false) ->
    at_path d ks (PDict l) -> assoc "value"%string l = None ->
    add_from_dict d sep outs (join sep ks) = (outs, Err KeyError).
Proof. exact dict_no_value. Qed.
Print Assumptions C18_missing_value.

Theorem C18_errors_add_nothing :
  forall d sep outs name outs' e, add_from_dict d sep outs name = (outs', Err e) -> outs' = outs.
Proof. exact dict_error_adds_nothing. Qed.
Print Assumptions C18_errors_add_nothing.

(** A missing path that runs through a stored number, array or text raises
    another exception than KeyError. *)
Theorem C18_missing_path_raises_KeyError_refuted :
  forall d sep outs ks1 k ks2 v, (forall x, In x (ks1 ++ k :: ks2) -> contains_char sep x = false) ->
    at_path d ks1 v -> is_leaf v = true ->
    exists e, add_from_dict d sep outs (join sep (ks1 ++ k :: ks2)) = (outs, Err e) /\ e <> KeyError.
Proof. exact dict_through_leaf. Qed.
Print Assumptions C18_missing_path_raises_KeyError_refuted.

Definition ex_dict := PDict [("ac", PDict [("mass", PDict [("value", PNum 12); ("units", PStr "kg")])])]%string.
Example C18_hypotheses_met :
  add_from_dict ex_dict "|" [] "ac|mass" = ([("ac|mass", [12], Some "kg")]%string, Ok tt) /\
  at_path ex_dict ["ac"; "mass"]%string (PDict [("value", PNum 12); ("units", PStr "kg")]%string) /\
  at_path ex_dict ["ac"; "mass"; "value"]%string (PNum 12) /\
  snd (add_from_dict ex_dict "|" [] "ac|mass|value|x") = Err TypeError.
Proof.
  split; [reflexivity|]. split; [repeat (econstructor; [reflexivity|]); constructor|].
  split; [repeat (econstructor; [reflexivity|]); constructor|]. reflexivity.
Qed.

(** ** C19: [Nat.iter (S n)]: the caller's list has been used to build n+1 components. *)
Theorem C19_reusable :
  forall n e, dv_sizes e = [] ->
    dv_decl (Nat.iter (S n) dv_append e) = Ok (dv_in e, dv_out e, dv_val e, dv_units e, List.length (dv_val e)).
Proof. exact dv_reuse. Qed.
Print Assumptions C19_reusable.

Theorem C19_identity_with_identity_jacobian :
  forall n e E, dv_sizes e = [] ->
    (forall k, dv_compute (Nat.iter (S n) dv_append e) E k = E (dv_in e) k) /\
    forall r c, (r < List.length (dv_val e))%nat -> (c < List.length (dv_val e))%nat ->
    exists J, dv_jac (Nat.iter (S n) dv_append e) r c = Ok J /\
      is_derive (fun t => dv_compute (Nat.iter (S n) dv_append e) (updE E (dv_in e) c t) r) (E (dv_in e) c) J.
Proof.
  intros n e E H. split; [|intros; now apply dv_jac_ok].
  intro k. unfold dv_compute. destruct (dv_init_n_sizes (S n) e) as [_ [-> _]]. reflexivity.
Qed.
Print Assumptions C19_identity_with_identity_jacobian.

(** The constructor changes the caller's list, so a list whose value is replaced
    by one of another size before building a second component keeps the old size. *)
Theorem C19_reusable_with_new_value_refuted :
  exists e v, dv_sizes e = [] /\
    let e1 := dv_append e in
    let e2 := dv_append {| dv_in := dv_in e1; dv_out := dv_out e1; dv_val := v; dv_units := dv_units e1; dv_sizes := dv_sizes e1 |} in
    dv_jac e2 1 1 = Ok 0 /\ (1 < List.length (dv_val e2))%nat /\
    forall E, is_derive (fun t => dv_compute e2 (updE E (dv_in e2) 1 t) 1) (E (dv_in e2) 1%nat) 1.
Proof.
  exists {| dv_in := "a"; dv_out := "b"; dv_val := [3]; dv_units := None; dv_sizes := [] |}, [1; 2; 3].
  split; auto. split; [reflexivity|]. split; [simpl; lia|]. intro E. unfold dv_compute.
  evar_last; [apply updE_derive|]. reflexivity.
Qed.
Print Assumptions C19_reusable_with_new_value_refuted.

Example C19_hypotheses_met :
  dv_decl (Nat.iter 2 dv_append {| dv_in := "a"; dv_out := "b"; dv_val := [3; 4]; dv_units := Some "kg"%string; dv_sizes := [] |})
  = Ok ("a"%string, "b"%string, [3; 4], Some "kg"%string, 2%nat).
Proof. reflexivity. Qed.

(** ** C34 *)
Theorem C34_reverses :
  forall n neg x k, (k < n)%nat -> flip_compute n neg x k = (if neg then - x (n - 1 - k)%nat else x (n - 1 - k)%nat).
Proof. intros n [] x k _; unfold flip_compute, flip_scaler; ring. Qed.
Print Assumptions C34_reverses.
Theorem C34_twice_is_identity :
  forall n neg x k, (k < n)%nat -> flip_compute n neg (flip_compute n neg x) k = x k.
Proof. exact flip_twice. Qed.
Print Assumptions C34_twice_is_identity.
Theorem C34_jacobian :
  forall n neg x r c, (r < n)%nat -> (c < n)%nat ->
    is_derive (fun t => flip_compute n neg (updv x c t) r) (x c) (flip_jac n neg r c).
Proof. exact flip_jac_ok. Qed.
Print Assumptions C34_jacobian.
