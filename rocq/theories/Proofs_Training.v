(** Facts about the training tables. *)
From Coq Require Import Reals List Bool PeanoNat String Lia Lra FunctionalExtensionality.
From Verif Require Import Base Py Model_Training Spec_Training.
Import ListNotations.
Open Scope string_scope.
Open Scope list_scope.
Open Scope R_scope.

(** ** Row-major order *)
Lemma ravel_lt : forall a b c i j k, (i < a)%nat -> (j < b)%nat -> (k < c)%nat -> ((i * b + j) * c + k < a * b * c)%nat.
Proof.
  intros a b c i j k Hi Hj Hk.
  assert (i * b + j < a * b)%nat by nia. nia.
Qed.
Lemma unravel_ravel : forall a b c i j k, (j < b)%nat -> (k < c)%nat ->
  unravel (a, b, c) ((i * b + j) * c + k)%nat = (i, j, k).
Proof.
  intros a b c i j k Hj Hk. unfold unravel.
  assert (Q : (((i * b + j) * c + k) / c = i * b + j)%nat).
  { symmetry. apply (Nat.div_unique _ c (i * b + j) k); [exact Hk | lia]. }
  assert (M : (((i * b + j) * c + k) mod c = k)%nat).
  { symmetry. apply (Nat.mod_unique _ c (i * b + j) k); [exact Hk | lia]. }
  rewrite M, Q. f_equal. f_equal.
  - rewrite (Nat.mul_comm b c), <- Nat.div_div by lia. rewrite Q.
    symmetry. apply (Nat.div_unique _ b i j); [exact Hj | lia].
  - symmetry. apply (Nat.mod_unique _ b i j); [exact Hj | lia].
Qed.
Lemma ravel_unravel : forall a b c r i j k, (r < a * b * c)%nat -> unravel (a, b, c) r = (i, j, k) ->
  r = ((i * b + j) * c + k)%nat /\ (i < a)%nat /\ (j < b)%nat /\ (k < c)%nat.
Proof.
  intros a b c r i j k Hr U. unfold unravel in U. injection U; intros Hk Hj Hi; clear U.
  assert (Hc : c <> 0%nat) by (intro; subst; lia). assert (Hb : b <> 0%nat) by (intro; subst; lia).
  assert (K : (k < c)%nat) by (subst k; apply Nat.mod_upper_bound; exact Hc).
  assert (J : (j < b)%nat) by (subst j; apply Nat.mod_upper_bound; exact Hb).
  rewrite (Nat.mul_comm b c), <- Nat.div_div in Hi by assumption.
  pose proof (Nat.div_mod r c Hc) as E1. pose proof (Nat.div_mod (r / c) b Hb) as E2.
  rewrite Hi, Hj in E2. rewrite Hk, E2 in E1.
  assert (R1 : r = ((i * b + j) * c + k)%nat) by nia.
  repeat split; try assumption.
  rewrite R1 in Hr. clear - Hr J K. destruct (Nat.lt_ge_cases i a) as [|G]; [assumption|].
  assert (G1 : (a * b * c <= i * b * c)%nat) by (apply Nat.mul_le_mono_r, Nat.mul_le_mono_r; exact G).
  rewrite Nat.mul_add_distr_r in Hr. lia.
Qed.

(** ** Lists *)
Lemma all_some_nth : forall A (l : list (option A)) out, all_some l = Some out ->
  List.length out = List.length l /\ forall r a, nth_error out r = Some a -> nth_error l r = Some (Some a).
Proof.
  induction l as [|[a|] l IH]; intros out H; cbn in H.
  - injection H; intros; subst. split; [reflexivity|]. intros [|r] b E; discriminate.
  - destruct (all_some l) as [t|] eqn:T; [|discriminate]. injection H; intros; subst.
    destruct (IH t eq_refl) as [L N]. split; [cbn; rewrite L; reflexivity|].
    intros [|r] b E; cbn in *; [injection E; intros; subst; reflexivity | apply N; exact E].
  - discriminate.
Qed.
Lemma all_some_total : forall A (l : list (option A)), (forall a, In a l -> a <> None) -> exists out, all_some l = Some out.
Proof.
  induction l as [|[a|] l IH]; intros H; cbn.
  - eauto.
  - destruct IH as [t T]; [intros b B; apply H; right; exact B|]. rewrite T. eauto.
  - exfalso. apply (H None); [left; reflexivity | reflexivity].
Qed.
Lemma nth_error_combine : forall A B (l : list A) (m : list B) r a b,
  nth_error l r = Some a -> nth_error m r = Some b -> nth_error (combine l m) r = Some (a, b).
Proof.
  induction l as [|x l IH]; intros m r a b H1 H2; [destruct r; discriminate|].
  destruct m as [|y m]; [destruct r; discriminate|]. destruct r as [|r]; cbn in *.
  - injection H1; injection H2; intros; subst; reflexivity.
  - apply IH; assumption.
Qed.
Lemma nth_error_flatten : forall s A r, (r < size3 s)%nat -> nth_error (flatten s A) r = Some (at3 A (unravel s r)).
Proof.
  intros s A r H. unfold flatten.
  replace (Some (at3 A (unravel s r))) with (option_map (fun q => at3 A (unravel s q)) (nth_error (seq 0 (size3 s)) r)).
  - apply nth_error_map.
  - rewrite (nth_error_nth' (seq 0 (size3 s)) 0%nat) by (rewrite seq_length; exact H). cbn. rewrite seq_nth by exact H. reflexivity.
Qed.
Lemma length_test_points : forall c, List.length (test_points c) = size3 (c_shape c).
Proof. intros c. unfold test_points, flatten. rewrite !combine_length, !map_length, !seq_length. lia. Qed.
Lemma nth_test_points : forall c r, (r < size3 (c_shape c))%nat ->
  nth_error (test_points c) r =
  Some (at3 (c_Mach c) (unravel (c_shape c) r), (at3 (c_alpha c) (unravel (c_shape c) r), at3 (c_alt c) (unravel (c_shape c) r))).
Proof.
  intros c r H. unfold test_points. repeat apply nth_error_combine; apply nth_error_flatten; exact H.
Qed.

(** ** Tables *)
Lemma same_shape3_spec : forall s t, same_shape3 s t = true <-> s = t.
Proof.
  intros [[a b] c] [[d e] f]. unfold same_shape3. rewrite !andb_true_iff, !Nat.eqb_eq.
  split; [intros [[H1 H2] H3]; subst; reflexivity | intros H; injection H; intros; subst; auto].
Qed.
Lemma table_fold : forall s f (l : list answer) start A i j k,
  let B := fold_left (fun A p => put3 A (unravel s (fst p)) (a_out (snd p) f)) (combine (seq start (List.length l)) l) A in
  (forall r, (start <= r < start + List.length l)%nat -> unravel s r = (i, j, k) ->
     (forall q, (start <= q < start + List.length l)%nat -> unravel s q = (i, j, k) -> q = r) ->
     exists a, nth_error l (r - start) = Some a /\ B i j k = a_out a f) /\
  ((forall q, (start <= q < start + List.length l)%nat -> unravel s q <> (i, j, k)) -> B i j k = A i j k).
Proof.
  intros s f. induction l as [|a l IH]; intros start A i j k.
  - cbn. split; [intros r Hr; lia | reflexivity].
  - cbn [List.length seq combine fold_left fst snd].
    specialize (IH (S start) (put3 A (unravel s start) (a_out a f)) i j k). cbv zeta in IH. cbv zeta.
    destruct IH as [IH1 IH2]. split.
    + intros r Hr Ur Uniq. destruct (Nat.eq_dec r start) as [E|E].
      * subst r. replace (start - start)%nat with 0%nat by lia. exists a. split; [reflexivity|].
        rewrite IH2.
        -- unfold put3. rewrite Ur. replace (same_shape3 (i, j, k) (i, j, k)) with true; [reflexivity|].
           symmetry. apply same_shape3_spec. reflexivity.
        -- intros q Hq Uq. assert (q = start) by (apply Uniq; [lia | exact Uq]). lia.
      * destruct (IH1 r) as [b [Nb Bb]]; [lia | exact Ur | intros q Hq Uq; apply Uniq; [lia | exact Uq] |].
        exists b. split; [|exact Bb].
        replace (r - start)%nat with (S (r - S start)) by lia. exact Nb.
    + intros N. rewrite IH2.
      * unfold put3. destruct (same_shape3 (i, j, k) (unravel s start)) eqn:E; [|reflexivity].
        apply same_shape3_spec in E. exfalso. apply (N start); [lia | symmetry; exact E].
      * intros q Hq. apply N. lia.
Qed.
Lemma table_lookup : forall a b c out f i j k,
  List.length out = (a * b * c)%nat -> (i < a)%nat -> (j < b)%nat -> (k < c)%nat ->
  exists an, nth_error out ((i * b + j) * c + k) = Some an /\ table (a, b, c) out f i j k = a_out an f.
Proof.
  intros a b c out f i j k L Hi Hj Hk.
  destruct (table_fold (a, b, c) f out 0 zeros3 i j k) as [T _].
  destruct (T ((i * b + j) * c + k)%nat) as [an [N E]].
  - rewrite L. pose proof (ravel_lt a b c i j k Hi Hj Hk). lia.
  - apply unravel_ravel; assumption.
  - intros q Hq Uq. rewrite L in Hq. apply (ravel_unravel a b c q i j k); [lia | exact Uq].
  - exists an. rewrite Nat.sub_0_r in N. split; [exact N | exact E].
Qed.

(** ** Comparing and copying inputs *)
Lemma same_list_spec : forall a b, same_list a b = true <-> a = b.
Proof. intros a b. unfold same_list. destruct (list_eq_dec Nat.eq_dec a b); split; intros; congruence. Qed.
Lemma same_list_refl : forall a, same_list a a = true.
Proof. intros a. apply same_list_spec. reflexivity. Qed.
Lemma all_close_spec : forall tol n x y, all_close tol n x y = true <-> forall i, (i < n)%nat -> Rabs (x i - y i) < tol.
Proof.
  intros tol n x y. unfold all_close. rewrite forallb_forall. split.
  - intros H i Hi. specialize (H i). destruct (Rlt_dec (Rabs (x i - y i)) tol) as [L|L]; [exact L|].
    exfalso. assert (false = true); [|discriminate]. apply H. apply in_seq. lia.
  - intros H i Hi. apply in_seq in Hi. destruct (Rlt_dec (Rabs (x i - y i)) tol) as [L|L]; [reflexivity|].
    exfalso. apply L, H. lia.
Qed.

Lemma kept_assoc : forall g o k s, In (k, s) (kept g o) -> assoc k (kept g o) = Some s.
Proof.
  intros [] o k s H; cbn in H; repeat (destruct H as [H|H]; [injection H; intros; subst; reflexivity|]); contradiction.
Qed.
Lemma kept_design : forall g o k n, In (k, n) (design g o) -> exists s, In (k, s) (kept g o) /\ prod s = n.
Proof.
  intros [] o k n H; cbn in H;
    repeat (destruct H as [H|H]; [injection H; intros; subst; eexists; split; [cbn; eauto 12 | cbn; lia]|]); contradiction.
Qed.
Lemma design_kept : forall g o k s, In (k, s) (kept g o) -> In (k, prod s) (design g o).
Proof.
  intros [] o k s H; cbn in H;
    repeat (destruct H as [H|H]; [injection H; intros; subst; cbn [prod fold_right]; rewrite ?Nat.mul_1_r; cbn; eauto 12 |]); contradiction.
Qed.

Lemma unchanged_spec : forall tol c x ks t, c_kept c = t -> (forall k s, In (k, s) ks -> assoc k t = Some s) ->
  exists b, unchanged tol ks c x = Ok b /\
    (b = true <-> forall k s, In (k, s) ks -> forall i, (i < prod s)%nat -> Rabs (x k i - c_in c k i) < tol).
Proof.
  intros tol c x ks t Ht. subst t. induction ks as [|[k s] ks IH]; intros H.
  - exists true. split; [reflexivity|]. split; [intros _ k s [] | reflexivity].
  - destruct IH as [b [U B]]; [intros k' s' I; apply H; right; exact I|].
    cbn. rewrite (H k s) by (left; reflexivity). rewrite same_list_refl.
    destruct (all_close tol (prod s) (x k) (c_in c k)) eqn:E.
    + exists b. split; [exact U|]. rewrite all_close_spec in E. rewrite B. split.
      * intros G k' s' [I|I]; [injection I; intros; subst; apply E; assumption | apply (G k' s'); exact I].
      * intros G k' s' I. apply (G k' s'). right. exact I.
    + exists false. split; [reflexivity|]. split; [discriminate|]. intros G. exfalso.
      assert (all_close tol (prod s) (x k) (c_in c k) = true); [|congruence].
      apply all_close_spec. apply (G k s). left. reflexivity.
Qed.
Lemma copy_in_spec : forall x t ks y, (forall k s, In (k, s) ks -> assoc k t = Some s) ->
  exists y', copy_in ks t x y = (y', Ok tt) /\ (forall k, In k (map fst ks) -> y' k = x k) /\
             (forall k, y k = x k -> y' k = x k).
Proof.
  intros x t. induction ks as [|[k s] ks IH]; intros y H.
  - exists y. cbn. split; [reflexivity|]. split; [intros k [] | auto].
  - cbn. rewrite (H k s) by (left; reflexivity). rewrite same_list_refl.
    destruct (IH (fun k' => if String.eqb k' k then x k else y k')) as [y' [E [I J]]]; [intros k' s' Q; apply H; right; exact Q|].
    exists y'. split; [exact E|]. split.
    + intros k' [Q|Q].
      * cbn in Q. subst k'. apply J. rewrite String.eqb_refl. reflexivity.
      * apply I. exact Q.
    + intros k' Q. apply J. destruct (String.eqb_spec k' k); [subst; reflexivity | exact Q].
Qed.

(** ** The state of the class *)

(** The cached inputs are those of [x]. *)
Definition holds_in (g : gen) (o : options) (c : cache) (x : env) : Prop :=
  forall k s, In (k, s) (kept g o) -> c_in c k = x k.
Definition grid_of (o : options) (c : cache) : Prop :=
  c_shape c = (count (o_Mach o), count (o_alpha o), count (o_alt o)) /\
  (forall i j k, c_Mach c i j k = nth i (values (o_Mach o)) 0) /\
  (forall i j k, c_alpha c i j k = nth j (values (o_alpha o)) 0) /\
  (forall i j k, c_alt c i j k = nth k (values (o_alt o)) 0).
(** The answers of the analyses for inputs [x], in row-major order. *)
Definition answers (sv : analysis) (o : options) (x : env) (out : list answer) : Prop :=
  List.length out = (count (o_Mach o) * count (o_alpha o) * count (o_alt o))%nat /\
  forall i j k, in_grid o i j k ->
    nth_error out ((i * count (o_alpha o) + j) * count (o_alt o) + k) = analysed sv o x i j k /\ analysed sv o x i j k <> None.
Definition holds_data (g : gen) (sv : analysis) (o : options) (c : cache) (x : env) : Prop :=
  exists out d, answers sv o x out /\ training_data g (count (o_Mach o), count (o_alpha o), count (o_alt o)) out = Ok d /\
    c_out c = fst d /\ c_part c = Some (snd d).

Lemma run_all_answers : forall sv o x c out, grid_of o c -> run_all sv o x c = Some out -> answers sv o x out.
Proof.
  intros sv o x c out [Sh [GM [GA GH]]] H. unfold run_all in H.
  destruct (all_some_nth _ _ _ H) as [L N]. rewrite map_length, length_test_points, Sh in L. cbn [size3] in L.
  split; [exact L|]. intros i j k [Hi [Hj Hk]].
  set (r := ((i * count (o_alpha o) + j) * count (o_alt o) + k)%nat).
  assert (Hr : (r < count (o_Mach o) * count (o_alpha o) * count (o_alt o))%nat) by (apply ravel_lt; assumption).
  destruct (nth_error out r) as [a|] eqn:E; [|apply nth_error_None in E; lia].
  pose proof (N r a E) as M. rewrite nth_error_map, nth_test_points in M by (rewrite Sh; exact Hr).
  rewrite Sh in M. unfold r in M. rewrite unravel_ravel in M by assumption.
  cbn [option_map at3 fst snd] in M. rewrite GM, GA, GH in M. injection M; intros M'.
  unfold analysed. rewrite M'. split; [reflexivity | discriminate].
Qed.
Lemma run_all_total : forall sv o x c, grid_of o c ->
  (forall i j k, in_grid o i j k -> analysed sv o x i j k <> None) -> exists out, run_all sv o x c = Some out.
Proof.
  intros sv o x c [Sh [GM [GA GH]]] H. unfold run_all. apply all_some_total. intros a I.
  apply In_nth_error in I. destruct I as [r E]. rewrite nth_error_map in E.
  destruct (nth_error (test_points c) r) as [p|] eqn:P; [|discriminate].
  assert (Hr : (r < size3 (c_shape c))%nat).
  { rewrite <- length_test_points. apply nth_error_Some. congruence. }
  rewrite nth_test_points in P by exact Hr. rewrite Sh in P, Hr.
  destruct (unravel (count (o_Mach o), count (o_alpha o), count (o_alt o)) r) as [[i j] k] eqn:U.
  destruct (ravel_unravel _ _ _ _ _ _ _ Hr U) as [_ [Hi [Hj Hk]]].
  cbn [at3] in P. rewrite GM, GA, GH in P. injection P; intros; subst p. cbn in E. injection E; intros; subst a.
  apply H. repeat split; assumption.
Qed.

Lemma answers_table : forall g sv o x out d nw, answers sv o x out ->
  training_data g (count (o_Mach o), count (o_alpha o), count (o_alt o)) out = Ok d ->
  table_of g sv o x nw
    (match g with
     | VLMData => fst d
     | OASData => fun f => if String.eqb f "CD_train" then (fun i j k => fst d f i j k + nw) else fst d f
     end).
Proof.
  intros g sv o x out d nw [L N] T.
  assert (LK : forall f i j k, in_grid o i j k ->
     exists a, analysed sv o x i j k = Some a /\ table (count (o_Mach o), count (o_alpha o), count (o_alt o)) out f i j k = a_out a f).
  { intros f i j k G. destruct (N i j k G) as [E NN]. destruct G as [Hi [Hj Hk]].
    destruct (table_lookup _ _ _ out f i j k L Hi Hj Hk) as [a [E' T']].
    exists a. split; [rewrite <- E; exact E' | exact T']. }
  destruct g; cbn in T.
  - injection T; intros; subst d. split; [|discriminate]. intros f i j k F G.
    destruct (LK f i j k G) as [a [A B]]. exists a. split; [exact A|]. cbn. rewrite B. ring.
  - destruct out as [|a0 out]; [discriminate|]. injection T; intros; subst d. split.
    + intros f i j k F G. destruct (LK f i j k G) as [a [A B]]. exists a. split; [exact A|].
      cbn in F. destruct F as [F|[F|[F|[]]]]; subst f; cbn; cbn in B; rewrite B; ring.
    + intros _. exists a0. split; [|reflexivity].
      assert (G : in_grid o 0 0 0).
      { unfold in_grid. cbn [List.length] in L. destruct (count (o_Mach o)), (count (o_alpha o)), (count (o_alt o)); lia. }
      destruct (N 0%nat 0%nat 0%nat G) as [E _]. cbn in E. symmetry. exact E.
Qed.
Lemma answers_derivatives : forall g sv o x out d, answers sv o x out ->
  training_data g (count (o_Mach o), count (o_alpha o), count (o_alt o)) out = Ok d ->
  derivatives_of g sv o x
    (match g with
     | VLMData => snd d
     | OASData => fun f u r col => if String.eqb u "ac|aero|CD_nonwing" then (if String.eqb f "CD_train" then 1 else 0) else snd d f u r col
     end).
Proof.
  intros g sv o x out d [L N] T.
  assert (LK : forall f u i j k c, in_grid o i j k ->
     exists a, analysed sv o x i j k = Some a /\ rows_of out f u ((i * count (o_alpha o) + j) * count (o_alt o) + k)%nat c = a_d a f u c).
  { intros f u i j k c G. destruct (N i j k G) as [E NN].
    destruct (analysed sv o x i j k) as [a|] eqn:A; [|congruence]. exists a. split; [reflexivity|].
    unfold rows_of. rewrite E. reflexivity. }
  destruct g; cbn in T.
  - injection T; intros; subst d. split; [|discriminate]. intros f u n i j k c F U C G.
    destruct (LK f u i j k c G) as [a [A B]]. exists a. split; assumption.
  - destruct out as [|a0 out]; [discriminate|]. injection T; intros; subst d.
    assert (NWU : forall u n, In (u, n) (design OASData o) -> String.eqb u "ac|aero|CD_nonwing" = false).
    { intros u n U. cbn in U. repeat (destruct U as [U|U]; [injection U; intros; subst; reflexivity|]). contradiction. }
    split.
    + intros f u n i j k c F U C G. destruct (LK f u i j k c G) as [a [A B]]. exists a. split; [exact A|].
      rewrite (NWU u n U). cbn in F. destruct F as [F|[F|[F|[]]]]; subst f; exact B.
    + intros _. split.
      * intros u n c U C. exists a0. split.
        -- assert (G : in_grid o 0 0 0).
           { unfold in_grid. cbn [List.length] in L. destruct (count (o_Mach o)), (count (o_alpha o)), (count (o_alt o)); lia. }
           destruct (N 0%nat 0%nat 0%nat G) as [E _]. cbn in E. symmetry. exact E.
        -- rewrite (NWU u n U). reflexivity.
      * intros f r. reflexivity.
Qed.

(** What is known of the class after a history of calls to instances with options [o]:
    [xs] the inputs so far, [fs] those of the calls that raised. *)
Definition good (g : gen) (sv : analysis) (o : options) (xs fs : list env) (c : cache) : Prop :=
  c_kept c = kept g o /\ grid_of o c /\
  (holds_in g o c placeholder \/
   (exists x, In x fs /\ holds_in g o c x) \/
   (exists x, In x xs /\ holds_in g o c x /\ holds_data g sv o c x)).
Lemma good_more : forall g sv o xs fs xs' fs' c, incl xs xs' -> incl fs fs' -> good g sv o xs fs c -> good g sv o xs' fs' c.
Proof.
  intros g sv o xs fs xs' fs' c I J [K [G [P|[[x [A B]]|[x [A B]]]]]]; split; try assumption; split; try assumption; eauto 8.
Qed.

Lemma values_ok : forall l m, numpy_values l = Ok m -> values l = m.
Proof. intros [l|l] m H; cbn in H; [discriminate | injection H; intros; subst; reflexivity]. Qed.
Lemma own_shape_ok : forall o s, own_shape o = Ok s -> s = (count (o_Mach o), count (o_alpha o), count (o_alt o)).
Proof.
  intros o s H. unfold own_shape in H. unfold count.
  destruct (numpy_values (o_Mach o)) eqn:A; [|discriminate]. destruct (numpy_values (o_alpha o)) eqn:B; [|discriminate].
  destruct (numpy_values (o_alt o)) eqn:C; [|discriminate]. injection H; intros; subst.
  apply values_ok in A. apply values_ok in B. apply values_ok in C. congruence.
Qed.
Lemma arrays_own_shape : forall o, arrays o -> own_shape o = Ok (count (o_Mach o), count (o_alpha o), count (o_alt o)).
Proof. intros o [[l1 H1] [[l2 H2] [l3 H3]]]. unfold own_shape, count. rewrite H1, H2, H3. reflexivity. Qed.

(** One refresh. *)
Lemma refresh_spec : forall g sv o x fine c, c_kept c = kept g o -> grid_of o c ->
  let '(c', r) := refresh g sv o x fine c in
  c_kept c' = kept g o /\ grid_of o c' /\
  ((c' = c /\ r = Ok tt /\ forall k s, In (k, s) (kept g o) -> forall i, (i < prod s)%nat -> Rabs (x k i - c_in c k i) < tolerance g o) \/
   (~ (forall k s, In (k, s) (kept g o) -> forall i, (i < prod s)%nat -> Rabs (x k i - c_in c k i) < tolerance g o) /\
    holds_in g o c' x /\
    ((r = Ok tt /\ holds_data g sv o c' x) \/ (exists e, r = Err e)))).
Proof.
  intros g sv o x fine c K G. unfold refresh.
  destruct (unchanged_spec (tolerance g o) c x (kept g o) (kept g o) K (kept_assoc g o)) as [b [U B]]. rewrite U.
  destruct b.
  - split; [exact K|]. split; [exact G|]. left. split; [reflexivity|]. split; [reflexivity|]. apply B. reflexivity.
  - rewrite K. destruct (copy_in_spec x (kept g o) (kept g o) (c_in c) (kept_assoc g o)) as [y [C [I _]]]. rewrite C.
    assert (NB : ~ (forall k s, In (k, s) (kept g o) -> forall i, (i < prod s)%nat -> Rabs (x k i - c_in c k i) < tolerance g o)).
    { intros Q. apply B in Q. discriminate. }
    assert (G1 : grid_of o (with_in c y)) by exact G.
    assert (HI : holds_in g o (with_in c y) x).
    { intros k s Q. apply I. apply in_map_iff. exists (k, s). split; [reflexivity | exact Q]. }
    destruct (if fine then run_all sv o x (with_in c y) else None) as [out|] eqn:R.
    + destruct fine; [|discriminate].
      pose proof (run_all_answers sv o x _ out G1 R) as A.
      destruct (training_data g (c_shape (with_in c y)) out) as [d|e] eqn:T.
      * split; [exact K|]. split; [exact G|]. right. split; [exact NB|]. split; [exact HI|]. left. split; [reflexivity|].
        exists out, d. split; [exact A|]. destruct G1 as [Sh _]. rewrite Sh in T. split; [exact T|]. split; reflexivity.
      * split; [exact K|]. split; [exact G|]. right. split; [exact NB|]. split; [exact HI|]. right. eauto.
    + split; [exact K|]. split; [exact G|]. right. split; [exact NB|]. split; [exact HI|]. right. eauto.
Qed.

Definition good_cls (g : gen) (sv : analysis) (o : options) (xs fs : list env) (st : cls) : Prop :=
  match c_cache st with None => True | Some c => good g sv o xs fs c end.

Lemma good_refresh : forall g sv o xs fs x fine c, good g sv o xs fs c ->
  let '(c', r) := refresh g sv o x fine c in
  good g sv o (x :: xs) (match r with Ok _ => fs | Err _ => x :: fs end) c'.
Proof.
  intros g sv o xs fs x fine c [K [G P]].
  pose proof (refresh_spec g sv o x fine c K G) as S. destruct (refresh g sv o x fine c) as [c' r].
  destruct S as [K' [G' S]]. split; [exact K'|]. split; [exact G'|].
  destruct S as [[E [R _]] | [_ [HI [[R HD]|[e R]]]]]; subst r.
  - subst c'. destruct P as [P|[[z [A B]]|[z [A B]]]]; [left; exact P | right; left; eauto |].
    right; right. exists z. split; [right; exact A | exact B].
  - right; right. exists x. split; [left; reflexivity|]. split; assumption.
  - right; left. exists x. split; [left; reflexivity | exact HI].
Qed.

Lemma setup_good : forall g sv o xs fs st, good_cls g sv o xs fs st -> good_cls g sv o xs fs (fst (setup g o st)).
Proof.
  intros g sv o xs fs st H. unfold setup.
  destruct (numpy_values (o_Mach o)) as [m|] eqn:A; [|exact H]. destruct (numpy_values (o_alpha o)) as [a|] eqn:B; [|exact H].
  destruct (numpy_values (o_alt o)) as [h|] eqn:C; [|exact H].
  apply values_ok in A. apply values_ok in B. apply values_ok in C.
  destruct (match c_surf st with Some s => surf_differs s (o_surf o) | None => false end); [exact H|].
  cbn. unfold good_cls, good. cbn. split; [reflexivity|]. split.
  - unfold grid_of, count. cbn. rewrite A, B, C. repeat split; reflexivity.
  - left. intros k s Q. reflexivity.
Qed.

Lemma step_good : forall g sv o xs fs st e, options_of e = o -> good_cls g sv o xs fs st ->
  good_cls g sv o (inputs_of e ++ xs) ((if raised (snd (step g sv st e)) then inputs_of e else []) ++ fs) (fst (step g sv st e)).
Proof.
  intros g sv o xs fs st e E H. destruct e as [o'|o' x fine|o' x fine]; cbn in E; subst o'.
  - unfold step. destruct (setup g o st) as [s r] eqn:S. cbn [fst snd inputs_of app].
    replace s with (fst (setup g o st)) by (rewrite S; reflexivity).
    destruct (raised (RSetup r)); apply setup_good; exact H.
  - unfold step, compute. unfold good_cls in H. destruct (c_cache st) as [c|] eqn:C.
    + pose proof (good_refresh g sv o xs fs x fine c H) as R. destruct (refresh g sv o x fine c) as [c' r].
      destruct r as [u|e]; cbn [fst snd inputs_of app]; unfold good_cls; cbn [c_cache].
      * destruct (raised (ROut (deliver g o x c'))); [|exact R].
        eapply good_more; [apply incl_refl | | exact R]. apply incl_tl, incl_refl.
      * cbn [raised]. exact R.
    + cbn. unfold good_cls. rewrite C. exact I.
  - unfold step, compute_partials. unfold good_cls in H. destruct (c_cache st) as [c|] eqn:C.
    + pose proof (good_refresh g sv o xs fs x fine c H) as R. destruct (refresh g sv o x fine c) as [c' r].
      destruct r as [u|e]; cbn [fst snd inputs_of app]; unfold good_cls; cbn [c_cache].
      * match goal with |- context [if raised ?q then _ else _] => destruct (raised q) end; [|exact R].
        eapply good_more; [apply incl_refl | | exact R]. apply incl_tl, incl_refl.
      * cbn [raised]. exact R.
    + cbn. unfold good_cls. rewrite C. exact I.
Qed.
Lemma history_good : forall g sv o es xs fs st, (forall e, In e es -> options_of e = o) -> good_cls g sv o xs fs st ->
  good_cls g sv o (flat_map inputs_of es ++ xs) (failed_inputs g sv es st ++ fs) (after g sv es st).
Proof.
  intros g sv o. induction es as [|e es IH]; intros xs fs st H G; [exact G|].
  unfold after. cbn [fold_left flat_map failed_inputs].
  pose proof (step_good g sv o xs fs st e (H e (or_introl eq_refl)) G) as S.
  pose proof (IH _ _ _ (fun e' I => H e' (or_intror I)) S) as R. fold (after g sv es (fst (step g sv st e))).
  unfold good_cls in *. destruct (c_cache (after g sv es (fst (step g sv st e)))) as [c|]; [|exact I].
  eapply good_more; [| | exact R].
  - intros y Q. rewrite !in_app_iff in *. tauto.
  - intros y Q. rewrite !in_app_iff in *. tauto.
Qed.

Lemma close_in : forall g o c x y,
  (forall k s, In (k, s) (kept g o) -> forall i, (i < prod s)%nat -> Rabs (x k i - c_in c k i) < tolerance g o) ->
  holds_in g o c y -> close g o x y.
Proof.
  intros g o c x y H HI k n i D Hi. destruct (kept_design g o k n D) as [s [K P]]. subst n.
  pose proof (H k s K i Hi) as L. rewrite (HI k s K) in L. destruct g; exact L.
Qed.
Lemma in_close : forall g o c x y, close g o x y -> holds_in g o c y ->
  (forall k s, In (k, s) (kept g o) -> forall i, (i < prod s)%nat -> Rabs (x k i - c_in c k i) < tolerance g o).
Proof.
  intros g o c x y H HI k s K i Hi. rewrite (HI k s K).
  pose proof (H k (prod s) i (design_kept g o k s K) Hi) as L. destruct g; exact L.
Qed.

(** A refresh of a good cache that succeeds leaves the data of close inputs. *)
Lemma refresh_data : forall g sv o xs fs x fine c c', good g sv o xs fs c -> refresh g sv o x fine c = (c', Ok tt) ->
  ~ close g o x placeholder -> (forall y, In y fs -> ~ close g o x y) -> 0 < tolerance g o ->
  exists x0, (x0 = x \/ In x0 xs) /\ close g o x x0 /\ holds_data g sv o c' x0 /\ c_shape c' = (count (o_Mach o), count (o_alpha o), count (o_alt o)).
Proof.
  intros g sv o xs fs x fine c c' [K [G P]] R NP NF PT.
  pose proof (refresh_spec g sv o x fine c K G) as S. rewrite R in S. destruct S as [K' [G' S]].
  destruct S as [[E [_ L]] | [_ [HI [[_ HD]|[e E]]]]]; [| | discriminate].
  - subst c'. destruct P as [P|[[y [A B]]|[y [A [B D]]]]].
    + exfalso. apply NP. apply (close_in g o c); assumption.
    + exfalso. apply (NF y A). apply (close_in g o c); assumption.
    + exists y. split; [right; exact A|]. split; [apply (close_in g o c); assumption|]. split; [exact D | apply G].
  - exists x. split; [left; reflexivity|]. split; [|split; [exact HD | apply G']].
    intros k n i D Hi. replace (x k i - x k i) with 0 by ring. rewrite Rabs_R0. destruct g; exact PT.
Qed.

(** ** Surface options *)
Lemma has_assoc : forall s k, has s k = true <-> exists v, assoc k s = Some v.
Proof.
  induction s as [|[k' v'] s IH]; intros k; cbn.
  - split; [discriminate | intros [v H]; discriminate].
  - rewrite (String.eqb_sym k k'). destruct (String.eqb k' k); cbn; [split; eauto | apply IH].
Qed.
Lemma in_assoc : forall (s : surf) k v, is_dict s -> In (k, v) s -> assoc k s = Some v.
Proof.
  induction s as [|[k' v'] s IH]; intros k v D H; [destruct H|]. inversion D as [|? ? N D']; subst. cbn.
  destruct H as [H|H].
  - injection H; intros; subst. rewrite String.eqb_refl. reflexivity.
  - destruct (String.eqb_spec k k') as [E|E]; [|apply IH; assumption].
    subst k'. exfalso. apply N. apply in_map_iff. exists (k, v). split; [reflexivity | exact H].
Qed.
Lemma assoc_in : forall (s : surf) k v, assoc k s = Some v -> In (k, v) s.
Proof.
  induction s as [|[k' v'] s IH]; intros k v H; [discriminate|]. cbn in H.
  destruct (String.eqb_spec k k') as [E|E]; [injection H; intros; subst; left; reflexivity | right; apply IH; exact H].
Qed.
Lemma sval_neq_spec : forall a b, sval_neq a b = false <-> a = b.
Proof.
  assert (C : forall x y : list R, ((List.length x =? List.length y)%nat &&
      forallb (fun p => if Req_EM_T (fst p) (snd p) then true else false) (combine x y)) = true <-> x = y).
  { induction x as [|a x IH]; intros [|b y]; cbn; try (split; [discriminate | discriminate]); [split; reflexivity|].
    destruct (Req_EM_T a b) as [E|E]; cbn.
    - rewrite IH. subst. split; [intros; subst; reflexivity | intros H; injection H; auto].
    - rewrite andb_false_r. split; [discriminate | intros H; injection H; intros; congruence]. }
  intros [x|x|x|x] [y|y|y|y]; cbn; try (split; discriminate).
  - destruct (Req_EM_T x y) as [E|E]; [subst; split; reflexivity | split; [discriminate | intros H; injection H; congruence]].
  - rewrite negb_false_iff, Bool.eqb_true_iff. split; [intros; subst; reflexivity | intros H; injection H; auto].
  - rewrite negb_false_iff, String.eqb_eq. split; [intros; subst; reflexivity | intros H; injection H; auto].
  - rewrite negb_false_iff, C. split; [intros; subst; reflexivity | intros H; injection H; auto].
Qed.
Lemma surf_differs_spec : forall s t, is_dict s -> is_dict t -> (surf_differs s t = false <-> same_dict s t).
Proof.
  intros s t Ds Dt. unfold surf_differs, same_keys. rewrite orb_false_iff, negb_false_iff, andb_true_iff.
  rewrite !forallb_forall. split.
  - intros [[K1 K2] E] k. destruct (assoc k s) as [v|] eqn:A.
    + assert (Q : (match assoc k t with Some w => sval_neq v w | None => true end) = false).
      { destruct (match assoc k t with Some w => sval_neq v w | None => true end) eqn:X; [|reflexivity].
        exfalso. assert (existsb (fun e => match assoc (fst e) t with Some v => sval_neq (snd e) v | None => true end) s = true); [|congruence].
        apply existsb_exists. exists (k, v). split; [apply assoc_in; exact A | exact X]. }
      destruct (assoc k t) as [w|]; [|discriminate]. apply sval_neq_spec in Q. subst. reflexivity.
    + destruct (assoc k t) as [w|] eqn:B; [|reflexivity]. exfalso.
      specialize (K2 (k, w) (assoc_in t k w B)). cbn in K2. apply has_assoc in K2. destruct K2 as [v V]. congruence.
  - intros E. split; [split|].
    + intros [k v] I. cbn. apply has_assoc. exists v. rewrite <- E. apply in_assoc; assumption.
    + intros [k v] I. cbn. apply has_assoc. exists v. rewrite E. apply in_assoc; assumption.
    + destruct (existsb (fun e => match assoc (fst e) t with Some v => sval_neq (snd e) v | None => true end) s) eqn:X; [|reflexivity].
      apply existsb_exists in X. destruct X as [[k v] [I X]]. cbn in X. rewrite <- E, (in_assoc s k v Ds I) in X.
      exfalso. assert (sval_neq v v = false) by (apply sval_neq_spec; reflexivity). congruence.
Qed.

Lemma step_surf : forall g sv st e,
  c_surf (fst (step g sv st e)) = match c_surf st with Some s => Some s | None => first_surf [e] end.
Proof.
  intros g sv st [o|o x fine|o x fine].
  - unfold step, setup. cbn [first_surf]. destruct (o_Mach o) as [m|m], (o_alpha o) as [a|a], (o_alt o) as [h|h]; cbn;
      try (destruct (c_surf st); reflexivity).
    destruct (c_surf st) as [s|] eqn:E; cbn.
    + destruct (surf_differs s (o_surf o)); cbn; [exact E | reflexivity].
    + reflexivity.
  - unfold step, compute. destruct (c_cache st) as [c|].
    + destruct (refresh g sv o x fine c) as [c' [r|e]]; cbn; destruct (c_surf st); reflexivity.
    + cbn. destruct (c_surf st); reflexivity.
  - unfold step, compute_partials. destruct (c_cache st) as [c|].
    + destruct (refresh g sv o x fine c) as [c' [r|e]]; cbn; destruct (c_surf st); reflexivity.
    + cbn. destruct (c_surf st); reflexivity.
Qed.
Lemma first_surf_cons : forall e es, first_surf (e :: es) = match first_surf [e] with Some s => Some s | None => first_surf es end.
Proof.
  intros [o|o x fine|o x fine] es; cbn; try reflexivity.
  destruct (o_Mach o), (o_alpha o), (o_alt o); reflexivity.
Qed.
Lemma after_surf : forall g sv es st,
  c_surf (after g sv es st) = match c_surf st with Some s => Some s | None => first_surf es end.
Proof.
  intros g sv. induction es as [|e es IH]; intros st.
  - cbn. destruct (c_surf st); reflexivity.
  - unfold after. cbn [fold_left]. fold (after g sv es (fst (step g sv st e))). rewrite IH, step_surf, (first_surf_cons e es).
    destruct (c_surf st); [reflexivity|]. destruct (first_surf [e]); reflexivity.
Qed.
