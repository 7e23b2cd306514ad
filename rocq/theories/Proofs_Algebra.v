(** Proofs about the add/subtract and multiply/divide components. *)
From Coq Require Import Reals List Bool PeanoNat String ZArith Lra Lia.
From Coquelicot Require Import Coquelicot.
From Verif Require Import Base Py RSum Model_Algebra Spec_Algebra.
Import ListNotations.
Open Scope R_scope.

Lemma combine_nth_seq {A B} (l1 : list A) (l2 : list B) d1 d2 :
  List.length l1 = List.length l2 ->
  combine l1 l2 = map (fun i => (nth i l1 d1, nth i l2 d2)) (seq 0 (List.length l1)).
Proof.
  revert l2. induction l1 as [|a l1 IH]; intros [|b l2] H; simpl in *; try discriminate; auto.
  f_equal. injection H as H. rewrite (IH _ H), <- seq_shift, map_map. reflexivity.
Qed.

Lemma nth_map_seq {A} (f : nat -> A) n i d : (i < n)%nat -> nth i (map f (seq 0 n)) d = f i.
Proof.
  intro H. rewrite (nth_indep _ d (f 0%nat)) by (rewrite map_length, seq_length; lia).
  rewrite (map_nth f). f_equal. rewrite seq_nth; lia.
Qed.

Lemma nth_repeat_lt {A} (a d : A) n i : (i < n)%nat -> nth i (repeat a n) d = a.
Proof. revert i. induction n; intros [|i] H; simpl; try lia; auto. apply IHn; lia. Qed.

Lemma map_seq_ext {A} (f g : nat -> A) n : (forall i, (i < n)%nat -> f i = g i) ->
  map f (seq 0 n) = map g (seq 0 n).
Proof. intro H. apply map_ext_in. intros i Hi. apply in_seq in Hi. apply H; lia. Qed.

(** Sizes *)
Lemma forallb_fits_repeat v n : forallb (fun w => fits w v) (repeat v n) = true.
Proof. induction n; simpl; auto. unfold fits at 1. rewrite Nat.eqb_refl, orb_true_r. auto. Qed.

Lemma fits_iff v n : fits v n = true <-> v = 1%nat \/ v = n.
Proof. unfold fits. rewrite orb_true_iff, !Nat.eqb_eq. tauto. Qed.

Lemma read_sizes_ok v nin : sizes_wf v nin ->
  read_sizes v nin = Ok (out_size v, map (in_size v) (seq 0 nin)) /\
  forallb (fun w => fits w (out_size v)) (map (in_size v) (seq 0 nin)) = true.
Proof.
  destruct v as [n|l]; simpl; intro H.
  - assert (E : repeat n nin = map (in_size (VInt n)) (seq 0 nin)).
    { clear H. generalize 0%nat. induction nin; intro k; simpl; auto. now rewrite (IHnin (S k)). }
    rewrite <- E. split; auto. apply forallb_fits_repeat.
  - destruct H as [Hne [Hl Hf]].
    assert (E : l = map (in_size (VList l)) (seq 0 nin)).
    { subst nin. clear. simpl. induction l; simpl; auto. f_equal.
      rewrite <- seq_shift, map_map. simpl. exact IHl. }
    rewrite Hl, Nat.eqb_refl. simpl. split.
    + destruct l; [tauto|]. now rewrite <- E.
    + rewrite <- E. apply forallb_forall. intros n Hn. apply fits_iff. auto.
Qed.

Lemma read_sizes_only v nin vs : read_sizes v nin = Ok vs ->
  forallb (fun w => fits w (fst vs)) (snd vs) = true -> sizes_wf v nin.
Proof.
  destruct v as [n|l]; simpl; auto.
  destruct (Nat.eqb_spec (List.length l) nin); simpl; [|discriminate].
  destruct l as [|a l]; [discriminate|]. intros H Hf. injection H as <-. simpl fst in Hf; simpl snd in Hf.
  split; [discriminate|]. split; auto. intros m Hm.
  rewrite forallb_forall in Hf. now apply fits_iff, Hf.
Qed.

Definition add_ri (s : add_sys) : list (string * nat * R) :=
  map (fun i => (nth i (as_ins s) ""%string, in_size (as_vec s) i, factor s i)) (seq 0 (List.length (as_ins s))).

Lemma add_resolve_ok s : add_wf s -> add_resolve s = Ok (out_size (as_vec s), add_ri s).
Proof.
  intros [Hs Hf]. unfold add_resolve. destruct (read_sizes_ok _ _ Hs) as [-> Hfit].
  set (sfs := match as_sf s with None => _ | Some l => l end).
  assert (Hl : List.length sfs = List.length (as_ins s)).
  { unfold sfs. destruct (as_sf s); auto. apply repeat_length. }
  rewrite Hl, Nat.eqb_refl. cbn [negb res_bind fst snd]. rewrite Hfit. cbn [negb].
  f_equal. f_equal. unfold add_ri.
  rewrite (combine_nth_seq _ _ (""%string, 0%nat) 0)
    by (rewrite combine_length, map_length, seq_length; lia).
  rewrite combine_length, map_length, seq_length, Nat.min_id.
  apply map_seq_ext. intros i Hi.
  rewrite combine_nth by (now rewrite map_length, seq_length).
  rewrite nth_map_seq by auto. f_equal.
  unfold sfs, factor. destruct (as_sf s); auto. now apply nth_repeat_lt.
Qed.

Lemma add_resolve_only s vi : add_resolve s = Ok vi -> add_wf s.
Proof.
  unfold add_resolve, add_wf. set (sfs := match as_sf s with None => _ | Some l => l end).
  destruct (Nat.eqb_spec (List.length sfs) (List.length (as_ins s))) as [Hl|]; simpl; [|discriminate].
  destruct (read_sizes (as_vec s) _) as [vs|] eqn:E; simpl; [|discriminate].
  destruct (forallb _ _) eqn:F; simpl; [|discriminate]. intros _. split.
  - eapply read_sizes_only; eauto.
  - unfold sfs in Hl. destruct (as_sf s); auto.
Qed.

Lemma declare_ok names new : (exists n', declare names new = Ok n') <->
  NoDup new /\ forall x, In x new -> ~ In x names.
Proof.
  revert names. induction new as [|x new IH]; simpl; intro names.
  - split; [intros _; split; [constructor|tauto]|intros _; eauto].
  - assert (Hex : existsb (String.eqb x) names = true <-> In x names).
    { rewrite existsb_exists. split; [intros [y [Hy He]]; apply String.eqb_eq in He; now subst|].
      intro. exists x. split; auto. apply String.eqb_refl. }
    destruct (existsb (String.eqb x) names) eqn:E.
    + split; [intros [n' Hn]; discriminate|]. intros [_ H]. exfalso. apply (H x); tauto.
    + rewrite IH. assert (Hx : ~ In x names) by (rewrite <- Hex; congruence).
      split.
      * intros [Hn Hd]. split; [constructor; auto; intro Hi; apply (Hd _ Hi); now left|].
        intros y [<-|Hy]; auto. intro Hi. apply (Hd _ Hy). now right.
      * intros [Hn Hd]. inversion Hn; subst. split; auto. intros y Hy [<-|Hi]; [tauto|].
        apply (Hd y); auto.
Qed.

Lemma declare_names names new n' : declare names new = Ok n' -> forall x, In x n' <-> In x names \/ In x new.
Proof.
  revert names. induction new as [|y new IH]; simpl; intros names H x.
  - injection H as ->. tauto.
  - destruct (existsb _ _); [discriminate|]. rewrite (IH _ H). simpl. tauto.
Qed.

Lemma NoDup_app_iff {A} (l1 l2 : list A) :
  NoDup (l1 ++ l2) <-> NoDup l1 /\ NoDup l2 /\ forall x, In x l1 -> ~ In x l2.
Proof.
  induction l1 as [|a l1 IH]; simpl.
  - split; [intro; split; [constructor|split; auto]|tauto].
  - split.
    + intro H. inversion H; subst. apply IH in H3. rewrite in_app_iff in H2. destruct H3 as [? [? ?]].
      split; [constructor; tauto|]. split; auto. intros x [<-|?]; auto.
    + intros [H1 [H2 H3]]. inversion H1; subst. constructor.
      * rewrite in_app_iff. intros [?|?]; [tauto|]. apply (H3 a); auto.
      * apply IH. split; auto.
Qed.

Lemma add_setup_from_iff l : forall names,
  is_ok (add_setup_from names l) = true <->
  List.Forall add_wf l /\ NoDup (concat (map add_names l)) /\
  forall x, In x (concat (map add_names l)) -> ~ In x names.
Proof.
  induction l as [|s l IH]; intro names; cbn [add_setup_from].
  - simpl. split; auto. intros _. repeat split; try constructor; tauto.
  - cbn [map concat]. rewrite NoDup_app_iff.
    destruct (add_resolve s) as [vi|] eqn:E; cbn [res_bind].
    2:{ split; [discriminate|]. intros [H _]. inversion H; subst.
        rewrite (add_resolve_ok s) in E by auto. discriminate. }
    apply add_resolve_only in E.
    destruct (declare names (as_out s :: as_ins s)) as [names'|] eqn:D; cbn [res_bind].
    2:{ split; [discriminate|]. intros [_ [[H1 _] H2]].
        destruct (proj2 (declare_ok names (as_out s :: as_ins s))) as [n' Hn']; [|congruence].
        split; auto. intros x Hx. apply H2. apply in_app_iff. now left. }
    pose proof (declare_names _ _ _ D) as Hnm.
    destruct (proj1 (declare_ok names (as_out s :: as_ins s)) (ex_intro _ _ D)) as [Hnd Hdis].
    specialize (IH names'). destruct (add_setup_from names' l) as [dl|] eqn:F; cbn [res_bind is_ok] in *.
    + split; auto. intros _. destruct (proj1 IH eq_refl) as [H1 [H2 H3]].
      split; [constructor; auto|]. split; [split; auto; split; auto|].
      * intros x Hx Hc. apply (H3 _ Hc). apply Hnm. now right.
      * intros x Hx. apply in_app_iff in Hx. destruct Hx as [Hx|Hx]; auto.
        intro Hc. apply (H3 _ Hx), Hnm. now left.
    + split; [discriminate|]. intros [H1 [[H2 [H3 H4]] H5]]. apply IH. inversion H1; subst.
      split; auto. split; auto. intros x Hx Hc. apply Hnm in Hc. destruct Hc as [Hc|Hc].
      * apply (H5 x); auto. apply in_app_iff; auto.
      * apply (H4 _ Hc Hx).
Qed.

Lemma add_setup_iff l : is_ok (add_setup l) = true <->
  List.Forall add_wf l /\ NoDup (concat (map add_names l)).
Proof. unfold add_setup. rewrite add_setup_from_iff. simpl. firstorder. Qed.

(** Values *)
Lemma bidx_entry v len row col x : (col < len)%nat ->
  x (bidx v len (row * len + col)) = entry x v len row col.
Proof.
  intro H. unfold bidx, entry, row_of. destruct (Nat.eqb v 1); [|reflexivity].
  f_equal. rewrite Nat.add_comm, Nat.mod_add, Nat.mod_small; lia.
Qed.

Lemma fold_left_rsum (f : nat -> R) n : forall a,
  fold_left (fun t i => t + f i) (seq 0 n) a = a + rsum n f.
Proof.
  induction n; intro a; [simpl; ring|]. rewrite seq_S, fold_left_app, IHn. simpl. ring.
Qed.
Lemma fold_left_rprod (f : nat -> R) n :
  fold_left (fun t i => t * f i) (seq 0 n) 1 = rprod n f.
Proof. induction n; [reflexivity|]. rewrite seq_S, fold_left_app, IHn. reflexivity. Qed.
Lemma fold_left_map {A B C} (f : A -> C -> A) (g : B -> C) l : forall a,
  fold_left f (map g l) a = fold_left (fun t b => f t (g b)) l a.
Proof. induction l; simpl; auto. Qed.
Lemma fold_left_ext {A B} (f g : A -> B -> A) l : (forall a b, f a b = g a b) ->
  forall a, fold_left f l a = fold_left g l a.
Proof. intro H. induction l; simpl; intros; auto. now rewrite H, IHl. Qed.

Lemma add_compute_flat s E r : add_wf s ->
  add_compute s E r = Ok (rsum (List.length (as_ins s)) (fun i =>
    factor s i * E (nth i (as_ins s) ""%string) (bidx (in_size (as_vec s) i) (as_len s) r))).
Proof.
  intro H. unfold add_compute. rewrite add_resolve_ok by auto. cbn [res_bind snd]. unfold add_ri.
  rewrite fold_left_map. cbn [fst snd].
  rewrite (fold_left_rsum (fun i => E (nth i (as_ins s) ""%string) (bidx (in_size (as_vec s) i) (as_len s) r) * factor s i)).
  f_equal. rewrite Rplus_0_l. apply rsum_ext. intros. ring.
Qed.

Lemma add_value s E row col : add_wf s -> (col < as_len s)%nat ->
  add_compute s E (row * as_len s + col) = Ok (rsum (List.length (as_ins s)) (fun i =>
    factor s i * entry (E (nth i (as_ins s) ""%string)) (in_size (as_vec s) i) (as_len s) row col)).
Proof.
  intros H Hc. rewrite add_compute_flat by auto. f_equal. apply rsum_ext. intros.
  f_equal. now rewrite (bidx_entry _ _ _ _ (E _)).
Qed.

Lemma find_in_map {A} (ins : list string) (g : nat -> nat) (h : nat -> A) x i :
  NoDup ins -> (i < List.length ins)%nat -> nth i ins ""%string = x ->
  find_in x (map (fun i => (nth i ins ""%string, g i, h i)) (seq 0 (List.length ins))) = Some (g i, h i).
Proof.
  intros Hnd Hi Hx.
  assert (Hgen : forall n k, (k <= i < k + n)%nat -> (k + n <= List.length ins)%nat ->
     find_in x (map (fun i => (nth i ins ""%string, g i, h i)) (seq k n)) = Some (g i, h i)).
  { induction n; intros k Hk Hl; [lia|]. cbn [seq map find_in].
    destruct (String.eqb_spec x (nth k ins ""%string)) as [He|He].
    - assert (k = i).
      { apply (proj1 (NoDup_nth ins ""%string) Hnd); try lia. congruence. }
      now subst.
    - apply IHn; try lia. assert (k <> i) by (intros ->; congruence). lia. }
  apply Hgen; lia.
Qed.

Lemma is_derive_rsum n (F : R -> nat -> R) (G : nat -> R) x :
  (forall k, (k < n)%nat -> is_derive (fun t => F t k) x (G k)) ->
  is_derive (fun t => rsum n (F t)) x (rsum n G).
Proof.
  intro H. induction n; simpl.
  - apply (is_derive_const 0 x).
  - apply (@is_derive_plus R_AbsRing R_NormedModule); auto.
Qed.

Lemma updE_hit E x c t : updE E x c t x c = t.
Proof. unfold updE. now rewrite String.eqb_refl, Nat.eqb_refl. Qed.
Lemma updE_miss E x c t y j : (x <> y \/ c <> j) -> updE E x c t y j = E y j.
Proof.
  unfold updE. intro H. destruct (String.eqb_spec x y); auto. destruct (Nat.eqb_spec c j); auto. tauto.
Qed.

Lemma updE_derive E x c y j : is_derive (fun t => updE E x c t y j) (E x c)
  (if (String.eqb x y && Nat.eqb c j)%bool then 1 else 0).
Proof.
  destruct (String.eqb_spec x y) as [<-|Hx]; [destruct (Nat.eqb_spec c j) as [<-|Hc]|]; simpl.
  - eapply is_derive_ext; [intro t; symmetry; apply updE_hit|]. apply (is_derive_id (K := R_AbsRing)).
  - apply (is_derive_ext (fun _ => E x j)); [intro t; symmetry; apply updE_miss; auto|]. apply (is_derive_const (E x j)).
  - apply (is_derive_ext (fun _ => E y j)); [intro t; symmetry; apply updE_miss; auto|]. apply (is_derive_const (E y j)).
Qed.

Definition add_flat (s : add_sys) (E : env) (r : nat) : R :=
  rsum (List.length (as_ins s)) (fun i =>
    factor s i * E (nth i (as_ins s) ""%string) (bidx (in_size (as_vec s) i) (as_len s) r)).

Lemma add_true_derivative s E i r c : NoDup (as_ins s) -> (i < List.length (as_ins s))%nat ->
  let x := nth i (as_ins s) ""%string in
  is_derive (fun t => add_flat s (updE E x c t) r) (E x c)
    (if Nat.eqb (bidx (in_size (as_vec s) i) (as_len s) r) c then factor s i else 0).
Proof.
  intros Hnd Hi x. unfold add_flat.
  evar_last.
  - apply is_derive_rsum. intros k Hk. apply is_derive_scal. apply updE_derive.
  - rewrite (rsum_one _ _ i); auto.
    + unfold x. rewrite String.eqb_refl. rewrite Nat.eqb_sym. simpl. destruct (Nat.eqb _ c); ring.
    + intros k Hk Hne. destruct (String.eqb_spec x (nth k (as_ins s) ""%string)) as [He|He]; simpl.
      * exfalso. apply Hne. apply (proj1 (NoDup_nth (as_ins s) ""%string) Hnd); auto.
      * ring.
Qed.

Lemma add_jac_val s x i r c : add_wf s -> NoDup (as_ins s) -> (i < List.length (as_ins s))%nat ->
  nth i (as_ins s) ""%string = x ->
  add_jac s x r c = Ok (if Nat.eqb (part_col (in_size (as_vec s) i) r) c then factor s i else 0).
Proof.
  intros. unfold add_jac. rewrite add_resolve_ok by auto. cbn [res_bind snd]. unfold add_ri.
  now rewrite (find_in_map _ (in_size (as_vec s)) (factor s) x i).
Qed.

Lemma add_jac_ok s E i r c x : add_wf s -> NoDup (as_ins s) -> (i < List.length (as_ins s))%nat ->
  nth i (as_ins s) ""%string = x ->
  (as_len s = 1%nat \/ in_size (as_vec s) i <> 1%nat) ->
  exists J, add_jac s x r c = Ok J /\
    is_derive (fun t => get (add_compute s (updE E x c t) r)) (E x c) J.
Proof.
  intros Hw Hnd Hi Hx Hl. rewrite (add_jac_val s x i) by auto. eexists; split; [reflexivity|].
  eapply is_derive_ext; [intro t; rewrite add_compute_flat by auto; reflexivity|].
  evar_last; [subst x; apply (add_true_derivative s E i r c Hnd Hi)|].
  unfold bidx, part_col. destruct (Nat.eqb_spec (in_size (as_vec s) i) 1) as [H1|H1]; auto.
  destruct Hl as [->|?]; [|tauto]. now rewrite Nat.mod_1_r.
Qed.

Lemma add_jac_wrong s E i x : add_wf s -> NoDup (as_ins s) -> (i < List.length (as_ins s))%nat ->
  nth i (as_ins s) ""%string = x ->
  (1 < as_len s)%nat -> in_size (as_vec s) i = 1%nat -> factor s i <> 0 ->
  exists J, add_jac s x 1 1 = Ok J /\
    ~ is_derive (fun t => get (add_compute s (updE E x 1 t) 1)) (E x 1%nat) J.
Proof.
  intros Hw Hnd Hi Hx Hl Hs Hf. rewrite (add_jac_val s x i) by auto. eexists; split; [reflexivity|].
  rewrite Hs. cbn [part_col Nat.eqb]. intro HD.
  pose proof (add_true_derivative s E i 1 1 Hnd Hi) as HT. cbv zeta in HT. rewrite Hx in HT.
  unfold bidx in HT. rewrite Hs in HT. cbn [Nat.eqb] in HT.
  rewrite Nat.mod_small in HT by lia. cbn [Nat.eqb] in HT.
  apply is_derive_unique in HT.
  assert (HD' : is_derive (fun t => add_flat s (updE E x 1 t) 1) (E x 1%nat) 0).
  { eapply is_derive_ext; [|exact HD]. intro t. simpl. now rewrite add_compute_flat by auto. }
  apply is_derive_unique in HD'. congruence.
Qed.

(** Repeated setup *)

Lemma add_resolve_popped s : add_resolve (add_popped s) = add_resolve s. Proof. reflexivity. Qed.

Lemma add_decls_strip s v ins : map strip (add_decls s v ins) = add_decls (add_popped s) v ins.
Proof.
  unfold add_decls. simpl. f_equal. induction ins; simpl; auto. now rewrite IHins.
Qed.

Lemma add_setup_popped l : forall names ds l', add_setup_from names l = Ok (ds, l') ->
  l' = map add_popped l /\ add_setup_from names l' = Ok (map strip ds, l').
Proof.
  induction l as [|s l IH]; intros names ds l'; cbn [add_setup_from].
  - intro H. injection H as <- <-. auto.
  - destruct (add_resolve s) as [vi|] eqn:E; cbn [res_bind]; [|discriminate].
    destruct (declare _ _) as [names'|] eqn:D; cbn [res_bind]; [|discriminate].
    destruct (add_setup_from names' l) as [[ds1 l1]|] eqn:F; cbn [res_bind]; [|discriminate].
    intro H. injection H as <- <-. destruct (IH _ _ _ F) as [-> H2].
    cbn [snd fst]. split; [reflexivity|]. cbn [add_setup_from]. rewrite add_resolve_popped, E. cbn [res_bind].
    change (as_out (add_popped s) :: as_ins (add_popped s)) with (as_out s :: as_ins s). rewrite D.
    cbn [res_bind]. rewrite H2. cbn [res_bind fst snd].
    change (Ok ((add_decls (add_popped s) (fst vi) (snd vi) ++ map strip ds1)%list, add_popped s :: map add_popped l)
          = Ok (map strip (add_decls s (fst vi) (snd vi) ++ ds1)%list, add_popped s :: map add_popped l)).
    rewrite map_app, add_decls_strip. reflexivity.
Qed.

Lemma strip_strip ds : map strip (map strip ds) = map strip ds.
Proof. rewrite map_map. apply map_ext. now intros []. Qed.

Lemma setup_again n l ds l' : add_setup l = Ok (ds, l') ->
  setup_n (S n) l = Ok (map strip ds, l').
Proof.
  intro H. induction n.
  - cbn [setup_n]. rewrite H. cbn [res_bind snd]. now apply (add_setup_popped l []).
  - change (setup_n (S (S n)) l) with (res_bind (setup_n (S n) l) (fun dl => add_setup (snd dl))).
    rewrite IHn. cbn [res_bind snd]. now apply (add_setup_popped l []).
Qed.

(** ** Multiply / divide *)
Definition mul_ri (s : mul_sys) : list (string * nat * bool) :=
  map (fun i => (nth i (ms_ins s) ""%string, in_size (ms_vec s) i, divided s i)) (seq 0 (List.length (ms_ins s))).

Lemma mul_resolve_ok s : mul_wf s -> exists us,
  mul_resolve s = Ok (out_size (ms_vec s), mul_ri s, us).
Proof.
  intros [Hs [Hf Hu]]. unfold mul_resolve. destruct (read_sizes_ok _ _ Hs) as [-> Hfit].
  set (dv := match ms_div s with None => _ | Some l => l end).
  set (un := match ms_units s with None => _ | Some l => l end).
  assert (Hl : List.length dv = List.length (ms_ins s)).
  { unfold dv. destruct (ms_div s); auto. apply repeat_length. }
  assert (Hlu : List.length un = List.length (ms_ins s)).
  { unfold un. destruct (ms_units s); auto. apply repeat_length. }
  rewrite Hl, Hlu, Nat.eqb_refl. cbn [negb res_bind fst snd]. rewrite Hfit. cbn [negb].
  eexists. f_equal. f_equal. f_equal. unfold mul_ri.
  rewrite (combine_nth_seq _ _ (""%string, 0%nat) false)
    by (rewrite combine_length, map_length, seq_length; lia).
  rewrite combine_length, map_length, seq_length, Nat.min_id.
  apply map_seq_ext. intros i Hi.
  rewrite combine_nth by (now rewrite map_length, seq_length).
  rewrite nth_map_seq by auto. f_equal.
  unfold dv, divided. destruct (ms_div s); auto. now apply nth_repeat_lt.
Qed.

Lemma mul_resolve_only s vi : mul_resolve s = Ok vi -> mul_wf s.
Proof.
  unfold mul_resolve, mul_wf.
  set (dv := match ms_div s with None => _ | Some l => l end).
  set (un := match ms_units s with None => _ | Some l => l end).
  destruct (Nat.eqb_spec (List.length dv) (List.length (ms_ins s))) as [Hl|]; simpl; [|discriminate].
  destruct (Nat.eqb_spec (List.length un) (List.length (ms_ins s))) as [Hlu|]; simpl; [|discriminate].
  destruct (read_sizes (ms_vec s) _) as [vs|] eqn:E; simpl; [|discriminate].
  destruct (forallb _ _) eqn:F; simpl; [|discriminate]. intros _. split; [|split].
  - eapply read_sizes_only; eauto.
  - unfold dv in Hl. destruct (ms_div s); auto.
  - unfold un in Hlu. destruct (ms_units s); auto.
Qed.

Lemma NoDup_snoc {A} (l : list A) a : NoDup (l ++ [a]) <-> NoDup (a :: l).
Proof.
  rewrite NoDup_app_iff. split.
  - intros [H1 [_ H3]]. constructor; auto. intro Hi. apply (H3 a Hi). now left.
  - intro H. inversion H; subst. repeat split; auto.
    + constructor; [tauto|constructor].
    + intros x Hx [<-|[]]. tauto.
Qed.

Lemma mul_setup_from_iff l : forall names,
  is_ok (mul_setup_from names l) = true <->
  List.Forall mul_wf l /\ NoDup (concat (map mul_names l)) /\
  forall x, In x (concat (map mul_names l)) -> ~ In x names.
Proof.
  induction l as [|s l IH]; intro names; cbn [mul_setup_from].
  - simpl. split; auto. intros _. repeat split; try constructor; tauto.
  - cbn [map concat]. rewrite NoDup_app_iff.
    destruct (mul_resolve s) as [vi|] eqn:E; cbn [res_bind].
    2:{ split; [discriminate|]. intros [H _]. inversion H; subst.
        destruct (mul_resolve_ok s H2) as [us Hus]. congruence. }
    apply mul_resolve_only in E.
    assert (Hin : forall x, In x (ms_ins s ++ [ms_out s])%list <-> In x (mul_names s)).
    { intro x. rewrite in_app_iff. simpl. tauto. }
    destruct (declare names (ms_ins s ++ [ms_out s])) as [names'|] eqn:D; cbn [res_bind].
    2:{ split; [discriminate|]. intros [_ [[H1 _] H2]].
        destruct (proj2 (declare_ok names (ms_ins s ++ [ms_out s]))) as [n' Hn']; [|congruence].
        split; [now apply NoDup_snoc|]. intros x Hx. apply H2. apply in_app_iff. left. now apply Hin. }
    pose proof (declare_names _ _ _ D) as Hnm.
    destruct (proj1 (declare_ok _ _) (ex_intro _ _ D)) as [Hnd Hdis].
    apply NoDup_snoc in Hnd.
    rewrite (IH names'). split.
    + intros [H1 [H2 H3]].
      split; [constructor; auto|]. split; [split; auto; split; auto|].
      * intros x Hx Hc. apply (H3 _ Hc). apply Hnm. right. now apply Hin.
      * intros x Hx. apply in_app_iff in Hx. destruct Hx as [Hx|Hx].
        { apply Hdis. now apply Hin. }
        intro Hc. apply (H3 _ Hx), Hnm. now left.
    + intros [H1 [[H2 [H3 H4]] H5]]. inversion H1; subst.
      split; auto. split; auto. intros x Hx Hc. apply Hnm in Hc. destruct Hc as [Hc|Hc].
      * apply (H5 x); auto. apply in_app_iff; auto.
      * apply Hin in Hc. apply (H4 _ Hc Hx).
Qed.

Lemma mul_setup_iff l : is_ok (mul_setup l) = true <->
  List.Forall mul_wf l /\ NoDup (concat (map mul_names l)).
Proof. unfold mul_setup. rewrite mul_setup_from_iff. simpl. firstorder. Qed.

Lemma rprod_ext n f g : (forall k, (k < n)%nat -> f k = g k) -> rprod n f = rprod n g.
Proof. intro H. induction n; simpl; auto. rewrite IHn, H; auto. Qed.

Definition mul_term (s : mul_sys) (E : env) (r i : nat) : R :=
  let v := E (nth i (ms_ins s) ""%string) (bidx (in_size (ms_vec s) i) (ms_len s) r) in
  if divided s i then / v else v.
Definition mul_flat (s : mul_sys) (E : env) (r : nat) : R :=
  ms_sf s * rprod (List.length (ms_ins s)) (mul_term s E r).

Lemma mul_compute_flat s E r : mul_wf s -> mul_compute s E r = Ok (mul_flat s E r).
Proof.
  intro H. unfold mul_compute. destruct (mul_resolve_ok s H) as [us ->]. cbn [res_bind fst snd].
  unfold mul_ri, mul_flat. rewrite fold_left_map. cbn [fst snd]. rewrite Rmult_comm. f_equal. f_equal.
  rewrite <- fold_left_rprod. apply fold_left_ext. intros a i. unfold mul_term.
  destruct (divided s i); [unfold Rdiv|]; ring.
Qed.

Lemma mul_value s E row col : mul_wf s -> (col < ms_len s)%nat ->
  mul_compute s E (row * ms_len s + col) = Ok (ms_sf s * rprod (List.length (ms_ins s)) (fun i =>
    let v := entry (E (nth i (ms_ins s) ""%string)) (in_size (ms_vec s) i) (ms_len s) row col in
    if divided s i then / v else v)).
Proof.
  intros H Hc. rewrite mul_compute_flat by auto. unfold mul_flat. f_equal. f_equal.
  apply rprod_ext. intros. unfold mul_term. cbv zeta. now rewrite (bidx_entry _ _ _ _ (E _)).
Qed.

Lemma is_derive_rprod n (F : R -> nat -> R) i g x : (i < n)%nat ->
  (forall k t, (k < n)%nat -> k <> i -> F t k = F x k) ->
  is_derive (fun t => F t i) x g ->
  is_derive (fun t => rprod n (F t)) x (rprod n (fun k => if Nat.eqb k i then g else F x k)).
Proof.
  intros Hi Hc Hd. induction n; [lia|]. cbn [rprod].
  destruct (Nat.eq_dec i n) as [->|Hne].
  - rewrite Nat.eqb_refl.
    rewrite (rprod_ext n (fun k => if Nat.eqb k n then g else F x k) (F x))
      by (intros k Hk; destruct (Nat.eqb_spec k n); [lia|auto]).
    eapply is_derive_ext; [intro t; rewrite (rprod_ext n (F t) (F x)) by (intros; apply Hc; lia); reflexivity|].
    evar_last; [apply is_derive_scal; exact Hd|reflexivity].
  - replace (Nat.eqb n i) with false by (symmetry; apply Nat.eqb_neq; auto).
    eapply is_derive_ext; [intro t; rewrite (Hc n t) by lia; reflexivity|].
    apply (is_derive_scal_l (fun t => rprod n (F t)) x _ (F x n)). apply IHn; [lia|]. intros; apply Hc; lia.
Qed.

Lemma mul_partial_val s E i r x : NoDup (ms_ins s) -> (i < List.length (ms_ins s))%nat ->
  nth i (ms_ins s) ""%string = x ->
  mul_partial s (mul_ri s) E x r = ms_sf s *
    rprod (List.length (ms_ins s)) (fun k =>
      if Nat.eqb k i then (if divided s i then - / (E x (bidx (in_size (ms_vec s) i) (ms_len s) r)) ^ 2 else 1)
      else mul_term s E r k).
Proof.
  intros Hnd Hi Hx. unfold mul_partial, mul_ri. rewrite fold_left_map. cbn [fst snd].
  rewrite Rmult_comm. f_equal. 
  rewrite (rprod_ext _ _ (fun k =>
      if String.eqb (nth k (ms_ins s) ""%string) x
      then (if divided s k then - / (E x (bidx (in_size (ms_vec s) k) (ms_len s) r)) ^ 2 else 1)
      else mul_term s E r k)).
  - rewrite <- fold_left_rprod. apply fold_left_ext. intros a k.
    destruct (String.eqb_spec (nth k (ms_ins s) ""%string) x) as [He|He]; simpl negb; cbv iota.
    + rewrite He. destruct (divided s k); [unfold Rdiv|]; ring.
    + unfold mul_term. cbv zeta. destruct (divided s k); [unfold Rdiv|]; ring.
  - intros k Hk. destruct (Nat.eqb_spec k i) as [->|Hne].
    + now rewrite Hx, String.eqb_refl.
    + destruct (String.eqb_spec (nth k (ms_ins s) ""%string) x) as [He|He]; auto.
      exfalso. apply Hne, (proj1 (NoDup_nth (ms_ins s) ""%string) Hnd); auto. congruence.
Qed.

Lemma mul_term_other s E x c t r k i : NoDup (ms_ins s) -> (i < List.length (ms_ins s))%nat ->
  nth i (ms_ins s) ""%string = x -> (k < List.length (ms_ins s))%nat ->
  (k <> i \/ bidx (in_size (ms_vec s) i) (ms_len s) r <> c) ->
  mul_term s (updE E x c t) r k = mul_term s E r k.
Proof.
  intros Hnd Hi Hx Hk Hne. unfold mul_term. cbv zeta. rewrite updE_miss; auto.
  destruct (Nat.eq_dec k i) as [->|Hki]; [destruct Hne; [tauto|auto]|].
  left. intro He. apply Hki, (proj1 (NoDup_nth (ms_ins s) ""%string) Hnd); auto. congruence.
Qed.

Lemma mul_true_derivative s E i r c x : NoDup (ms_ins s) -> (i < List.length (ms_ins s))%nat ->
  nth i (ms_ins s) ""%string = x ->
  (divided s i = true -> E x c <> 0) ->
  is_derive (fun t => mul_flat s (updE E x c t) r) (E x c)
    (if Nat.eqb (bidx (in_size (ms_vec s) i) (ms_len s) r) c then mul_partial s (mul_ri s) E x r else 0).
Proof.
  intros Hnd Hi Hx Hdiv. unfold mul_flat.
  destruct (Nat.eqb_spec (bidx (in_size (ms_vec s) i) (ms_len s) r) c) as [Hc|Hc].
  - rewrite (mul_partial_val s E i r x) by auto. apply is_derive_scal.
    evar_last.
    + apply (is_derive_rprod _ (fun t => mul_term s (updE E x c t) r) i
               (if divided s i then - / (E x (bidx (in_size (ms_vec s) i) (ms_len s) r)) ^ 2 else 1)); auto.
      * intros k t Hk Hne. rewrite !(mul_term_other s E x c _ r k i); auto.
      * unfold mul_term. cbv zeta. rewrite Hx, Hc. destruct (divided s i).
        -- specialize (Hdiv eq_refl).
           apply (is_derive_ext (fun t => / t)); [intro t; now rewrite updE_hit|].
           auto_derive; auto. field. auto.
        -- apply (is_derive_ext (fun t => t)); [intro t; now rewrite updE_hit|].
           apply (is_derive_id (K := R_AbsRing)).
    + apply rprod_ext. intros k Hk. destruct (Nat.eqb_spec k i); auto.
      rewrite (mul_term_other s E x c _ r k i); auto.
  - eapply is_derive_ext; [|apply (is_derive_const (ms_sf s * rprod (List.length (ms_ins s)) (mul_term s E r)))].
    intro t. cbv beta. f_equal. apply rprod_ext. intros k Hk. symmetry. apply (mul_term_other s E x c _ r k i); auto.
Qed.

Lemma mul_jac_val s E x i r c : mul_wf s -> NoDup (ms_ins s) -> (i < List.length (ms_ins s))%nat ->
  nth i (ms_ins s) ""%string = x ->
  mul_jac s E x r c = Ok (if Nat.eqb (part_col (in_size (ms_vec s) i) r) c then mul_partial s (mul_ri s) E x r else 0).
Proof.
  intros. unfold mul_jac. destruct (mul_resolve_ok s) as [us ->]; auto. cbn [res_bind fst snd].
  replace (find_in x (mul_ri s)) with (Some (in_size (ms_vec s) i, divided s i)); auto.
  unfold mul_ri. now rewrite (find_in_map _ (in_size (ms_vec s)) (divided s) x i).
Qed.

Lemma mul_jac_ok s E i r c x : mul_wf s -> NoDup (ms_ins s) -> (i < List.length (ms_ins s))%nat ->
  nth i (ms_ins s) ""%string = x ->
  (ms_len s = 1%nat \/ in_size (ms_vec s) i <> 1%nat) ->
  (divided s i = true -> E x c <> 0) ->
  exists J, mul_jac s E x r c = Ok J /\
    is_derive (fun t => get (mul_compute s (updE E x c t) r)) (E x c) J.
Proof.
  intros Hw Hnd Hi Hx Hl Hd. rewrite (mul_jac_val s E x i) by auto. eexists; split; [reflexivity|].
  eapply is_derive_ext; [intro t; rewrite mul_compute_flat by auto; reflexivity|].
  evar_last; [apply (mul_true_derivative s E i r c x Hnd Hi Hx Hd)|].
  unfold bidx, part_col. destruct (Nat.eqb_spec (in_size (ms_vec s) i) 1) as [H1|H1]; auto.
  destruct Hl as [->|?]; [|tauto]. now rewrite Nat.mod_1_r.
Qed.

Lemma mul_jac_wrong s E i x : mul_wf s -> NoDup (ms_ins s) -> (i < List.length (ms_ins s))%nat ->
  nth i (ms_ins s) ""%string = x ->
  (1 < ms_len s)%nat -> in_size (ms_vec s) i = 1%nat ->
  (divided s i = true -> E x 1%nat <> 0) ->
  mul_partial s (mul_ri s) E x 1 <> 0 ->
  exists J, mul_jac s E x 1 1 = Ok J /\
    ~ is_derive (fun t => get (mul_compute s (updE E x 1 t) 1)) (E x 1%nat) J.
Proof.
  intros Hw Hnd Hi Hx Hl Hs Hd Hf. rewrite (mul_jac_val s E x i) by auto. eexists; split; [reflexivity|].
  rewrite Hs. cbn [part_col Nat.eqb]. intro HD.
  pose proof (mul_true_derivative s E i 1 1 x Hnd Hi Hx Hd) as HT.
  unfold bidx in HT. rewrite Hs in HT. cbn [Nat.eqb] in HT.
  rewrite Nat.mod_small in HT by lia. cbn [Nat.eqb] in HT.
  apply is_derive_unique in HT.
  assert (HD' : is_derive (fun t => mul_flat s (updE E x 1 t) 1) (E x 1%nat) 0).
  { eapply is_derive_ext; [|exact HD]. intro t. simpl. now rewrite mul_compute_flat by auto. }
  apply is_derive_unique in HD'. congruence.
Qed.

(** ** Unit expressions *)
Lemma ustep_frame w st t st' k : ustep w st t = Some st' -> ustep w (st ++ k) t = Some (st' ++ k)%list.
Proof.
  destruct t, st as [|[a s n|a n l] st]; simpl; try discriminate; intro H; try (injection H as <-; reflexivity).
  destruct st as [|[a' s' n'|a' n' l'] st]; try discriminate. injection H as <-. reflexivity.
Qed.
Lemma urun_frame w ts : forall st st' k, urun w st ts = Some st' -> urun w (st ++ k) ts = Some (st' ++ k)%list.
Proof.
  induction ts as [|t ts IH]; simpl; intros st st' k H.
  - now injection H as ->.
  - destruct (ustep w st t) eqn:E; [|discriminate]. rewrite (ustep_frame _ _ _ _ k E). auto.
Qed.
Lemma urun_app w ts1 ts2 st : urun w st (ts1 ++ ts2) =
  match urun w st ts1 with Some st' => urun w st' ts2 | None => None end.
Proof.
  revert st. induction ts1; simpl; intro st; auto. destruct (ustep w st a); auto.
Qed.

Lemma ueval_run w u z k : ueval w u = Some z -> exists a n l, fval a n l = z /\
  urun w (Expect 0 true false :: k) u = Some (Have a n l :: k).
Proof.
  unfold ueval. destruct (urun w _ u) as [st|] eqn:E; [|discriminate].
  destruct st as [|[|a n l] [|? ?]]; try discriminate. intro H. injection H as <-.
  exists a, n, l. split; auto. apply (urun_frame _ _ _ _ k E).
Qed.

(** A parenthesised operand. *)
Lemma urun_paren w u z a s n k rest : ueval w u = Some z ->
  urun w (Expect a s n :: k) (TOpen :: u ++ TClose :: rest) = urun w (Have a n z :: k) rest.
Proof.
  intro H. cbn [urun ustep]. rewrite urun_app.
  destruct (ueval_run w u z (Expect a s n :: k) H) as [a' [n' [l' [Hz ->]]]].
  cbn [urun ustep]. now rewrite Hz.
Qed.

Lemma unit_rest w l zs : uvals w l zs -> forall i a n v, 
  exists a' n' v', urun w [Have a n v] (concat (unit_pieces (S i) l)) = Some [Have a' n' v'] /\
    fval a' n' v' = (fval a n v + units_product zs)%Z.
Proof.
  induction 1 as [|[d ou] [d' oz] l zs [Hd Hu] Hl IH]; intros i a n v.
  - exists a, n, v. split; auto. simpl. lia.
  - simpl in Hd. subst d'. cbn [snd] in Hu. cbn [unit_pieces units_product].
    destruct ou as [u|], oz as [z|]; try tauto.
    + cbn [concat]. unfold unit_piece. cbn [Nat.eqb]. destruct d.
      * cbn [app urun ustep]. rewrite <- app_assoc. cbn [app].
        change (urun w (Expect 0 true false :: ?k) ?r) with (urun w (Expect 0 true false :: k) r).
        pose proof (urun_paren w u z (fval a n v) false true [] (concat (unit_pieces (S (S i)) l)) Hu) as HP.
        cbn [urun ustep] in HP. rewrite HP.
        destruct (IH (S i) (fval a n v) true z) as [a' [n' [v' [-> Hv]]]]. exists a', n', v'. split; auto.
        rewrite Hv. unfold fval at 1. lia.
      * cbn [app urun ustep]. rewrite <- app_assoc. cbn [app].
        pose proof (urun_paren w u z (fval a n v) false false [] (concat (unit_pieces (S (S i)) l)) Hu) as HP.
        cbn [urun ustep] in HP. rewrite HP.
        destruct (IH (S i) (fval a n v) false z) as [a' [n' [v' [-> Hv]]]]. exists a', n', v'. split; auto.
        rewrite Hv. unfold fval at 1. lia.
    + apply IH.
Qed.

Lemma out_units_ok w d u l zs z : ueval w u = Some z -> uvals w l zs ->
  exists ts, out_units ((d, Some u) :: l) = Some ts /\
    ueval w ts = Some (units_product ((d, Some z) :: zs)).
Proof.
  intros Hu Hl. unfold out_units. cbn [unit_pieces]. eexists. split; [reflexivity|].
  cbn [concat]. unfold ueval, unit_piece. cbn [Nat.eqb units_product]. destruct d.
  - cbn [app]. rewrite <- app_assoc. cbn [app].
    rewrite (urun_paren w u z 0%Z true false [] _ Hu). cbn [urun ustep].
    destruct (unit_rest w l zs Hl 0%nat 0%Z false (-1 * z)%Z) as [a' [n' [v' [-> Hv]]]].
    f_equal. rewrite Hv. unfold fval. lia.
  - rewrite urun_app. destruct (ueval_run w u z [] Hu) as [a [n [v [Hz ->]]]].
    destruct (unit_rest w l zs Hl 0%nat a n v) as [a' [n' [v' [-> Hv]]]].
    f_equal. rewrite Hv, Hz. lia.
Qed.

Lemma out_units_none l : (forall p, In p l -> snd p = None) <-> out_units l = None.
Proof.
  unfold out_units. generalize 0%nat. induction l as [|[d [u|]] l IH]; intro i; simpl.
  - split; auto; tauto.
  - split; [|discriminate]. intro H. specialize (H (d, Some u) (or_introl eq_refl)). discriminate.
  - rewrite <- (IH (S i)). split; intros H p; [intro Hp; apply H; auto|intros [<-|Hp]; auto].
Qed.

Lemma out_units_bad w d l : (exists p, In p l /\ snd p <> None) ->
  exists ts, out_units ((d, None) :: l) = Some ts /\ ueval w ts = None.
Proof.
  unfold out_units. cbn [unit_pieces]. generalize 0%nat. induction l as [|[d' [u|]] l IH]; intros i [p [Hp Hn]].
  - destruct Hp.
  - cbn [unit_pieces]. eexists. split; [reflexivity|]. unfold ueval, unit_piece. cbn [Nat.eqb].
    destruct d'; reflexivity.
  - destruct Hp as [<-|Hp]; [simpl in Hn; congruence|]. cbn [unit_pieces].
    destruct (IH (S i)) as [ts Hts]; [exists p; auto|]. eauto.
Qed.
