(** Proofs about the vector utilities. *)
From Coq Require Import Reals List Bool PeanoNat String ZArith Lra Lia.
From Coquelicot Require Import Coquelicot.
From Verif Require Import Base Py RSum Model_Algebra Spec_Algebra Proofs_Algebra Model_Vectors Spec_Integrals.
Import ListNotations.
Open Scope R_scope.

(** ** Concatenate / split *)
Definition cs_wf (s : cs_sys) : Prop := List.length (cs_sizes s) = List.length (cs_many s).

Lemma cs_setup_from_iff l : forall names,
  cs_setup_from names l = Ok tt <->
  List.Forall cs_wf l /\ NoDup (concat (map (fun s => cs_one s :: cs_many s) l)) /\
  forall x, In x (concat (map (fun s => cs_one s :: cs_many s) l)) -> ~ In x names.
Proof.
  induction l as [|s l IH]; intro names; cbn [cs_setup_from].
  - simpl. split; auto. intros _. repeat split; try constructor; tauto.
  - cbn [map concat]. rewrite NoDup_app_iff.
    destruct (Nat.eqb_spec (List.length (cs_sizes s)) (List.length (cs_many s))) as [W|W]; cbn [negb].
    2:{ split; [discriminate|]. intros [H _]. inversion H; subst. contradiction. }
    destruct (declare names (cs_one s :: cs_many s)) as [names'|] eqn:D; cbn [res_bind].
    2:{ split; [discriminate|]. intros [_ [[H1 _] H2]].
        destruct (proj2 (declare_ok names (cs_one s :: cs_many s))) as [n' Hn']; [|congruence].
        split; auto. intros x Hx. apply H2. apply in_app_iff. now left. }
    pose proof (declare_names _ _ _ D) as Hnm.
    destruct (proj1 (declare_ok _ _) (ex_intro _ _ D)) as [Hnd Hdis].
    rewrite (IH names'). split.
    + intros [H1 [H2 H3]].
      split; [constructor; auto|]. split; [split; auto; split; auto|].
      * intros x Hx Hc. apply (H3 _ Hc). apply Hnm. now right.
      * intros x Hx. apply in_app_iff in Hx. destruct Hx as [Hx|Hx]; [now apply Hdis|].
        intro Hc. apply (H3 _ Hx), Hnm. now left.
    + intros [H1 [[H2 [H3 H4]] H5]]. inversion H1; subst.
      split; auto. split; auto. intros x Hx Hc. apply Hnm in Hc. destruct Hc as [Hc|Hc].
      * apply (H5 x); auto. apply in_app_iff; auto.
      * apply (H4 _ Hc Hx).
Qed.
Lemma cs_setup_iff l : cs_setup l = Ok tt <->
  List.Forall cs_wf l /\ NoDup (concat (map (fun s => cs_one s :: cs_many s) l)).
Proof. unfold cs_setup. rewrite cs_setup_from_iff. simpl. firstorder. Qed.

Lemma fold_app {A B} (f : B -> list A) l : forall a,
  fold_left (fun t p => t ++ f p)%list l a = (a ++ flat_map f l)%list.
Proof. induction l; intro b; simpl; [now rewrite app_nil_r|]. now rewrite IHl, app_assoc. Qed.

Lemma flat_block {P} (f : P -> list R) (w : P -> nat) ps d :
  (forall p, List.length (f p) = w p) ->
  forall i k, (i < List.length ps)%nat -> (k < w (nth i ps d))%nat ->
  nth (list_sum (firstn i (map w ps)) + k) (flat_map f ps) 0 = nth k (f (nth i ps d)) 0.
Proof.
  intro Hw. induction ps as [|p ps IH]; intros i k Hi Hk; simpl in Hi; [lia|].
  destruct i as [|i]; simpl in Hk |- *.
  - rewrite app_nth1; [reflexivity|]. now rewrite Hw.
  - rewrite app_nth2 by (rewrite Hw; lia). rewrite Hw.
    replace (w p + list_sum (firstn i (map w ps)) + k - w p)%nat
      with (list_sum (firstn i (map w ps)) + k)%nat by lia.
    apply IH; auto; lia.
Qed.
Lemma flat_length {P} (f : P -> list R) (w : P -> nat) ps : (forall p, List.length (f p) = w p) ->
  List.length (flat_map f ps) = list_sum (map w ps).
Proof. intro Hw. induction ps; simpl; auto. now rewrite app_length, Hw, IHps. Qed.

Lemma list_sum_scale l m : list_sum (map (fun n => n * m)%nat l) = (list_sum l * m)%nat.
Proof. induction l; simpl; auto. rewrite IHl. lia. Qed.

Lemma start_S s i : (i < List.length (cs_sizes s))%nat ->
  start_idx s (S i) = (start_idx s i + nth i (cs_sizes s) 0)%nat.
Proof.
  unfold start_idx. generalize (cs_sizes s). intro l. revert i.
  induction l as [|a l IH]; intros i Hi; simpl in Hi; [lia|].
  destruct i as [|i]; [simpl; lia|].
  change (firstn (S (S i)) (a :: l)) with (a :: firstn (S i) l).
  change (firstn (S i) (a :: l)) with (a :: firstn i l).
  change (nth (S i) (a :: l) 0%nat) with (nth i l 0%nat).
  change (list_sum (a :: firstn (S i) l)) with (a + list_sum (firstn (S i) l))%nat.
  change (list_sum (a :: firstn i l)) with (a + list_sum (firstn i l))%nat.
  rewrite IH by lia. lia.
Qed.
Lemma end_idx_eq s i : (i < List.length (cs_sizes s))%nat ->
  end_idx s i = (start_idx s i + nth i (cs_sizes s) 0)%nat.
Proof. intro H. unfold end_idx. rewrite Nat.add_1_r. fold (start_idx s (S i)). now apply start_S. Qed.

Lemma start_mono s i j : (i <= j)%nat -> (j <= List.length (cs_sizes s))%nat ->
  (start_idx s i <= start_idx s j)%nat.
Proof.
  intros H Hj. induction H; auto. rewrite start_S by lia. assert (start_idx s i <= start_idx s m)%nat by (apply IHle; lia). lia.
Qed.

(** Blocks do not overlap. *)
Lemma block_unique s i j k k' : (i < List.length (cs_sizes s))%nat -> (j < List.length (cs_sizes s))%nat ->
  (k < nth i (cs_sizes s) 0%nat * cs_len s)%nat -> (k' < nth j (cs_sizes s) 0 * cs_len s)%nat ->
  (start_idx s i * cs_len s + k = start_idx s j * cs_len s + k')%nat -> i = j /\ k = k'.
Proof.
  assert (HH : forall i j k k', (i < j)%nat -> (j < List.length (cs_sizes s))%nat ->
    (k < nth i (cs_sizes s) 0%nat * cs_len s)%nat ->
    (start_idx s i * cs_len s + k < start_idx s j * cs_len s + k')%nat).
  { clear. intros i j k k' Hij Hj Hk.
    assert (start_idx s (S i) <= start_idx s j)%nat as Hm by (apply start_mono; lia).
    rewrite start_S in Hm by lia.
    assert ((start_idx s i + nth i (cs_sizes s) 0) * cs_len s <= start_idx s j * cs_len s)%nat by (apply Nat.mul_le_mono_r; lia).
    lia. }
  intros Hi Hj Hk Hk' He. destruct (lt_eq_lt_dec i j) as [[Hlt|Heq]|Hgt].
  - specialize (HH i j k k' Hlt Hj Hk). lia.
  - subst. split; auto. lia.
  - specialize (HH j i k' k Hgt Hi Hk'). lia.
Qed.

Definition total (s : cs_sys) : nat := list_sum (cs_sizes s).

Lemma block_exists s r : (r < total s * cs_len s)%nat -> exists i k,
  (i < List.length (cs_sizes s))%nat /\ (k < nth i (cs_sizes s) 0%nat * cs_len s)%nat /\
  r = (start_idx s i * cs_len s + k)%nat.
Proof.
  unfold total, start_idx. generalize (cs_sizes s). intro l. revert r.
  induction l as [|a l IH]; intros r Hr; simpl in Hr; [lia|].
  destruct (lt_dec r (a * cs_len s)) as [Hlt|Hge].
  - exists 0%nat, r. simpl. repeat split; lia.
  - destruct (IH (r - a * cs_len s)%nat) as [i [k [Hi [Hk He]]]]; [lia|].
    exists (S i), k. cbn [List.length nth]. split; [lia|]. split; auto.
    change (firstn (S i) (a :: l)) with (a :: firstn i l).
    change (list_sum (a :: firstn i l)) with (a + list_sum (firstn i l))%nat. lia.
Qed.

Lemma start_length s : start_idx s (List.length (cs_sizes s)) = total s.
Proof. unfold start_idx, total. now rewrite firstn_all. Qed.

Lemma concat_flat s E : concat_compute s E =
  flat_map (fun p => map (E (fst p)) (seq 0 (snd p * cs_len s))) (combine (cs_many s) (cs_sizes s)).
Proof. unfold concat_compute. now rewrite fold_app. Qed.

Lemma map_snd_combine {A B} (l : list A) (l' : list B) : List.length l' = List.length l ->
  map snd (combine l l') = l'.
Proof. revert l'. induction l; intros [|b l'] H; simpl in *; try discriminate; auto. f_equal. auto. Qed.

Lemma concat_length s E : cs_wf s -> List.length (concat_compute s E) = (total s * cs_len s)%nat.
Proof.
  intro W. rewrite concat_flat.
  rewrite (flat_length _ (fun p => (snd p * cs_len s)%nat)) by (intro; now rewrite map_length, seq_length).
  rewrite <- (map_map snd (fun n => (n * cs_len s)%nat)). rewrite map_snd_combine by auto.
  apply list_sum_scale.
Qed.

Lemma concat_block s E i k : cs_wf s -> (i < List.length (cs_many s))%nat ->
  (k < nth i (cs_sizes s) 0%nat * cs_len s)%nat ->
  nth (start_idx s i * cs_len s + k) (concat_compute s E) 0 = E (nth i (cs_many s) ""%string) k.
Proof.
  intros W Hi Hk. rewrite concat_flat.
  assert (Hst : (start_idx s i * cs_len s)%nat =
     list_sum (firstn i (map (fun p => (snd p * cs_len s)%nat) (combine (cs_many s) (cs_sizes s))))).
  { rewrite <- (map_map snd (fun n => (n * cs_len s)%nat)). rewrite map_snd_combine by auto.
    rewrite firstn_map, list_sum_scale. reflexivity. }
  rewrite Hst. rewrite (flat_block _ (fun p : string * nat => (snd p * cs_len s)%nat) _ (""%string, 0%nat)).
  - rewrite combine_nth by auto. cbn [fst snd]. rewrite nth_map_seq by auto. reflexivity.
  - intro. now rewrite map_length, seq_length.
  - rewrite combine_length, W, Nat.min_id. auto.
  - rewrite combine_nth by auto. exact Hk.
Qed.

Lemma split_eq s X i : (i < List.length (cs_sizes s))%nat ->
  split_compute s X i = map (fun k => X (start_idx s i * cs_len s + k)%nat) (seq 0 (nth i (cs_sizes s) 0%nat * cs_len s)).
Proof.
  intro H. unfold split_compute. rewrite end_idx_eq by auto.
  replace ((start_idx s i + nth i (cs_sizes s) 0) * cs_len s - start_idx s i * cs_len s)%nat
    with (nth i (cs_sizes s) 0%nat * cs_len s)%nat by lia.
  generalize (start_idx s i * cs_len s)%nat (nth i (cs_sizes s) 0%nat * cs_len s)%nat.
  intros a m. clear H. revert a. induction m; intro a; auto.
  rewrite !seq_S, !map_app, IHm. reflexivity.
Qed.

Lemma split_concat s E i : cs_wf s -> (i < List.length (cs_many s))%nat ->
  split_compute s (fun r => nth r (concat_compute s E) 0) i =
  map (E (nth i (cs_many s) ""%string)) (seq 0 (nth i (cs_sizes s) 0%nat * cs_len s)).
Proof.
  intros W Hi. rewrite split_eq by (rewrite W; auto). apply map_seq_ext. intros k Hk. now apply concat_block.
Qed.

Lemma nth_ext_R (l l' : list R) : List.length l = List.length l' ->
  (forall n, (n < List.length l)%nat -> nth n l 0 = nth n l' 0) -> l = l'.
Proof. intros. eapply nth_ext; eauto. Qed.

Lemma concat_split s X E : cs_wf s ->
  (forall i, (i < List.length (cs_many s))%nat -> forall k, (k < nth i (cs_sizes s) 0%nat * cs_len s)%nat ->
     E (nth i (cs_many s) ""%string) k = nth k (split_compute s X i) 0) ->
  concat_compute s E = map X (seq 0 (total s * cs_len s)).
Proof.
  intros W HE. apply nth_ext_R.
  - rewrite concat_length by auto. now rewrite map_length, seq_length.
  - intros r Hr. rewrite concat_length in Hr by auto.
    rewrite nth_map_seq by auto.
    destruct (block_exists s r Hr) as [i [k [Hi [Hk ->]]]].
    rewrite W in Hi. rewrite concat_block by auto. rewrite HE by auto.
    rewrite split_eq by (rewrite W; auto). now rewrite nth_map_seq.
Qed.

Lemma existsb_pair f m k : (k < m)%nat -> f k = true -> existsb f (seq 0 m) = true.
Proof. intros Hk Hf. apply existsb_exists. exists k. split; auto. apply in_seq. lia. Qed.
Lemma existsb_none f m : (forall k, (k < m)%nat -> f k = false) -> existsb f (seq 0 m) = false.
Proof.
  intro H. destruct (existsb f (seq 0 m)) eqn:E; auto. apply existsb_exists in E.
  destruct E as [k [Hk Hf]]. apply in_seq in Hk. rewrite H in Hf by lia. discriminate.
Qed.

Lemma concat_jac_block s i j k c : cs_wf s -> (i < List.length (cs_many s))%nat -> (j < List.length (cs_many s))%nat ->
  (k < nth j (cs_sizes s) 0 * cs_len s)%nat -> (c < nth i (cs_sizes s) 0%nat * cs_len s)%nat ->
  concat_jac s i (start_idx s j * cs_len s + k) c = if (Nat.eqb i j && Nat.eqb c k)%bool then 1 else 0.
Proof.
  intros W Hi Hj Hk Hc. unfold concat_jac. rewrite <- W in Hi, Hj.
  destruct (Nat.eqb_spec i j) as [<-|Hne]; [destruct (Nat.eqb_spec c k) as [<-|Hck]|]; cbn [andb].
  - rewrite (existsb_pair _ _ c); auto. now rewrite !Nat.eqb_refl.
  - rewrite existsb_none; auto. intros k' Hk'. apply andb_false_iff.
    destruct (Nat.eqb_spec k' c); [|tauto]. left. apply Nat.eqb_neq. lia.
  - rewrite existsb_none; auto. intros k' Hk'. apply andb_false_iff. left. apply Nat.eqb_neq. intro He.
    apply Hne. exact (proj1 (block_unique s i j k' k Hi Hj Hk' Hk He)).
Qed.

Lemma concat_jac_ok s E i r c : cs_wf s -> NoDup (cs_many s) -> (i < List.length (cs_many s))%nat ->
  (r < total s * cs_len s)%nat -> (c < nth i (cs_sizes s) 0%nat * cs_len s)%nat ->
  let x := nth i (cs_many s) ""%string in
  is_derive (fun t => nth r (concat_compute s (updE E x c t)) 0) (E x c) (concat_jac s i r c).
Proof.
  intros W Hnd Hi Hr Hc x. destruct (block_exists s r Hr) as [j [k [Hj [Hk ->]]]]. rewrite W in Hj.
  rewrite concat_jac_block by auto.
  eapply is_derive_ext; [intro t; symmetry; apply (concat_block s (updE E x c t) j k W Hj Hk)|].
  evar_last; [apply updE_derive|].
  destruct (Nat.eqb_spec i j) as [<-|Hne].
  - unfold x. now rewrite String.eqb_refl.
  - destruct (String.eqb_spec x (nth j (cs_many s) ""%string)) as [He|He]; auto.
    exfalso. apply Hne. apply (proj1 (NoDup_nth (cs_many s) ""%string) Hnd); auto.
Qed.

Lemma updv_derive X c j : is_derive (fun t => updv X c t j) (X c) (if Nat.eqb c j then 1 else 0).
Proof.
  destruct (Nat.eqb_spec c j) as [<-|Hne].
  - apply (is_derive_ext (fun t => t)); [|apply (is_derive_id (K := R_AbsRing))].
    intro t. unfold updv. now rewrite Nat.eqb_refl.
  - apply (is_derive_ext (fun t => X j)); [|apply (is_derive_const (X j))].
    intro t. unfold updv. destruct (Nat.eqb_spec j c); [lia|reflexivity].
Qed.

Lemma split_jac_ok s X i r c : (i < List.length (cs_sizes s))%nat ->
  (r < nth i (cs_sizes s) 0%nat * cs_len s)%nat ->
  is_derive (fun t => nth r (split_compute s (updv X c t) i) 0) (X c) (split_jac s i r c).
Proof.
  intros Hi Hr.
  apply (is_derive_ext (fun t => updv X c t (start_idx s i * cs_len s + r)%nat)).
  { intro t. rewrite split_eq by auto. now rewrite nth_map_seq by auto. }
  evar_last; [apply updv_derive|]. unfold split_jac.
  destruct (Nat.eqb_spec c (start_idx s i * cs_len s + r)) as [->|Hne].
  - rewrite (existsb_pair _ _ r); auto. now rewrite !Nat.eqb_refl.
  - rewrite existsb_none; auto. intros k Hk. apply andb_false_iff.
    destruct (Nat.eqb_spec k r); [|tauto]. right. apply Nat.eqb_neq. subst. lia.
Qed.

(** ** Max / min *)
Lemma fold_max_ge l : forall a, a <= fold_left Rmax l a.
Proof. induction l; intro b; simpl; [lra|]. eapply Rle_trans; [|apply IHl]. apply Rmax_l. Qed.
Lemma fold_max_in l : forall a, fold_left Rmax l a = a \/ In (fold_left Rmax l a) l.
Proof.
  induction l as [|b l IH]; intro a; simpl; auto.
  destruct (IH (Rmax a b)) as [H|H]; auto.
  rewrite H. unfold Rmax. destruct (Rle_dec a b); auto.
Qed.
Lemma fold_max_ub l : forall a x, In x l -> x <= fold_left Rmax l a.
Proof.
  induction l as [|b l IH]; intros a x H; [destruct H|]. destruct H as [<-|H]; simpl; auto.
  eapply Rle_trans; [|apply fold_max_ge]. apply Rmax_r.
Qed.

Lemma amax_spec n x m : amax n x = Ok m <->
  (exists k, (k < n)%nat /\ x k = m) /\ (forall k, (k < n)%nat -> x k <= m).
Proof.
  assert (Hok : forall m', amax n x = Ok m' ->
    (exists k, (k < n)%nat /\ x k = m') /\ (forall k, (k < n)%nat -> x k <= m')).
  { destruct n; simpl; [discriminate|]. intros m' H. injection H as <-. split.
    - destruct (fold_max_in (map x (seq 1 n)) (x 0%nat)) as [->|H].
      + exists 0%nat. split; auto; lia.
      + apply in_map_iff in H. destruct H as [k [Hk Hin]]. apply in_seq in Hin. exists k. split; auto; lia.
    - intros [|k] Hk; [apply fold_max_ge|]. apply fold_max_ub. apply in_map, in_seq. lia. }
  split; [apply Hok|]. intros [[k [Hk He]] Hub].
  destruct (amax n x) as [m'|e] eqn:E; [|destruct n; simpl in E; [lia|discriminate]].
  destruct (Hok m' eq_refl) as [[k' [Hk' He']] Hub']. f_equal. apply Rle_antisym.
  - rewrite <- He'. auto.
  - rewrite <- He. auto.
Qed.

Lemma fold_min_max l : forall a, fold_left Rmin l a = - fold_left Rmax (map Ropp l) (- a).
Proof.
  induction l as [|b l IH]; intro a; simpl; [ring|]. rewrite IH. f_equal. f_equal.
  unfold Rmin, Rmax. destruct (Rle_dec a b), (Rle_dec (- a) (- b)); lra.
Qed.
Lemma amin_amax n x : amin n x = res_bind (amax n (fun k => - x k)) (fun m => Ok (- m)).
Proof.
  destruct n; simpl; auto. rewrite fold_min_max. f_equal. rewrite map_map. reflexivity.
Qed.

Lemma max_derive n x c m : (c < n)%nat -> amax n x = Ok m ->
  (x c = m -> forall k, (k < n)%nat -> k <> c -> x k < m) ->
  is_derive (fun t => get (amax n (updv x c t))) (x c) (if Req_EM_T (x c) m then 1 else 0).
Proof.
  intros Hc Hm Hu. apply amax_spec in Hm. destruct Hm as [[k0 [Hk0 He0]] Hub].
  destruct (Req_EM_T (x c) m) as [He|Hne].
  - specialize (Hu He).
    assert (Heps : exists eps : posreal, forall k, (k < n)%nat -> k <> c -> x k < m - eps).
    { clear He0 Hk0 k0 Hc Hub. induction n.
      - exists (mkposreal 1 Rlt_0_1). intros; lia.
      - destruct IHn as [e1 H1]; [intros; apply Hu; lia|].
        destruct (Nat.eq_dec n c) as [->|Hnc].
        + exists e1. intros k Hk Hkc. apply H1; lia.
        + assert (Hp : 0 < Rmin e1 ((m - x n) / 2)).
          { apply Rmin_glb_lt; [apply cond_pos|]. specialize (Hu n (Nat.lt_succ_diag_r n) Hnc). lra. }
          exists (mkposreal _ Hp). simpl. intros k Hk Hkc. destruct (Nat.eq_dec k n) as [->|Hkn].
          * specialize (Hu n (Nat.lt_succ_diag_r n) Hnc). pose proof (Rmin_r e1 ((m - x n) / 2)). lra.
          * specialize (H1 k). pose proof (Rmin_l e1 ((m - x n) / 2)). assert (x k < m - e1) by (apply H1; lia). lra. }
    destruct Heps as [eps Heps].
    apply (is_derive_ext_loc (fun t => t)); [|apply (is_derive_id (K := R_AbsRing))].
    exists eps. intros t Ht. apply Rabs_lt_between in Ht.
    unfold minus, plus, opp in Ht; simpl in Ht.
    assert (Hmx : amax n (updv x c t) = Ok t).
    { apply amax_spec. split.
      - exists c. split; auto. unfold updv. now rewrite Nat.eqb_refl.
      - intros k Hk. unfold updv. destruct (Nat.eqb_spec k c); [lra|].
        specialize (Heps k Hk n0). lra. }
    now rewrite Hmx.
  - assert (Hlt : x c < m) by (specialize (Hub c Hc); lra).
    assert (Hp : 0 < m - x c) by lra.
    apply (is_derive_ext_loc (fun _ => m)); [|apply (is_derive_const m)].
    exists (mkposreal _ Hp). intros t Ht. apply Rabs_lt_between in Ht.
    unfold minus, plus, opp in Ht; simpl in Ht.
    assert (Hkc : k0 <> c) by (intros ->; congruence).
    assert (Hmx : amax n (updv x c t) = Ok m).
    { apply amax_spec. split.
      - exists k0. split; auto. unfold updv. destruct (Nat.eqb_spec k0 c); congruence.
      - intros k Hk. unfold updv. destruct (Nat.eqb_spec k c); [lra|]. auto. }
    now rewrite Hmx.
Qed.

Lemma max_jac_ok n x c : (c < n)%nat ->
  (x c = get (amax n x) -> forall k, (k < n)%nat -> k <> c -> x k < x c) ->
  exists J, max_jac n x c = Ok J /\ is_derive (fun t => get (amax n (updv x c t))) (x c) J.
Proof.
  intros Hc Hu. unfold max_jac. destruct (amax n x) as [m|] eqn:E; [|destruct n; [lia|discriminate]].
  cbn [res_bind]. eexists; split; [reflexivity|]. apply max_derive; auto.
  intros He. rewrite <- He in *. auto.
Qed.

Lemma updv_opp x c t k : updv (fun j => - x j) c (- t) k = - updv x c t k.
Proof. unfold updv. destruct (Nat.eqb k c); reflexivity. Qed.

Lemma amax_ext n x y : (forall k, (k < n)%nat -> x k = y k) -> amax n x = amax n y.
Proof.
  intro H. destruct n; simpl; auto. f_equal. rewrite H by lia. f_equal.
  apply map_ext_in. intros k Hk. apply in_seq in Hk. apply H. lia.
Qed.

Lemma min_jac_ok n x c : (c < n)%nat ->
  (x c = get (amin n x) -> forall k, (k < n)%nat -> k <> c -> x c < x k) ->
  exists J, min_jac n x c = Ok J /\ is_derive (fun t => get (amin n (updv x c t))) (x c) J.
Proof.
  intros Hc Hu. unfold min_jac. rewrite amin_amax in *.
  destruct (amax n (fun k => - x k)) as [m|] eqn:E; [|destruct n; [lia|discriminate]].
  cbn [res_bind get] in *. eexists; split; [reflexivity|].
  assert (HD : is_derive (fun t => get (amax n (updv (fun k => - x k) c t))) (- x c)
                 (if Req_EM_T (- x c) m then 1 else 0)).
  { apply (max_derive n (fun k => - x k) c m Hc E). intros He k Hk Hne.
    assert (x c < x k) by (apply Hu; auto; lra). lra. }
  apply (is_derive_ext (fun t => - get (amax n (updv (fun k => - x k) c (- t))))).
  { intro t. rewrite amin_amax. rewrite (amax_ext n (fun k => - updv x c t k) (updv (fun k => - x k) c (- t)))
      by (intros; now rewrite updv_opp).
    destruct (amax n (updv _ c (- t))); simpl; [reflexivity|apply Ropp_0]. }
  evar_last.
  - apply (@is_derive_opp R_AbsRing R_NormedModule).
    apply (is_derive_comp (fun t => get (amax n (updv (fun k => - x k) c t))) (fun t => - t)).
    + exact HD.
    + apply (@is_derive_opp R_AbsRing R_NormedModule). apply (is_derive_id (K := R_AbsRing)).
  - unfold opp, scal, mult, one; simpl. unfold mult; simpl.
    destruct (Req_EM_T (- x c) m), (Req_EM_T (x c) (- m)); try lra.
Qed.

(** At a tie the declared partial 1 is not a derivative. *)
Lemma max_tie n x i j m : (i < n)%nat -> (j < n)%nat -> i <> j -> amax n x = Ok m -> x i = m -> x j = m ->
  exists J, max_jac n x i = Ok J /\ ~ is_derive (fun t => get (amax n (updv x i t))) (x i) J.
Proof.
  intros Hi Hj Hij Hm Hxi Hxj. unfold max_jac. rewrite Hm. cbn [res_bind].
  destruct (Req_EM_T (x i) m) as [_|]; [|tauto]. exists 1. split; auto. intro HD.
  apply amax_spec in Hm. destruct Hm as [_ Hub].
  set (f := fun t => get (amax n (updv x i t))) in HD.
  assert (Hf : forall t, t <= m -> f t = m).
  { intros t Ht. unfold f. assert (Hmx : amax n (updv x i t) = Ok m).
    { apply amax_spec. split.
      - exists j. split; auto. unfold updv. destruct (Nat.eqb_spec j i); [congruence|auto].
      - intros k Hk. unfold updv. destruct (Nat.eqb_spec k i); auto. }
    now rewrite Hmx. }
  apply is_derive_Reals in HD. unfold derivable_pt_lim in HD.
  destruct (HD (1/2)) as [del Hdel]; [lra|].
  specialize (Hdel (- (del / 2))). pose proof (cond_pos del) as Hp.
  assert (Hh : Rabs (- (del / 2)) < del) by (rewrite Rabs_left; lra).
  specialize (Hdel ltac:(lra) Hh). rewrite Hxi in Hdel. unfold f in Hf. rewrite !Hf in Hdel by lra.
  replace ((m - m) / - (del / 2) - 1) with (-1) in Hdel by (field; lra).
  rewrite Rabs_left in Hdel by lra. lra.
Qed.

(** ** Selector *)
Lemma around_near x : Rabs (x - IZR (around x)) <= 1/2.
Proof.
  unfold around. destruct (base_fp x) as [H0 H1]. unfold frac_part in *.
  destruct (Rlt_dec _ _); [|destruct (Rgt_dec _ _); [|destruct (Z.even _)]]; rewrite ?plus_IZR;
  apply Rabs_le; lra.
Qed.
Lemma around_unique x z : Rabs (x - IZR z) < 1/2 -> around x = z.
Proof.
  intro H. pose proof (around_near x) as Hn. apply Rabs_def2 in H. apply Rabs_le_between in Hn.
  assert (IZR (around x) - IZR z < 1) by lra. assert (-1 < IZR (around x) - IZR z) by lra.
  rewrite <- minus_IZR in *. apply (lt_IZR (around x - z) 1) in H0. apply (lt_IZR (-1)) in H1. lia.
Qed.
Lemma around_half_even x : frac_part x = 1/2 -> Z.even (around x) = true.
Proof.
  intro H. unfold around. rewrite H. destruct (Rlt_dec _ _); [lra|]. destruct (Rgt_dec _ _); [lra|].
  destruct (Z.even (Int_part x)) eqn:E; auto. rewrite Z.even_add, E. reflexivity.
Qed.

Lemma sel_value n names E : (forall k, (k < n)%nat ->
    (0 <= around (E "selector"%string k) < Z.of_nat (List.length names))%Z) ->
  exists f, sel_compute n names E = Ok f /\
    forall k, (k < n)%nat -> f k = E (nth (Z.to_nat (around (E "selector"%string k))) names ""%string) k.
Proof.
  intro H. unfold sel_compute. cbv zeta.
  match goal with |- context [existsb ?g ?l] => destruct (existsb g l) eqn:Ex end.
  { apply existsb_exists in Ex. destruct Ex as [k [Hk Hb]]. apply in_seq in Hk.
    specialize (H k ltac:(lia)). apply orb_true_iff in Hb. rewrite Z.ltb_lt, Z.geb_le in Hb. lia. }
  eexists; split; [reflexivity|]. intros k Hk. cbv beta. specialize (H k Hk).
  set (z := around (E "selector"%string k)) in *.
  rewrite (fold_left_rsum (fun i => E (nth i names ""%string) k * (if Z.eqb z (Z.of_nat i) then 1 else 0))).
  rewrite (rsum_one _ _ (Z.to_nat z)).
  - rewrite Z2Nat.id by lia. rewrite Z.eqb_refl. ring.
  - lia.
  - intros i Hi Hne. destruct (Z.eqb_spec z (Z.of_nat i)); [lia|ring].
Qed.
Lemma sel_reject n names E k : (k < n)%nat ->
  (around (E "selector"%string k) < 0 \/ Z.of_nat (List.length names) <= around (E "selector"%string k))%Z ->
  sel_compute n names E = Err RuntimeWarning.
Proof.
  intros Hk H. unfold sel_compute. cbv zeta. rewrite (existsb_pair _ n k); auto.
  apply orb_true_iff. rewrite Z.ltb_lt, Z.geb_le. lia.
Qed.

Definition sel_get (r : res (nat -> R)) (k : nat) : R := match r with Ok f => f k | Err _ => 0 end.

Lemma sel_jac_ok n names E i r c : NoDup names -> ~ In "selector"%string names ->
  (forall k, (k < n)%nat -> (0 <= around (E "selector"%string k) < Z.of_nat (List.length names))%Z) ->
  (i < List.length names)%nat -> (r < n)%nat ->
  let x := nth i names ""%string in
  is_derive (fun t => sel_get (sel_compute n names (updE E x c t)) r) (E x c) (sel_jac E i r c).
Proof.
  intros Hnd Hsel Hrange Hi Hr x.
  assert (Hx : x <> "selector"%string) by (intro He; apply Hsel; rewrite <- He; apply nth_In; auto).
  assert (Hs : forall t k, updE E x c t "selector"%string k = E "selector"%string k)
    by (intros; apply updE_miss; auto).
  set (j := Z.to_nat (around (E "selector"%string r))).
  assert (Hj : (j < List.length names)%nat) by (specialize (Hrange r Hr); unfold j; lia).
  apply (is_derive_ext (fun t => updE E x c t (nth j names ""%string) r)).
  - intro t. destruct (sel_value n names (updE E x c t)) as [f [-> Hf]].
    + intros k Hk. rewrite Hs. auto.
    + simpl. rewrite Hf by auto. rewrite Hs. reflexivity.
  - evar_last; [apply updE_derive|]. unfold sel_jac.
    specialize (Hrange r Hr).
    destruct (Nat.eqb_spec r c) as [<-|Hrc].
    + rewrite Nat.eqb_refl, andb_true_r.
      destruct (Z.eqb_spec (around (E "selector"%string r)) (Z.of_nat i)) as [He|He].
      * unfold j, x. rewrite He, Nat2Z.id, String.eqb_refl. reflexivity.
      * destruct (String.eqb_spec x (nth j names ""%string)) as [Hn|Hn]; auto.
        exfalso. apply He. apply (proj1 (NoDup_nth names ""%string) Hnd) in Hn; auto. unfold j in Hn. lia.
    + replace (Nat.eqb c r) with false by (symmetry; apply Nat.eqb_neq; auto).
      now rewrite andb_false_r.
Qed.

(** Away from half-integers the output does not change with the selector. *)
Lemma sel_locally_constant n names E r c : ~ In "selector"%string names ->
  (forall k, (k < n)%nat -> (0 <= around (E "selector"%string k) < Z.of_nat (List.length names))%Z) ->
  (r < n)%nat -> (c < n)%nat ->
  Rabs (E "selector"%string c - IZR (around (E "selector"%string c))) < 1/2 ->
  is_derive (fun t => sel_get (sel_compute n names (updE E "selector" c t)) r) (E "selector"%string c) 0.
Proof.
  intros Hsel Hrange Hr Hc Hhalf.
  set (z := around (E "selector"%string c)) in *.
  assert (Hp : 0 < 1/2 - Rabs (E "selector"%string c - IZR z)) by lra.
  apply (is_derive_ext_loc (fun _ => E (nth (Z.to_nat (around (E "selector"%string r))) names ""%string) r));
    [|apply (is_derive_const (E (nth (Z.to_nat (around (E "selector"%string r))) names ""%string) r))].
  exists (mkposreal _ Hp). intros t Ht.
  assert (Hz : around t = z).
  { apply around_unique. unfold ball in Ht; simpl in Ht. unfold AbsRing_ball, abs, minus, plus, opp in Ht; simpl in Ht.
    replace (t - IZR z) with ((t + - E "selector"%string c) + (E "selector"%string c - IZR z)) by ring.
    eapply Rle_lt_trans; [apply Rabs_triang|]. lra. }
  assert (Hk : forall k, around (updE E "selector" c t "selector"%string k) = around (E "selector"%string k)).
  { intro k. unfold updE. simpl String.eqb. cbv iota. destruct (Nat.eqb_spec c k) as [<-|]; auto. }
  destruct (sel_value n names (updE E "selector" c t)) as [f [-> Hf]].
  - intros k Hkn. rewrite Hk. auto.
  - simpl. rewrite Hf by auto. rewrite Hk. symmetry. apply updE_miss. left. intro He.
    apply Hsel. rewrite He. apply nth_In. specialize (Hrange r Hr). lia.
Qed.

(** ** Linear interpolation *)
Lemma lin_value n a b k : (2 <= n)%nat -> (k < n)%nat ->
  lin_compute n a b k = a + (b - a) * (INR k / INR (n - 1)).
Proof.
  intros Hn Hk. assert (INR (n - 1) <> 0) by (apply not_0_INR; lia).
  unfold lin_compute, linspace. destruct (Nat.eqb_spec n 1); [lia|].
  destruct (Nat.eqb_spec k (n - 1)) as [->|]; field; auto.
Qed.
Lemma lin_between n a b k : (2 <= n)%nat -> (k < n)%nat ->
  Rmin a b <= lin_compute n a b k <= Rmax a b.
Proof.
  intros Hn Hk. rewrite lin_value by auto.
  assert (H0 : 0 < INR (n - 1)) by (apply lt_0_INR; lia).
  assert (Hf : 0 <= INR k / INR (n - 1) <= 1).
  { split; [apply Rle_mult_inv_pos; auto; apply pos_INR|].
    apply (Rmult_le_reg_r (INR (n - 1))); auto. unfold Rdiv. rewrite Rmult_assoc, Rinv_l by lra.
    rewrite Rmult_1_l, Rmult_1_r. apply le_INR. lia. }
  set (s := INR k / INR (n - 1)) in *. unfold Rmin, Rmax. destruct (Rle_dec a b); nra.
Qed.
Lemma lin_spacing n a b k : (2 <= n)%nat -> (S k < n)%nat ->
  lin_compute n a b (S k) - lin_compute n a b k = (b - a) / INR (n - 1).
Proof.
  intros Hn Hk. rewrite !lin_value by lia. assert (INR (n - 1) <> 0) by (apply not_0_INR; lia).
  rewrite S_INR. field; auto.
Qed.
Lemma lin_jac_start_ok n a b k : (1 <= n)%nat -> (k < n)%nat ->
  is_derive (fun t => lin_compute n t b k) a (lin_jac_start n k).
Proof.
  intros Hn Hk. unfold lin_compute, lin_jac_start, linspace.
  destruct (Nat.eqb_spec n 1); [apply (is_derive_id (K := R_AbsRing))|].
  destruct (Nat.eqb_spec k (n - 1)); [apply (is_derive_const b)|].
  assert (INR (n - 1) <> 0) by (apply not_0_INR; lia). auto_derive; auto. field; auto.
Qed.
Lemma lin_jac_end_ok n a b k : (1 <= n)%nat -> (k < n)%nat ->
  is_derive (fun t => lin_compute n a t k) b (lin_jac_end n k).
Proof.
  intros Hn Hk. unfold lin_compute, lin_jac_end, linspace.
  destruct (Nat.eqb_spec n 1); [apply (is_derive_const a)|].
  destruct (Nat.eqb_spec k (n - 1)); [apply (is_derive_id (K := R_AbsRing))|].
  assert (INR (n - 1) <> 0) by (apply not_0_INR; lia). auto_derive; auto. field; auto.
Qed.

(** ** Flip *)
Lemma flip_twice n neg x k : (k < n)%nat -> flip_compute n neg (flip_compute n neg x) k = x k.
Proof.
  intro Hk. unfold flip_compute, flip_scaler. replace (n - 1 - (n - 1 - k))%nat with k by lia. destruct neg; ring.
Qed.
Lemma flip_jac_ok n neg x r c : (r < n)%nat -> (c < n)%nat ->
  is_derive (fun t => flip_compute n neg (updv x c t) r) (x c) (flip_jac n neg r c).
Proof.
  intros Hr Hc. unfold flip_compute. evar_last; [apply is_derive_scal; apply updv_derive|].
  unfold flip_jac. destruct (Nat.eqb_spec c (n - 1 - r)) as [->|Hne].
  - rewrite (existsb_pair _ _ (n - 1 - r)%nat); [ring|lia|].
    rewrite Nat.eqb_refl, andb_true_r. apply Nat.eqb_eq. lia.
  - rewrite existsb_none; [ring|]. intros k Hk. apply andb_false_iff.
    destruct (Nat.eqb_spec k c); [|tauto]. left. apply Nat.eqb_neq. subst. lia.
Qed.
