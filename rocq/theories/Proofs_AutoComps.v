(** Lemmas about promote_add / promote_mult and the integrator group's configure. *)
From Coq Require Import Reals List Bool PeanoNat String Ascii Lia Permutation DecimalString DecimalNat.
From Verif Require Import Base Py RSum Model_Algebra Spec_Algebra Proofs_Algebra Model_Mission Spec_Mission Proofs_Mission.
Import ListNotations.
Open Scope string_scope.
Open Scope list_scope.

Lemma str_inj a b : str a = str b -> a = b.
Proof.
  unfold str. intro H. apply Unsigned.to_uint_inj.
  assert (E : Some (Nat.to_uint a) = Some (Nat.to_uint b)) by (rewrite <- !NilEmpty.usu, H; reflexivity).
  injection E; auto.
Qed.
Lemma str_dotless n : dotless (str n).
Proof.
  unfold str, dotless. induction (Nat.to_uint n); simpl; auto.
  all: intros [H|H]; [discriminate|auto].
Qed.
Lemma dotless_app a b : dotless a -> dotless b -> dotless (String.append a b).
Proof. unfold dotless. induction a; simpl; intros Ha Hb; [auto|]. intros [H|H]; [apply Ha; auto|]. apply IHa; auto. Qed.

(** Name of the component created by call number [k]. *)
Definition auto_name (k : nat) (c : auto_call) : string :=
  match c with CallAdd _ => String.append "add" (str k) | CallMult _ => String.append "mult" (str k) end.
Definition auto_sub (k : nat) (c : auto_call) : auto_comp :=
  match c with
  | CallAdd a => AutoAdd (add_sys_of a)
      (map (fun p => (String.append "_temp" (str (fst p + List.length (ac_sources a))), snd p)) (enumerate (ac_promoted a)))
  | CallMult m => AutoMult (mult_sys_of m)
  end.
Definition auto_conns (k : nat) (c : auto_call) : list (string * string) :=
  match c with
  | CallAdd a => map (fun p => (snd p, String.append (auto_name k c) (String.append "._temp" (str (fst p))))) (enumerate (ac_sources a))
  | CallMult m => [(mc_source m, String.append (auto_name k c) "._temp")]
  end.

Lemma auto_run_gen l : forall g,
  let g' := fold_left auto_step l g in
  ig_count g' = (ig_count g + List.length l)%nat /\
  ig_subs g' = ig_subs g ++ map (fun p => (auto_name (fst p) (snd p), auto_sub (fst p) (snd p))) (enumerate_from (ig_count g) l) /\
  ig_conns g' = ig_conns g ++ flat_map (fun p => auto_conns (fst p) (snd p)) (enumerate_from (ig_count g) l).
Proof.
  induction l as [|c l IH]; intro g; simpl.
  - rewrite !app_nil_r. repeat split; lia.
  - destruct (IH (auto_step g c)) as (A & B & C).
    assert (Ec : ig_count (auto_step g c) = S (ig_count g)) by (destruct c; reflexivity).
    rewrite Ec in A, B, C. rewrite A, B, C. split; [lia|split].
    + destruct c; simpl; rewrite <- app_assoc; reflexivity.
    + destruct c; simpl; rewrite <- app_assoc; reflexivity.
Qed.
Lemma auto_run_eq l :
  ig_subs (auto_run l) = map (fun p => (auto_name (fst p) (snd p), auto_sub (fst p) (snd p))) (enumerate l) /\
  ig_conns (auto_run l) = flat_map (fun p => auto_conns (fst p) (snd p)) (enumerate l).
Proof. destruct (auto_run_gen l ig_empty) as (_ & A & B). split; assumption. Qed.

Lemma enum_in {A} (l : list A) : forall k i x, In (i, x) (enumerate_from k l) <-> (k <= i)%nat /\ nth_error l (i - k) = Some x.
Proof.
  induction l as [|a l IH]; intros k i x; simpl.
  - split; [tauto|]. intros [_ H]. destruct (i - k)%nat; discriminate.
  - rewrite IH. split.
    + intros [H|[H1 H2]].
      * injection H as <- <-. split; [lia|]. replace (k - k)%nat with 0%nat by lia. reflexivity.
      * split; [lia|]. replace (i - k)%nat with (S (i - S k)) by lia. exact H2.
    + intros [H1 H2]. destruct (i - k)%nat eqn:E.
      * left. simpl in H2. injection H2 as ->. f_equal; lia.
      * right. split; [lia|]. replace (i - S k)%nat with n by lia. exact H2.
Qed.
Lemma enum_in0 {A} (l : list A) i x : In (i, x) (enumerate l) <-> nth_error l i = Some x.
Proof. unfold enumerate. rewrite enum_in, Nat.sub_0_r. intuition lia. Qed.
Lemma enum_fst {A} (l : list A) : forall k, map fst (enumerate_from k l) = seq k (List.length l).
Proof. induction l; intro k; simpl; [reflexivity|]. rewrite IHl. reflexivity. Qed.
Lemma enum_NoDup {A} (l : list A) : NoDup (enumerate l).
Proof. apply (NoDup_map_inv fst). unfold enumerate. rewrite enum_fst. apply seq_NoDup. Qed.

Lemma auto_name_inj j k c d : auto_name j c = auto_name k d -> j = k.
Proof.
  destruct c, d; simpl; intro H; try discriminate; apply str_inj; congruence.
Qed.
Lemma auto_name_dotless k c : dotless (auto_name k c).
Proof.
  destruct c; [apply (dotless_app "add")|apply (dotless_app "mult")]; try apply str_dotless;
    unfold dotless; simpl; intuition discriminate.
Qed.

Lemma auto_subs_names l : NoDup (map fst (ig_subs (auto_run l))).
Proof.
  rewrite (proj1 (auto_run_eq l)), map_map. simpl.
  apply NoDup_map_map; [apply enum_NoDup|].
  intros [j c] [k d] Hc Hd H. simpl in H. apply auto_name_inj in H. subst k.
  apply enum_in0 in Hc, Hd. rewrite Hc in Hd. congruence.
Qed.

Lemma auto_conn_target k c s t : In (s, t) (auto_conns k c) -> exists x, t = sub (auto_name k c) x.
Proof.
  destruct c; simpl.
  - rewrite in_map_iff. intros [[i y] [H _]]. injection H as _ <-. exists (String.append "_temp" (str i)). reflexivity.
  - intros [H|[]]. injection H as _ <-. exists "_temp". reflexivity.
Qed.

Lemma auto_targets l : NoDup (map snd (ig_conns (auto_run l))).
Proof.
  rewrite (proj2 (auto_run_eq l)), map_flat_map.
  apply NoDup_flat_map; [apply enum_NoDup| |].
  - intros [k c] _. simpl. destruct c; simpl; [|constructor; [simpl; tauto|constructor]].
    rewrite map_map. simpl. apply NoDup_map_map; [apply enum_NoDup|].
    intros [i x] [j y] Hi Hj H. simpl in H. injection H as H.
    assert (E : String.append "._temp" (str i) = String.append "._temp" (str j)).
    { apply (app_inj_l (str k)). exact H. }
    assert (i = j) by (apply str_inj; simpl in E; congruence). subst j.
    apply enum_in0 in Hi, Hj. congruence.
  - intros [j c] [k d] t Hc Hd Ht Ht'. simpl in Ht, Ht'.
    apply in_map_iff in Ht, Ht'. destruct Ht as [[s1 t1] [E1 H1]], Ht' as [[s2 t2] [E2 H2]].
    simpl in E1, E2; subst.
    apply auto_conn_target in H1, H2. destruct H1 as [x1 E1], H2 as [x2 E2]. rewrite E1 in E2.
    apply dotless_split in E2; try apply auto_name_dotless.
    destruct E2 as [E2 _]. apply auto_name_inj in E2. subst k.
    apply enum_in0 in Hc, Hd. congruence.
Qed.

Lemma find_unique {A} (f : A -> string) l x y : NoDup (map f l) -> In x l -> f x = y ->
  find (fun a => String.eqb (f a) y) l = Some x.
Proof.
  induction l as [|a l IH]; simpl; intros Hn Hx He; [contradiction|]. inversion Hn; subst.
  destruct Hx as [->|Hx]; [rewrite String.eqb_refl; reflexivity|].
  destruct (String.eqb_spec (f a) (f x)) as [E|]; [|apply IH; auto].
  exfalso. apply H1. rewrite E. apply in_map; auto.
Qed.
Lemma find_none_iff {A} (f : A -> string) l y : ~ In y (map f l) -> find (fun a => String.eqb (f a) y) l = None.
Proof.
  induction l as [|a l IH]; simpl; intro H; [reflexivity|].
  destruct (String.eqb_spec (f a) y) as [E|]; [exfalso; apply H; auto|apply IH; auto].
Qed.

Definition adder_promotes (a : add_call) : list (string * string) :=
  map (fun p => (String.append "_temp" (str (fst p + List.length (ac_sources a))), snd p)) (enumerate (ac_promoted a)).

Lemma add_source l a k i s : nth_error l k = Some (CallAdd a) ->
  nth_error (ac_sources a ++ ac_promoted a) i = Some s ->
  source_of (ig_conns (auto_run l)) (String.append "add" (str k)) (adder_promotes a) (String.append "_temp" (str i)) = Some s.
Proof.
  intros Hk Hi. unfold source_of.
  assert (Hnd : NoDup (map fst (adder_promotes a))).
  { unfold adder_promotes. rewrite map_map. simpl. apply NoDup_map_map; [apply enum_NoDup|].
    intros [x1 y1] [x2 y2] H1 H2 H. simpl in H. injection H as H. apply str_inj in H.
    assert (x1 = x2) by lia. subst. apply enum_in0 in H1, H2. congruence. }
  destruct (Nat.lt_ge_cases i (List.length (ac_sources a))) as [Hlt|Hge].
  - rewrite find_none_iff.
    + rewrite nth_error_app1 in Hi by exact Hlt.
      assert (Hin : In (s, sub (String.append "add" (str k)) (String.append "_temp" (str i))) (ig_conns (auto_run l))).
      { rewrite (proj2 (auto_run_eq l)). apply in_flat_map. exists (k, CallAdd a). split; [apply enum_in0; auto|].
        simpl. apply in_map_iff. exists (i, s). split; [|apply enum_in0; auto].
        unfold sub. simpl. reflexivity. }
      rewrite (find_unique snd _ _ (sub (String.append "add" (str k)) (String.append "_temp" (str i))) (auto_targets l) Hin eq_refl).
      reflexivity.
    + unfold adder_promotes. rewrite map_map. simpl. rewrite in_map_iff. intros [[x y] [H _]].
      injection H as H. apply str_inj in H. lia.
  - rewrite nth_error_app2 in Hi by exact Hge.
    erewrite (find_unique fst _ (String.append "_temp" (str i), s) _ Hnd).
    + reflexivity.
    + unfold adder_promotes. apply in_map_iff. exists ((i - List.length (ac_sources a))%nat, s). split.
      * simpl. replace (i - List.length (ac_sources a) + List.length (ac_sources a))%nat with i by lia. reflexivity.
      * apply enum_in0; auto.
    + reflexivity.
Qed.

Lemma mult_source l m k : nth_error l k = Some (CallMult m) ->
  source_of (ig_conns (auto_run l)) (String.append "mult" (str k)) [] "_temp" = Some (mc_source m).
Proof.
  intro Hk. unfold source_of. cbn [find].
  assert (Hin : In (mc_source m, sub (String.append "mult" (str k)) "_temp") (ig_conns (auto_run l))).
  { rewrite (proj2 (auto_run_eq l)). apply in_flat_map. exists (k, CallMult m). split; [apply enum_in0; auto|].
    simpl. left. reflexivity. }
  rewrite (find_unique snd _ _ (sub (String.append "mult" (str k)) "_temp") (auto_targets l) Hin eq_refl).
  reflexivity.
Qed.

(** *** Tags *)
Lemma colonless_app a b : colonless (String.append a b) <-> colonless a /\ colonless b.
Proof. unfold colonless. induction a; simpl; [tauto|]. intuition. Qed.

Lemma split_from_colonless acc s : colonless s -> split_colon_from acc s = [String.append acc s].
Proof.
  unfold colonless. revert acc; induction s as [|c s IH]; intros acc H; simpl in *; [rewrite app_nil_s; reflexivity|].
  destruct (Ascii.eqb_spec c ":") as [->|Hc]; [exfalso; apply H; auto|].
  rewrite IH by auto. rewrite app_assoc_s. reflexivity.
Qed.
Lemma split_from_app acc k r : colonless k ->
  split_colon_from acc (String.append k (String.append ":" r)) = String.append acc k :: split_colon_from "" r.
Proof.
  unfold colonless. revert acc; induction k as [|c k IH]; intros acc H; simpl in *; [rewrite app_nil_s; reflexivity|].
  destruct (Ascii.eqb_spec c ":") as [->|Hc]; [exfalso; apply H; auto|].
  rewrite IH by auto. rewrite app_assoc_s. reflexivity.
Qed.
Lemma split_plain t : colonless t -> split_colon t = [t].
Proof. intro H. unfold split_colon. rewrite split_from_colonless; auto. Qed.
Lemma split_pair k v : colonless k -> colonless v -> split_colon (String.append k (String.append ":" v)) = [k; v].
Proof. intros Hk Hv. unfold split_colon. rewrite split_from_app, split_from_colonless; auto. Qed.

Definition tag_key (t : string) : string := hd "" (split_colon t).
Definition tag_value (t : string) : string := last (split_colon t) "".
(** value of the last tag with a given key *)
Fixpoint last_value (k : string) (tags : list string) : option string :=
  match tags with
  | [] => None
  | t :: r => match last_value k r with
              | Some v => Some v
              | None => if String.eqb (tag_key t) k then Some (tag_value t) else None
              end
  end.
Definition or_else {A} (a b : option A) : option A := match a with Some _ => a | None => b end.
Definition parsed {A} (parse : string -> res A) (v : option string) (old new : A) : Prop :=
  match v with Some t => parse t = Ok new | None => new = old end.

Section Tags.
  Variables (float eval_num : string -> res R) (eval_bool : string -> res bool).
  Definition opts_after (o : integ_opts) (tags : list string) (o' : integ_opts) : Prop :=
    o_name o' = or_else (last_value "state_name" tags) (o_name o) /\
    o_units o' = or_else (last_value "state_units" tags) (o_units o) /\
    parsed eval_num (last_value "state_val" tags) (o_val o) (o_val o') /\
    parsed float (last_value "state_lower" tags) (o_lower o) (o_lower o') /\
    parsed float (last_value "state_upper" tags) (o_upper o) (o_upper o') /\
    parsed eval_bool (last_value "state_promotes" tags) (o_promotes o) (o_promotes o').

  Lemma read_tags_after tags : forall o o', read_tags float eval_num eval_bool o tags = Ok o' -> opts_after o tags o'.
  Proof.
    induction tags as [|t tags IH]; intros o o' H; simpl in H.
    - injection H as <-. unfold opts_after; simpl. repeat split.
    - unfold read_tag in H. fold (tag_key t) in H. fold (tag_value t) in H.
      unfold opts_after. cbn [last_value].
      destruct (String.eqb_spec (tag_key t) "state_name") as [E|E1].
      { rewrite E. apply IH in H. destruct H as (A & B & C & D & F & G). simpl in A, B, C, D, F, G. simpl String.eqb. cbv iota.
        repeat split.
        - rewrite A. destruct (last_value "state_name" tags); reflexivity.
        - rewrite B. destruct (last_value "state_units" tags); reflexivity.
        - destruct (last_value "state_val" tags); exact C.
        - destruct (last_value "state_lower" tags); exact D.
        - destruct (last_value "state_upper" tags); exact F.
        - destruct (last_value "state_promotes" tags); exact G. }
      destruct (String.eqb_spec (tag_key t) "state_units") as [E|E2].
      { rewrite E. apply IH in H. destruct H as (A & B & C & D & F & G). simpl in A, B, C, D, F, G. simpl String.eqb. cbv iota.
        repeat split.
        - rewrite A. destruct (last_value "state_name" tags); reflexivity.
        - rewrite B. destruct (last_value "state_units" tags); reflexivity.
        - destruct (last_value "state_val" tags); exact C.
        - destruct (last_value "state_lower" tags); exact D.
        - destruct (last_value "state_upper" tags); exact F.
        - destruct (last_value "state_promotes" tags); exact G. }
      destruct (String.eqb_spec (tag_key t) "state_val") as [E|E3].
      { rewrite E. destruct (eval_num (tag_value t)) as [x|] eqn:Ex; simpl in H; [|discriminate].
        apply IH in H. destruct H as (A & B & C & D & F & G). simpl in A, B, C, D, F, G. simpl String.eqb. cbv iota.
        repeat split.
        - rewrite A. destruct (last_value "state_name" tags); reflexivity.
        - rewrite B. destruct (last_value "state_units" tags); reflexivity.
        - destruct (last_value "state_val" tags); simpl in *; [exact C|congruence].
        - destruct (last_value "state_lower" tags); exact D.
        - destruct (last_value "state_upper" tags); exact F.
        - destruct (last_value "state_promotes" tags); exact G. }
      destruct (String.eqb_spec (tag_key t) "state_lower") as [E|E4].
      { rewrite E. destruct (float (tag_value t)) as [x|] eqn:Ex; simpl in H; [|discriminate].
        apply IH in H. destruct H as (A & B & C & D & F & G). simpl in A, B, C, D, F, G. simpl String.eqb. cbv iota.
        repeat split.
        - rewrite A. destruct (last_value "state_name" tags); reflexivity.
        - rewrite B. destruct (last_value "state_units" tags); reflexivity.
        - destruct (last_value "state_val" tags); exact C.
        - destruct (last_value "state_lower" tags); simpl in *; [exact D|congruence].
        - destruct (last_value "state_upper" tags); exact F.
        - destruct (last_value "state_promotes" tags); exact G. }
      destruct (String.eqb_spec (tag_key t) "state_upper") as [E|E5].
      { rewrite E. destruct (float (tag_value t)) as [x|] eqn:Ex; simpl in H; [|discriminate].
        apply IH in H. destruct H as (A & B & C & D & F & G). simpl in A, B, C, D, F, G. simpl String.eqb. cbv iota.
        repeat split.
        - rewrite A. destruct (last_value "state_name" tags); reflexivity.
        - rewrite B. destruct (last_value "state_units" tags); reflexivity.
        - destruct (last_value "state_val" tags); exact C.
        - destruct (last_value "state_lower" tags); exact D.
        - destruct (last_value "state_upper" tags); simpl in *; [exact F|congruence].
        - destruct (last_value "state_promotes" tags); exact G. }
      destruct (String.eqb_spec (tag_key t) "state_promotes") as [E|E6].
      { destruct (eval_bool (tag_value t)) as [x|] eqn:Ex; simpl in H; [|discriminate].
        apply IH in H. destruct H as (A & B & C & D & F & G). simpl in A, B, C, D, F, G. simpl String.eqb. cbv iota.
        repeat split.
        - rewrite A. destruct (last_value "state_name" tags); reflexivity.
        - rewrite B. destruct (last_value "state_units" tags); reflexivity.
        - destruct (last_value "state_val" tags); exact C.
        - destruct (last_value "state_lower" tags); exact D.
        - destruct (last_value "state_upper" tags); exact F.
        - destruct (last_value "state_promotes" tags); simpl in *; [exact G|congruence]. }
      simpl in H. apply IH in H. destruct H as (A & B & C & D & F & G).
      repeat split.
      + rewrite A. destruct (last_value "state_name" tags); reflexivity.
      + rewrite B. destruct (last_value "state_units" tags); reflexivity.
      + destruct (last_value "state_val" tags); exact C.
      + destruct (last_value "state_lower" tags); exact D.
      + destruct (last_value "state_upper" tags); exact F.
      + destruct (last_value "state_promotes" tags); exact G.
  Qed.

  (** Every numeric tag can be read. *)
  Definition readable (tags : list string) : Prop := forall t, In t tags ->
    (tag_key t = "state_val" -> is_ok (eval_num (tag_value t)) = true) /\
    (tag_key t = "state_lower" -> is_ok (float (tag_value t)) = true) /\
    (tag_key t = "state_upper" -> is_ok (float (tag_value t)) = true) /\
    (tag_key t = "state_promotes" -> is_ok (eval_bool (tag_value t)) = true).
  Lemma read_tags_total tags : readable tags -> forall o, exists o', read_tags float eval_num eval_bool o tags = Ok o'.
  Proof.
    induction tags as [|t tags IH]; intros Hr o; simpl; [eexists; reflexivity|].
    assert (Hr' : readable tags) by (intros x Hx; apply Hr; simpl; auto).
    destruct (Hr t (or_introl eq_refl)) as (A & B & C & D).
    unfold read_tag. fold (tag_key t). fold (tag_value t).
    destruct (String.eqb (tag_key t) "state_name"); [apply IH; auto|].
    destruct (String.eqb (tag_key t) "state_units"); [apply IH; auto|].
    destruct (String.eqb_spec (tag_key t) "state_val").
    { specialize (A e). destruct (eval_num (tag_value t)); [apply IH; auto|discriminate]. }
    destruct (String.eqb_spec (tag_key t) "state_lower").
    { specialize (B e). destruct (float (tag_value t)); [apply IH; auto|discriminate]. }
    destruct (String.eqb_spec (tag_key t) "state_upper").
    { specialize (C e). destruct (float (tag_value t)); [apply IH; auto|discriminate]. }
    destruct (String.eqb_spec (tag_key t) "state_promotes").
    { specialize (D e). destruct (eval_bool (tag_value t)); [apply IH; auto|discriminate]. }
    apply IH; auto.
  Qed.
End Tags.

Lemma colon_split_inj k v k' v' : colonless k -> colonless v -> colonless k' -> colonless v' ->
  String.append k (String.append ":" v) = String.append k' (String.append ":" v') -> k = k' /\ v = v'.
Proof.
  intros A B C D H. assert (E : [k; v] = [k'; v']) by (rewrite <- !split_pair by auto; rewrite H; reflexivity).
  injection E; auto.
Qed.

Lemma last_value_in k tags v : last_value k tags = Some v -> exists t, In t tags /\ tag_key t = k /\ tag_value t = v.
Proof.
  induction tags as [|t r IH]; simpl; [discriminate|].
  destruct (last_value k r) as [w|].
  - intro H. destruct (IH H) as (t' & A & B). exists t'; auto.
  - destruct (String.eqb_spec (tag_key t) k); [|discriminate]. intro H. injection H as <-. exists t; auto.
Qed.
Lemma last_value_some k tags t : In t tags -> tag_key t = k -> exists v, last_value k tags = Some v.
Proof.
  induction tags as [|x r IH]; simpl; [tauto|]. intros [->|H] Hk.
  - destruct (last_value k r) as [w|]; [exists w; reflexivity|]. rewrite Hk, String.eqb_refl. eexists; reflexivity.
  - destruct (IH H Hk) as [v ->]. eexists; reflexivity.
Qed.

(** The keys the group looks at. *)
Lemma last_value_iff k tags v : colonless k -> List.Forall tag_ok tags -> ~ In k tags -> functional tags ->
  (last_value k tags = Some v <-> declares tags k v /\ colonless v).
Proof.
  intros Hk Hok Hn Hf.
  assert (Key : forall t, In t tags -> tag_key t = k ->
            colonless (tag_value t) /\ t = String.append k (String.append ":" (tag_value t))).
  { intros t Ht E. rewrite Forall_forall in Hok. destruct (Hok t Ht) as [Hc|(k' & w & -> & Hk' & Hw)].
    - exfalso. apply Hn. unfold tag_key in E. rewrite split_plain in E by auto. simpl in E; subst; auto.
    - unfold tag_key in E. rewrite split_pair in E by auto. simpl in E; subst k'.
      unfold tag_value. rewrite split_pair by auto. simpl. auto. }
  split.
  - intro H. destruct (last_value_in _ _ _ H) as (t & Ht & E & <-). destruct (Key t Ht E) as [A B].
    split; auto. unfold declares. rewrite <- B. exact Ht.
  - intros [Hd Hv]. unfold declares in Hd.
    destruct (last_value_some k tags _ Hd) as [w Hw].
    { unfold tag_key. rewrite split_pair by auto. reflexivity. }
    rewrite Hw. f_equal. destruct (last_value_in _ _ _ Hw) as (t & Ht & E & <-). destruct (Key t Ht E) as [A B].
    apply (Hf k); auto. unfold declares. rewrite <- B; auto.
Qed.
Lemma last_value_none k tags : colonless k -> List.Forall tag_ok tags -> ~ In k tags ->
  (last_value k tags = None <-> forall v, ~ declares tags k v).
Proof.
  intros Hk Hok Hn. split.
  - intros H v Hd. unfold declares in Hd.
    assert (Hv : tag_key (String.append k (String.append ":" v)) = k).
    { unfold tag_key, split_colon. rewrite split_from_app by auto. reflexivity. }
    destruct (last_value_some k tags _ Hd Hv) as [w Hw]. congruence.
  - intro H. destruct (last_value k tags) as [v|] eqn:E; [|reflexivity]. exfalso.
    destruct (last_value_in _ _ _ E) as (t & Ht & Ek & Ev).
    rewrite Forall_forall in Hok. destruct (Hok t Ht) as [Hc|(k' & w & -> & Hk' & Hw)].
    + apply Hn. unfold tag_key in Ek. rewrite split_plain in Ek by auto. simpl in Ek; subst; auto.
    + unfold tag_key in Ek. rewrite split_pair in Ek by auto. simpl in Ek; subst k'. apply (H w). exact Ht.
Qed.

(** *** configure *)
Section Configure.
  Variables (float eval_num : string -> res R) (eval_bool : string -> res bool) (prom : string -> string).
  Fixpoint cflat (names : list string) (l : list (string * (string * list string))) : res (list string * configured) :=
    match l with
    | [] => Ok (names, cf_empty)
    | (cn, v) :: r =>
        res_bind (configure_var float eval_num eval_bool prom cn names v) (fun a =>
        res_bind (cflat (fst a) r) (fun b => Ok (fst b, cf_app (snd a) (snd b))))
    end.
  Lemma cf_app_assoc a b c : cf_app (cf_app a b) c = cf_app a (cf_app b c).
  Proof. unfold cf_app; simpl. rewrite !app_assoc. reflexivity. Qed.
  Lemma cf_app_empty a : cf_app a cf_empty = a.
  Proof. destruct a; unfold cf_app; simpl. rewrite !app_nil_r. reflexivity. Qed.
  Lemma cf_empty_app a : cf_app cf_empty a = a.
  Proof. destruct a; reflexivity. Qed.
  Lemma cflat_vars cn vars : forall names,
    configure_vars float eval_num eval_bool prom cn names vars = cflat names (map (fun v => (cn, v)) vars).
  Proof.
    induction vars as [|v vars IH]; intro names; simpl; [reflexivity|].
    destruct (configure_var float eval_num eval_bool prom cn names v) as [a|]; simpl; [|reflexivity].
    rewrite IH. reflexivity.
  Qed.
  Lemma cflat_app l1 l2 : forall names,
    cflat names (l1 ++ l2) = res_bind (cflat names l1) (fun a => res_bind (cflat (fst a) l2) (fun b => Ok (fst b, cf_app (snd a) (snd b)))).
  Proof.
    induction l1 as [|[cn v] l1 IH]; intro names; simpl.
    - destruct (cflat names l2) as [[n c]|]; simpl; [rewrite cf_empty_app|]; reflexivity.
    - destruct (configure_var float eval_num eval_bool prom cn names v) as [a|]; simpl; [|reflexivity].
      rewrite IH. destruct (cflat (fst a) l1) as [b|]; simpl; [|reflexivity].
      destruct (cflat (fst b) l2) as [c|]; simpl; [|reflexivity]. rewrite cf_app_assoc. reflexivity.
  Qed.
  Lemma cflat_children chs : forall names,
    configure_children float eval_num eval_bool prom names chs = res_bind (cflat names (rates chs)) (fun b => Ok (snd b)).
  Proof.
    induction chs as [|c chs IH]; intro names; simpl; [reflexivity|].
    rewrite cflat_vars, cflat_app.
    assert (E : map (fun v => (ch_name c, v)) (tagged c) =
      (if ch_group c then [] else map (fun v => (ch_name c, v)) (filter (fun v => in_list "integrate" (snd v)) (ch_outs c))))
      by (unfold tagged; destruct (ch_group c); reflexivity).
    rewrite E. destruct (cflat names _) as [a|]; simpl; [|reflexivity].
    rewrite IH. unfold rates. destruct (cflat (fst a) _) as [b|]; simpl; reflexivity.
  Qed.

  Lemma keys_colonless k : In k tag_keys -> colonless k.
  Proof. unfold tag_keys, colonless. simpl. intros H. repeat destruct H as [<-|H]; try contradiction; simpl; intuition discriminate. Qed.

  Lemma given_of {A} tags key (parse : string -> res A) old x :
    In key tag_keys -> tags_ok tags -> parsed parse (last_value key tags) old x -> given tags key parse old x.
  Proof.
    intros Hk (H1 & H2 & H3) Hp. unfold parsed in Hp. destruct (last_value key tags) as [v|] eqn:E.
    - left. exists v. split; auto. apply last_value_iff in E; auto using keys_colonless. tauto.
    - right. split; auto. apply (last_value_none key tags); auto using keys_colonless.
  Qed.

  Definition entry_ok (r : string * (string * list string)) (e : integrand * (string * string) * bool) : Prop :=
    let '(g, c, pr) := e in
    (tags_ok (snd (snd r)) -> integrand_of float eval_num (snd r) g /\
                              given (snd (snd r)) "state_promotes" eval_bool false pr) /\
    c = (prom (sub (fst r) (fst (snd r))), sub "ode_integ" (fst (snd r))).
  Definition entry_names (e : integrand * (string * string) * bool) : list string :=
    let g := fst (fst e) in [ig_rate g; String.append (ig_state g) "_final"; ig_state g; String.append (ig_state g) "_initial"].

  Lemma cflat_spec l : forall names names' cf, cflat names l = Ok (names', cf) ->
    exists L, Forall2 entry_ok l L /\
      cf_integrands cf = map (fun e => fst (fst e)) L /\ cf_conns cf = map (fun e => snd (fst e)) L /\
      cf_out_promotes cf = flat_map (fun e => if snd e : bool then [ig_state (fst (fst e)); String.append (ig_state (fst (fst e))) "_final"] else []) L /\
      cf_in_promotes cf = flat_map (fun e => if snd e : bool then [String.append (ig_state (fst (fst e))) "_initial"] else []) L /\
      NoDup (flat_map entry_names L) /\ (forall x, In x (flat_map entry_names L) -> ~ In x names).
  Proof.
    induction l as [|[cn [var tags]] l IH]; intros names names' cf H; cbn [cflat] in H.
    - injection H as _ <-. exists []. repeat split; try constructor. intros x [].
    - unfold configure_var in H. cbn [fst snd] in H.
      destruct (read_tags float eval_num eval_bool default_opts tags) as [o|] eqn:Eo; cbn [res_bind] in H; [|discriminate].
      destruct (o_name o) as [st|] eqn:En; [|discriminate].
      destruct (declare names [var; String.append st "_final"; st; String.append st "_initial"]) as [n1|] eqn:Ed; cbn [res_bind fst snd] in H; [|discriminate].
      destruct (cflat n1 l) as [[n2 c2]|] eqn:Er; cbn [res_bind fst snd] in H; [|discriminate].
      injection H as _ <-.
      destruct (IH _ _ _ Er) as (L & HF & A & B & C & D & E & F).
      destruct (proj1 (declare_ok _ _) (ex_intro _ _ Ed)) as [Hnd Hdis].
      pose proof (declare_names _ _ _ Ed) as Hnm.
      set (g := {| ig_state := st; ig_rate := var; ig_units := o_units o; ig_val := o_val o; ig_lower := o_lower o; ig_upper := o_upper o |}).
      exists ((g, (prom (sub cn var), sub "ode_integ" var), o_promotes o) :: L).
      split; [|split; [|split; [|split; [|split; [|split]]]]].
      + constructor; auto. unfold entry_ok. split; [|reflexivity]. simpl. intro Htags.
        pose proof (read_tags_after _ _ _ _ _ _ Eo) as (P1 & P2 & P3 & P4 & P5 & P6).
        unfold integrand_of. simpl.
        assert (Hkeys : forall k, In k tag_keys -> In k tag_keys) by auto.
        assert (U : given tags "state_units" (fun v => Ok (Some v)) None (o_units o)).
        { apply given_of; auto; [unfold tag_keys; simpl; auto|]. unfold parsed. rewrite P2. simpl.
          destruct (last_value "state_units" tags); reflexivity. }
        split; [split; [reflexivity|split; [|split; [|split; [|split]]]]|].
        * simpl in P1. rewrite En in P1. destruct (last_value "state_name" tags) as [v|] eqn:Ev; [|discriminate].
          simpl in P1. injection P1 as ->. destruct Htags as (T1 & T2 & T3).
          apply last_value_iff in Ev; auto; [tauto|apply keys_colonless|apply T3]; unfold tag_keys; simpl; auto.
        * exact U.
        * apply given_of; auto; unfold tag_keys; simpl; tauto.
        * apply given_of; auto; unfold tag_keys; simpl; tauto.
        * apply given_of; auto; unfold tag_keys; simpl; tauto.
        * apply given_of; auto; unfold tag_keys; simpl; tauto.
      + simpl. rewrite A. reflexivity.
      + simpl. rewrite B. reflexivity.
      + simpl. rewrite C. reflexivity.
      + simpl. rewrite D. reflexivity.
      + cbn [flat_map]. apply NoDup_app_iff. split; [exact Hnd|split; [exact E|]].
        intros x Hx Hc. apply (F x Hc). apply Hnm. right. exact Hx.
      + intros x Hx. cbn [flat_map] in Hx. apply in_app_or in Hx. destruct Hx as [Hx|Hx].
        * apply Hdis. exact Hx.
        * intro Hc. apply (F x Hx). apply Hnm. left; exact Hc.
  Qed.

  (** Accepted as soon as every tag can be read, every rate has a state name and
      the variable names are all different. *)
  Lemma cflat_accepts l : (forall r, In r l -> readable float eval_num eval_bool (snd (snd r))) ->
    (forall r, In r l -> tags_ok (snd (snd r))) ->
    forall sts, Forall2 (fun r st => declares (snd (snd r)) "state_name" st /\ colonless st) l sts ->
    forall names,
    NoDup (flat_map (fun p => [fst (snd (fst p)); String.append (snd p) "_final"; snd p; String.append (snd p) "_initial"]) (combine l sts)) ->
    (forall x, In x (flat_map (fun p => [fst (snd (fst p)); String.append (snd p) "_final"; snd p; String.append (snd p) "_initial"]) (combine l sts)) -> ~ In x names) ->
    exists out, cflat names l = Ok out.
  Proof.
    induction l as [|[cn [var tags]] l IH]; intros Hr Ht sts HF names Hnd Hdis; simpl; [eexists; reflexivity|].
    inversion HF as [|? st ? sts' [Hd Hc] HF']; subst. cbn [combine flat_map fst snd] in Hnd, Hdis.
    unfold configure_var. cbn [fst snd].
    destruct (read_tags_total float eval_num eval_bool tags (Hr _ (or_introl eq_refl)) default_opts) as [o Ho].
    rewrite Ho. cbn [res_bind].
    pose proof (read_tags_after _ _ _ _ _ _ Ho) as (P1 & _).
    assert (Ev : last_value "state_name" tags = Some st).
    { destruct (Ht _ (or_introl eq_refl)) as (T1 & T2 & T3). simpl in T1, T2, T3.
      apply (last_value_iff "state_name" tags st); [apply keys_colonless; unfold tag_keys; simpl; auto|exact T1|apply T3; unfold tag_keys; simpl; auto|exact T2|auto]. }
    rewrite Ev in P1. cbn [or_else] in P1. rewrite P1.
    apply NoDup_app_iff in Hnd. destruct Hnd as (N1 & N2 & N3).
    destruct (proj2 (declare_ok names [var; String.append st "_final"; st; String.append st "_initial"])) as [n1 Hn1].
    { split; auto. intros x Hx. apply Hdis. apply in_or_app; auto. }
    rewrite Hn1. cbn [res_bind fst snd].
    destruct (IH (fun r H => Hr r (or_intror H)) (fun r H => Ht r (or_intror H)) sts' HF' n1 N2) as [out Hout].
    { intros x Hx Hn. apply (declare_names _ _ _ Hn1) in Hn. destruct Hn as [Hn|Hn].
      - apply (Hdis x); auto. apply in_or_app; auto.
      - apply (N3 x); auto. }
    rewrite Hout. eexists; reflexivity.
  Qed.

  Lemma cflat_needs_name l : (exists r, In r l /\ tags_ok (snd (snd r)) /\ forall v, ~ declares (snd (snd r)) "state_name" v) ->
    forall names, exists e, cflat names l = Err e.
  Proof.
    induction l as [|[cn [var tags]] l IH]; intros (r & Hr & Hok & Hno) names; [contradiction|].
    simpl. destruct (configure_var float eval_num eval_bool prom cn names (var, tags)) as [a|e] eqn:Ea; [|exists e; reflexivity].
    simpl. destruct Hr as [<-|Hr].
    - exfalso. unfold configure_var in Ea. cbn [fst snd] in Ea, Hok, Hno.
      destruct (read_tags float eval_num eval_bool default_opts tags) as [o|] eqn:Eo; simpl in Ea; [|discriminate].
      pose proof (read_tags_after _ _ _ _ _ _ Eo) as (P1 & _).
      destruct Hok as (T1 & T2 & T3).
      assert (E : last_value "state_name" tags = None).
      { apply (last_value_none "state_name" tags); [apply keys_colonless; unfold tag_keys; simpl; auto|exact T1|apply T3; unfold tag_keys; simpl; auto|exact Hno]. }
      rewrite E in P1. simpl in P1. rewrite P1 in Ea. discriminate.
    - destruct (IH (ex_intro _ r (conj Hr (conj Hok Hno))) (fst a)) as [e He]. rewrite He. exists e; reflexivity.
  Qed.
End Configure.
