(** Lemmas about phases, trajectories and integrator groups. *)
From Coq Require Import Reals List Bool PeanoNat String Ascii Lia Permutation DecimalString DecimalNat.
From Verif Require Import Base Py RSum Model_Algebra Spec_Algebra Proofs_Algebra Model_Mission Spec_Mission.
Import ListNotations.
Open Scope string_scope.
Open Scope list_scope.

(** ** Strings *)
Lemma app_assoc_s a b c : String.append (String.append a b) c = String.append a (String.append b c).
Proof. induction a; simpl; congruence. Qed.
Lemma app_nil_s a : String.append a "" = a.
Proof. induction a; simpl; congruence. Qed.
Lemma app_inj_l a b c : String.append a b = String.append a c -> b = c.
Proof. induction a; simpl; intro H; [exact H | injection H; auto]. Qed.
Lemma length_app a b : String.length (String.append a b) = (String.length a + String.length b)%nat.
Proof. induction a; simpl; congruence. Qed.
Lemma prefix_app a b : String.prefix a (String.append a b) = true.
Proof. induction a; simpl; [destruct b; reflexivity|]. destruct (ascii_dec a a); congruence. Qed.
Lemma prefix_split p s : String.prefix p s = true -> exists b, s = String.append p b.
Proof.
  revert s; induction p as [|c p IH]; intros s H; [exists s; reflexivity|].
  destruct s as [|d s]; simpl in H; [discriminate|].
  destruct (ascii_dec c d) as [->|]; [|discriminate].
  destruct (IH s H) as [b ->]. exists b; reflexivity.
Qed.
Lemma substring_all s : substring 0 (String.length s) s = s.
Proof. induction s; simpl; congruence. Qed.
Lemma substring_drop p b : substring (String.length p) (String.length b) (String.append p b) = b.
Proof. induction p; simpl; [apply substring_all | exact IHp]. Qed.

Lemma dotless_split n m a b : dotless n -> dotless m -> sub n a = sub m b -> n = m /\ a = b.
Proof.
  unfold sub, dotless. revert m; induction n as [|c n IH]; intros m Hn Hm H.
  - destruct m as [|d m]; simpl in H; [split; [reflexivity|now injection H]|].
    injection H as <- _. exfalso; apply Hm; simpl; auto.
  - destruct m as [|d m]; simpl in H.
    + injection H as -> _. exfalso; apply Hn; simpl; auto.
    + injection H as <- H. simpl in Hn, Hm.
      destruct (IH m) as [-> ->]; auto.
Qed.

(** ** Names *)
Lemma in_list_iff x l : in_list x l = true <-> In x l.
Proof.
  unfold in_list. rewrite existsb_exists. split.
  - intros [y [Hy He]]. apply String.eqb_eq in He; subst; auto.
  - intro H; exists x; split; auto. apply String.eqb_refl.
Qed.
Lemma in_list_false x l : in_list x l = false <-> ~ In x l.
Proof. rewrite <- in_list_iff. destruct (in_list x l); split; congruence. Qed.
Lemma opt_eqb_iff a b : opt_eqb a b = true <-> a = b.
Proof.
  destruct a, b; simpl; try (split; congruence).
  rewrite String.eqb_eq. split; congruence.
Qed.
Lemma dot_below a b : dot a b = below a b. Proof. reflexivity. Qed.

Lemma dotted_cons n path v : path <> [] \/ True -> dotted (n :: path) v = sub n (dotted path v).
Proof. intros _. unfold dotted, sub. simpl. destruct (path ++ [v]) eqn:E; [destruct path; discriminate|reflexivity]. Qed.

(** ** Integrators in a tree *)
Section SysInd.
  Variable P : sys -> Prop.
  Hypothesis HG : forall n subs, (forall c, In c subs -> P c) -> P (Group n subs).
  Hypothesis HI : forall n i s, P (Integ n i s).
  Hypothesis HC : forall n, P (Comp n).
  Fixpoint sys_ind2 (s : sys) : P s.
  Proof.
    destruct s as [n subs|n i st|n]; [|apply HI|apply HC].
    apply HG. induction subs as [|c subs IH]; intros c' [].
    - rewrite <- H; apply sys_ind2.
    - apply IH; exact H.
  Defined.
End SysInd.

Lemma find_group n subs ns d :
  find_integrators (Group n subs) ns d =
  (flat_map (fun c => fst (find_integrators c (dot ns (sys_name c)) d)) subs,
   flat_map (fun c => snd (find_integrators c (dot ns (sys_name c)) d)) subs).
Proof.
  simpl. induction subs as [|c subs IH]; simpl; [reflexivity|].
  rewrite IH. reflexivity.
Qed.

Lemma sub_nonempty a b : sub a b <> "".
Proof. unfold sub. destruct a; discriminate. Qed.
Lemma dot_sub a b : a <> "" -> dot a b = sub a b.
Proof. intro H. unfold dot. destruct (String.eqb_spec a ""); [contradiction|reflexivity]. Qed.
Lemma sub_assoc a b c : sub (sub a b) c = sub a (sub b c).
Proof. unfold sub. rewrite !app_assoc_s. reflexivity. Qed.

Lemma find_times_in d s : forall ns v, ns <> "" ->
  (In v (fst (find_integrators s ns d)) <->
   exists path n ins sts, inside s path (Integ n ins sts) /\ In d ins /\ v = sub ns (dotted path d)).
Proof.
  induction s as [n subs IH|n ins sts|n] using sys_ind2; intros ns v Hns.
  - rewrite find_group; simpl fst. rewrite in_flat_map. split.
    + intros [c [Hc Hv]]. rewrite dot_sub in Hv by auto.
      apply IH in Hv; [|exact Hc|apply sub_nonempty].
      destruct Hv as (path & m & ins & sts & Hi & Hd & ->).
      exists (sys_name c :: path), m, ins, sts. split; [constructor; auto|split; auto].
      rewrite dotted_cons by auto. apply sub_assoc.
    + intros (path & m & ins & sts & Hi & Hd & ->).
      inversion Hi; subst. exists c. split; auto.
      rewrite dot_sub by auto. apply IH; [auto|apply sub_nonempty|].
      exists path0, m, ins, sts. split; auto. split; auto.
      rewrite dotted_cons by auto. symmetry; apply sub_assoc.
  - simpl fst. rewrite in_map_iff. split.
    + intros [x [<- Hx]]. apply filter_In in Hx. destruct Hx as [Hx He].
      apply String.eqb_eq in He; subst x.
      exists [], n, ins, sts. split; [constructor|split; auto].
    + intros (path & m & i2 & s2 & Hi & Hd & ->). inversion Hi; subst.
      exists d. split; [reflexivity|]. apply filter_In. split; auto. apply String.eqb_refl.
  - simpl. split; [tauto|]. intros (path & m & i2 & s2 & Hi & _). inversion Hi.
Qed.

Lemma find_states_in d s : forall ns st, ns <> "" ->
  (In st (snd (find_integrators s ns d)) <->
   exists path n ins sts x, inside s path (Integ n ins sts) /\ In x sts /\
     st = {| is_name := sub ns (dotted path (is_name x));
             is_start := sub ns (dotted path (is_start x));
             is_end := sub ns (dotted path (is_end x)) |}).
Proof.
  induction s as [n subs IH|n ins sts|n] using sys_ind2; intros ns st Hns.
  - rewrite find_group; simpl snd. rewrite in_flat_map. split.
    + intros [c [Hc Hv]]. rewrite dot_sub in Hv by auto.
      apply IH in Hv; [|exact Hc|apply sub_nonempty].
      destruct Hv as (path & m & ins & sts & x & Hi & Hd & ->).
      exists (sys_name c :: path), m, ins, sts, x. split; [constructor; auto|split; auto].
      rewrite !dotted_cons by auto. rewrite !sub_assoc. reflexivity.
    + intros (path & m & ins & sts & x & Hi & Hd & ->).
      inversion Hi; subst. exists c. split; auto.
      rewrite dot_sub by auto. apply IH; [auto|apply sub_nonempty|].
      exists path0, m, ins, sts, x. split; auto. split; auto.
      rewrite !dotted_cons by auto. rewrite !sub_assoc. reflexivity.
  - simpl snd. rewrite in_map_iff. split.
    + intros [x [<- Hx]]. exists [], n, ins, sts, x. split; [constructor|split; auto].
    + intros (path & m & i2 & s2 & x & Hi & Hd & ->). inversion Hi; subst. exists x. split; auto.
  - simpl. split; [tauto|]. intros (path & m & i2 & s2 & x & Hi & _). inversion Hi.
Qed.

(** For the phase itself, whose own name is not part of the path. *)
Lemma phase_times n subs d v : (forall c, In c subs -> sys_name c <> "") ->
  (In v (fst (find_integrators (Group n subs) "" d)) <->
   exists path m ins sts, inside (Group n subs) path (Integ m ins sts) /\ In d ins /\ v = dotted path d).
Proof.
  intros Hne. rewrite find_group; simpl fst. rewrite in_flat_map. split.
  - intros [c [Hc Hv]]. change (dot "" (sys_name c)) with (sys_name c) in Hv.
    apply find_times_in in Hv; [|apply Hne; auto].
    destruct Hv as (path & m & ins & sts & Hi & Hd & ->).
    exists (sys_name c :: path), m, ins, sts. split; [constructor; auto|split; auto].
    rewrite dotted_cons by auto. reflexivity.
  - intros (path & m & ins & sts & Hi & Hd & ->). inversion Hi; subst. exists c. split; auto.
    change (dot "" (sys_name c)) with (sys_name c).
    apply find_times_in; [apply Hne; auto|]. exists path0, m, ins, sts. split; auto. split; auto.
    rewrite dotted_cons by auto. reflexivity.
Qed.
Lemma phase_states_in n subs d st : (forall c, In c subs -> sys_name c <> "") ->
  (In st (snd (find_integrators (Group n subs) "" d)) <->
   exists path m ins sts x, inside (Group n subs) path (Integ m ins sts) /\ In x sts /\
     st = {| is_name := dotted path (is_name x); is_start := dotted path (is_start x);
             is_end := dotted path (is_end x) |}).
Proof.
  intros Hne. rewrite find_group; simpl snd. rewrite in_flat_map. split.
  - intros [c [Hc Hv]]. change (dot "" (sys_name c)) with (sys_name c) in Hv.
    apply find_states_in in Hv; [|apply Hne; auto].
    destruct Hv as (path & m & ins & sts & x & Hi & Hd & ->).
    exists (sys_name c :: path), m, ins, sts, x. split; [constructor; auto|split; auto].
    rewrite !dotted_cons by auto. reflexivity.
  - intros (path & m & ins & sts & x & Hi & Hd & ->). inversion Hi; subst. exists c. split; auto.
    change (dot "" (sys_name c)) with (sys_name c).
    apply find_states_in; [apply Hne; auto|]. exists path0, m, ins, sts, x. split; auto. split; auto.
    rewrite !dotted_cons by auto. reflexivity.
Qed.

(** State names of a well-named tree are distinct. *)
Lemma NoDup_flat_map {A B} (f : A -> list B) l :
  NoDup l -> (forall a, In a l -> NoDup (f a)) ->
  (forall a b x, In a l -> In b l -> In x (f a) -> In x (f b) -> a = b) -> NoDup (flat_map f l).
Proof.
  induction l as [|a l IH]; intros Hl Hf Hd; simpl; [constructor|].
  inversion Hl; subst. apply NoDup_app_iff. split; [apply Hf; simpl; auto|split].
  - apply IH; auto; intros; [apply Hf|apply (Hd a0 b x)]; simpl; auto.
  - intros x H H0. apply in_flat_map in H0. destruct H0 as [b [Hb Hx]].
    assert (a = b) by (apply (Hd a b x); simpl; auto). subst b. contradiction.
Qed.

Lemma NoDup_map_inj {A B} (f : A -> B) l : NoDup (map f l) -> forall a b, In a l -> In b l -> f a = f b -> a = b.
Proof.
  induction l as [|x l IH]; simpl; intros H a b Ha Hb He; [contradiction|].
  inversion H as [|y l' Hy Hl]; subst. destruct Ha as [<-|Ha], Hb as [<-|Hb]; auto.
  - exfalso; apply Hy. rewrite He. apply in_map; auto.
  - exfalso; apply Hy. rewrite <- He. apply in_map; auto.
Qed.
Lemma NoDup_of_map {A B} (f : A -> B) l : NoDup (map f l) -> NoDup l.
Proof. apply NoDup_map_inv. Qed.

Lemma map_flat_map {A B C} (g : B -> C) (f : A -> list B) l : map g (flat_map f l) = flat_map (fun a => map g (f a)) l.
Proof. induction l; simpl; [reflexivity|]. rewrite map_app, IHl. reflexivity. Qed.

Lemma sub_inj a b c : sub a b = sub a c -> b = c.
Proof. unfold sub. intro H. apply app_inj_l in H. injection H; auto. Qed.

Lemma NoDup_map_map {A B} (f : A -> B) l : NoDup l -> (forall a b, In a l -> In b l -> f a = f b -> a = b) -> NoDup (map f l).
Proof.
  induction l as [|x l IH]; intros H Hi; simpl; [constructor|]. inversion H; subst. constructor.
  - rewrite in_map_iff. intros [y [Hy Hin]]. assert (y = x) by (apply Hi; simpl; auto). subst; contradiction.
  - apply IH; auto. intros; apply Hi; simpl; auto.
Qed.

Lemma states_distinct_ns d s : well_named s -> forall ns, ns <> "" ->
  NoDup (map is_name (snd (find_integrators s ns d))).
Proof.
  induction s as [n subs IH|n ins sts|n] using sys_ind2; intros Hw ns Hns.
  - rewrite find_group; simpl snd. rewrite map_flat_map. inversion Hw as [? ? Hnd Hok Hrec| |]; subst.
    apply NoDup_flat_map.
    + apply NoDup_of_map in Hnd; exact Hnd.
    + intros c Hc. apply IH; auto. rewrite dot_sub by auto; apply sub_nonempty.
    + intros a b x Ha Hb Hxa Hxb. rewrite in_map_iff in Hxa, Hxb.
      destruct Hxa as [sa [Ea Hsa]], Hxb as [sb [Eb Hsb]].
      rewrite dot_sub in Hsa, Hsb by auto.
      apply find_states_in in Hsa; [|apply sub_nonempty]. apply find_states_in in Hsb; [|apply sub_nonempty].
      destruct Hsa as (p1 & m1 & i1 & s1 & x1 & _ & _ & ->), Hsb as (p2 & m2 & i2 & s2 & x2 & _ & _ & ->).
      simpl in Ea, Eb. rewrite sub_assoc in Ea, Eb. rewrite <- Ea in Eb. apply sub_inj in Eb.
      destruct (dotless_split _ _ _ _ (proj2 (Hok b Hb)) (proj2 (Hok a Ha)) Eb) as [E _].
      symmetry. apply (NoDup_map_inj sys_name subs Hnd); auto.
  - simpl snd. rewrite map_map. inversion Hw; subst.
    rewrite <- (map_map is_name (fun x => sub ns x)).
    apply NoDup_map_map; auto. intros a b _ _ H; apply sub_inj in H; auto.
  - constructor.
Qed.
Lemma states_distinct n subs d : well_named (Group n subs) ->
  NoDup (map is_name (snd (find_integrators (Group n subs) "" d))).
Proof.
  intro Hw. rewrite find_group; simpl snd. rewrite map_flat_map. inversion Hw as [? ? Hnd Hok Hrec| |]; subst.
  apply NoDup_flat_map.
  - apply NoDup_of_map in Hnd; exact Hnd.
  - intros c Hc. change (dot "" (sys_name c)) with (sys_name c). apply states_distinct_ns; auto. apply Hok; auto.
  - intros a b x Ha Hb Hxa Hxb. rewrite in_map_iff in Hxa, Hxb.
    destruct Hxa as [sa [Ea Hsa]], Hxb as [sb [Eb Hsb]].
    change (dot "" (sys_name a)) with (sys_name a) in Hsa. change (dot "" (sys_name b)) with (sys_name b) in Hsb.
    apply find_states_in in Hsa; [|apply Hok; auto]. apply find_states_in in Hsb; [|apply Hok; auto].
    destruct Hsa as (p1 & m1 & i1 & s1 & x1 & _ & _ & ->), Hsb as (p2 & m2 & i2 & s2 & x2 & _ & _ & ->).
    simpl in Ea, Eb. rewrite <- Ea in Eb.
    destruct (dotless_split _ _ _ _ (proj2 (Hok b Hb)) (proj2 (Hok a Ha)) Eb) as [E _].
    symmetry. apply (NoDup_map_inj sys_name subs Hnd); auto.
Qed.

(** ** Durations *)
Lemma existsb_opt p l : existsb (opt_eqb p) l = true <-> In p l.
Proof.
  rewrite existsb_exists. split.
  - intros [x [Hx He]]. apply opt_eqb_iff in He; subst; auto.
  - intro H; exists p; split; auto. apply opt_eqb_iff; auto.
Qed.

Lemma connect_durations_spec prom path : forall tv seen,
  let cs := connect_durations prom path seen tv in
  (forall s t, In (s, t) cs -> s = "duration" /\ t <> Some "duration" /\ ~ In t seen /\
     exists v, In v tv /\ t = prom (dot path v)) /\
  NoDup (map snd cs) /\
  (forall v, In v tv -> prom (dot path v) <> Some "duration" -> ~ In (prom (dot path v)) seen ->
     In ("duration", prom (dot path v)) cs).
Proof.
  induction tv as [|v tv IH]; intros seen; simpl.
  - split; [intros; contradiction|split; [constructor|intros; contradiction]].
  - destruct (opt_eqb (prom (dot path v)) (Some "duration")) eqn:E1; simpl.
    + apply opt_eqb_iff in E1. destruct (IH seen) as (A & B & C). repeat split.
      * apply (A s t H). * apply (A s t H). * apply (A s t H).
      * destruct (A s t H) as (_ & _ & _ & w & Hw & ->). exists w; auto.
      * exact B.
      * intros w [<-|Hw] H1 H2; [congruence|apply C; auto].
    + destruct (existsb (opt_eqb (prom (dot path v))) seen) eqn:E2; simpl.
      * apply existsb_opt in E2. destruct (IH seen) as (A & B & C). repeat split.
        -- apply (A s t H). -- apply (A s t H). -- apply (A s t H).
        -- destruct (A s t H) as (_ & _ & _ & w & Hw & ->). exists w; auto.
        -- exact B.
        -- intros w [<-|Hw] H1 H2; [contradiction|apply C; auto].
      * assert (Hd : prom (dot path v) <> Some "duration") by (intro H; apply opt_eqb_iff in H; congruence).
        assert (Hs : ~ In (prom (dot path v)) seen) by (intro H; apply existsb_opt in H; congruence).
        destruct (IH (seen ++ [prom (dot path v)])) as (A & B & C).
        split; [|split].
        -- intros s t [H|H].
           ++ injection H as <- <-. repeat split; auto. exists v; auto.
           ++ destruct (A s t H) as (-> & H1 & H2 & w & Hw & ->). repeat split; auto.
              ** intro H3; apply H2. apply in_or_app; auto.
              ** exists w; auto.
        -- constructor; auto. rewrite in_map_iff. intros [[s t] [Ht Hin]]. simpl in Ht; subst t.
           destruct (A _ _ Hin) as (_ & _ & H2 & _). apply H2. apply in_or_app; simpl; auto.
        -- intros w [<-|Hw] H1 H2; [left; reflexivity|].
           destruct (opt_eqb (prom (dot path w)) (prom (dot path v))) eqn:E3.
           ++ apply opt_eqb_iff in E3. left. rewrite E3; reflexivity.
           ++ right. apply C; auto. rewrite in_app_iff. intros [H|[H|[]]]; [contradiction|].
              symmetry in H; apply opt_eqb_iff in H; congruence.
Qed.

(** ** Links *)
Lemma replace1_prefix p b : replace1 p (String.append p b) = b.
Proof.
  assert (E : replace1 p (String.append p b) =
    if String.prefix p (String.append p b) then substring (String.length p) (String.length (String.append p b) - String.length p) (String.append p b)
    else match String.append p b with EmptyString => EmptyString | String c s' => String c (replace1 p s') end)
    by (destruct (String.append p b); reflexivity).
  rewrite E, prefix_app, length_app. replace (String.length p + String.length b - String.length p)%nat with (String.length b) by lia.
  apply substring_drop.
Qed.
Lemma replace1_absent p s : ~ occurs p s -> replace1 p s = s.
Proof.
  induction s as [|c s IH]; intro H.
  - destruct p; reflexivity.
  - cbn [replace1]. destruct (String.prefix p (String c s)) eqn:E.
    + exfalso. apply prefix_split in E. destruct E as [b E]. apply H. exists "", b. exact E.
    + f_equal. apply IH. intros [a [b E']]. apply H. exists (String c a), b. rewrite E'. reflexivity.
Qed.
Lemma prefix_sub n l : String.prefix n (sub n l) = true.
Proof. apply prefix_app. Qed.
Lemma local_eval n p l : local_name n p l ->
  (if String.prefix n p then replace1 (String.append n ".") p else p) = l.
Proof.
  intros [->|[H ->]].
  - rewrite prefix_sub. unfold sub. rewrite <- app_assoc_s. apply replace1_prefix.
  - destruct (String.prefix n p); [|reflexivity]. apply replace1_absent; auto.
Qed.

Section Link.
  Variables (promO promI : string -> option string) (path p q : string) (skip : list string).
  Variable st2 : list istate.

  (** the state is in both phases and its local promoted name is [l] *)
  Definition has_local (a : istate) (l : string) : Prop :=
    exists P, promO (dot path (sub p (is_name a))) = Some P /\ local_name p P l.

  Lemma link_state_ok a : (In (is_name a) (map is_name st2) -> exists l, has_local a l) ->
    exists c, link_state promO promI path p q st2 skip a = Ok c /\
      ((c = [(promO (dot path (sub p (is_end a))), promI (dot path (sub q (is_start a))))] /\
        In (is_name a) (map is_name st2) /\ ~ In (is_name a) skip /\ forall l, has_local a l -> ~ In l skip) \/
       (c = [] /\ (~ In (is_name a) (map is_name st2) \/ In (is_name a) skip \/ exists l, has_local a l /\ In l skip))).
  Proof.
    intro H. unfold link_state.
    destruct (in_list (is_name a) (map is_name st2)) eqn:E.
    - apply in_list_iff in E. destruct (H E) as [l [P [HP Hl]]].
      unfold sub in HP. rewrite HP. rewrite (local_eval _ _ _ Hl).
      assert (U : forall l', has_local a l' -> l' = l).
      { intros l' [P' [HP' Hl']]. unfold sub in HP'. rewrite HP in HP'. injection HP' as <-.
        rewrite <- (local_eval _ _ _ Hl), <- (local_eval _ _ _ Hl'). reflexivity. }
      destruct (in_list (is_name a) skip) eqn:E1; simpl.
      + exists []. split; [reflexivity|]. right. split; auto. right; left. apply in_list_iff; auto.
      + apply in_list_false in E1. destruct (in_list l skip) eqn:E2; simpl.
        * exists []. split; [reflexivity|]. right. split; auto. right; right. exists l. split; [exists P; auto|].
          apply in_list_iff; auto.
        * apply in_list_false in E2. eexists; split; [reflexivity|]. left. repeat split; auto.
          intros l' Hl'. rewrite (U l' Hl'). auto.
    - apply in_list_false in E. exists []. split; auto.
  Qed.

  Lemma link_states_ok : forall st1, (forall a, In a st1 -> In (is_name a) (map is_name st2) -> exists l, has_local a l) ->
    exists L, link_states promO promI path p q st2 skip st1 =
        Ok (map (fun a => (promO (dot path (sub p (is_end a))), promI (dot path (sub q (is_start a))))) L) /\
      (forall a, In a L <-> In a st1 /\ In (is_name a) (map is_name st2) /\ ~ In (is_name a) skip /\
                           forall l, has_local a l -> ~ In l skip) /\
      (NoDup st1 -> NoDup L).
  Proof.
    induction st1 as [|a st1 IH]; intro H.
    - exists []. split; [reflexivity|]. split; [simpl; tauto|auto].
    - destruct IH as (L & HL & HI & HN); [intros; apply H; simpl; auto|].
      destruct (link_state_ok a) as (c & Hc & Hcase); [apply H; simpl; auto|].
      simpl. rewrite Hc, HL. simpl.
      destruct Hcase as [(-> & H1 & H2 & H3)|(-> & H1)].
      + exists (a :: L). split; [reflexivity|]. split.
        * intro b. simpl. rewrite HI. split.
          -- intros [<-|(A & B & C & D)]; repeat split; auto.
          -- intros ([<-|A] & B & C & D); auto.
        * intro Hnd. inversion Hnd; subst. constructor; auto. rewrite HI. tauto.
      + exists L. split; [reflexivity|]. split.
        * intro b. rewrite HI. simpl. split; [intros (A & B & C & D); auto|].
          intros ([<-|A] & B & C & D); auto. exfalso.
          destruct H1 as [H1|[H1|[l [Hl Hl']]]]; try contradiction. apply (D l Hl Hl').
        * intro Hnd; inversion Hnd; auto.
  Qed.
End Link.
