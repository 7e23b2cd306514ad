(** Lemmas about the mission profiles. *)
From Coq Require Import Reals List Bool PeanoNat String Ascii Lia.
From Verif Require Import Base Py Model_Algebra Proofs_Algebra Model_Mission Spec_Mission Proofs_Mission.
Import ListNotations.
Open Scope string_scope.
Open Scope list_scope.

Definition nskip (skip : list string) (a : pstate) : bool :=
  negb (in_list (is_name (ps_abs a)) skip) && negb (in_list (is_name (ps_prom a)) skip).
Definition same_name (a b : pstate) : bool := String.eqb (is_name (ps_abs a)) (is_name (ps_abs b)).
Definition conn (p q : string) (a b : pstate) : option string * option string :=
  (Some (sub p (is_end (ps_prom a))), Some (sub q (is_start (ps_prom b)))).

Definition all_profiles : list profile :=
  flat_map (fun t => flat_map (fun r => flat_map (fun g => map (fun m =>
    {| pf_takeoff := t; pf_reserve := r; pf_ground_roll := g; pf_transition := m |})
    [Simplified; Ode; OtherTransition]) [true; false]) [true; false]) [true; false].
Lemma all_profiles_in o : In o all_profiles.
Proof. destruct o as [[] [] [] []]; simpl; tauto. Qed.
Lemma by_profiles (f : profile -> bool) : forallb f all_profiles = true -> forall o, f o = true.
Proof. intros H o. rewrite forallb_forall in H. apply H, all_profiles_in. Qed.

(** Checks over the finitely many profiles. *)
Definition chk_links (o : profile) : bool :=
  forallb (fun l => let '(p, q, skip) := l in
    in_list p (map fst (profile_phases o)) && in_list q (map fst (profile_phases o)) &&
    forallb (fun a => forallb (fun b =>
      implb (same_name a b && nskip skip a)
        (match kind_of o q with SteadyP => true | _ => false end &&
         String.eqb (is_start (ps_abs a)) (is_start (ps_abs b)) &&
         negb (in_list (sub q (is_start (ps_prom b))) (map snd (profile_connects o)))))
      (builtin_states (kind_of o q))) (builtin_states (kind_of o p))) (profile_links o).
Lemma chk_links_ok o : chk_links o = true.
Proof. revert o. apply by_profiles. vm_compute. reflexivity. Qed.

Fixpoint nodupb (l : list string) : bool := match l with [] => true | x :: r => negb (in_list x r) && nodupb r end.
Lemma nodupb_ok l : nodupb l = true -> NoDup l.
Proof.
  induction l as [|x r IH]; simpl; intro H; [constructor|]. apply andb_true_iff in H. destruct H as [A B].
  constructor; auto. apply negb_true_iff in A. apply in_list_false in A. exact A.
Qed.
Definition chk_nodup (o : profile) : bool :=
  nodupb (map snd (profile_connects o)) && nodupb (map (fun l => snd (fst l)) (profile_links o)) &&
  nodupb (map fst (profile_phases o)) &&
  forallb (fun pk => nodupb (map (fun b => is_start (ps_prom b)) (builtin_states (snd pk))) &&
                     nodupb (map (fun b => is_name (ps_abs b)) (builtin_states (snd pk)))) (profile_phases o).
Lemma chk_nodup_ok o : chk_nodup o = true.
Proof. revert o. apply by_profiles. vm_compute. reflexivity. Qed.
Definition dotlessb (s : string) : bool := forallb (fun c => negb (Ascii.eqb c ".")) (list_ascii_of_string s).
Lemma dotlessb_ok s : dotlessb s = true -> dotless s.
Proof.
  unfold dotlessb, dotless. rewrite forallb_forall. intros H Hin. specialize (H _ Hin). discriminate.
Qed.
Lemma phases_dotless o p : In p (map fst (profile_phases o)) -> dotless p.
Proof.
  assert (H : forallb dotlessb (map fst (profile_phases o)) = true).
  { revert o. apply by_profiles. vm_compute. reflexivity. }
  rewrite forallb_forall in H. intro Hp. apply dotlessb_ok, H, Hp.
Qed.
Lemma kind_of_in o p k : In (p, k) (profile_phases o) -> kind_of o p = k.
Proof.
  assert (H : forallb (fun pk => match kind_of o (fst pk), snd pk with
     | SteadyP, SteadyP | GroundP, GroundP | BackwardsP, BackwardsP | RobustRotationP, RobustRotationP | RotationP, RotationP => true
     | _, _ => false end) (profile_phases o) = true).
  { revert o. apply by_profiles. vm_compute. reflexivity. }
  rewrite forallb_forall in H. intro Hp. specialize (H _ Hp). simpl in H.
  destruct (kind_of o p), k; congruence.
Qed.
Lemma links_flown o p q : (exists skip, In (p, q, skip) (profile_links o)) <-> In (p, q) (flown_after o).
Proof.
  assert (H : forallb (fun l => existsb (fun f => String.eqb (fst f) (fst (fst l)) && String.eqb (snd f) (snd (fst l))) (flown_after o)) (profile_links o)
              && forallb (fun f => existsb (fun l => String.eqb (fst f) (fst (fst l)) && String.eqb (snd f) (snd (fst l))) (profile_links o)) (flown_after o) = true).
  { revert o. apply by_profiles. vm_compute. reflexivity. }
  apply andb_true_iff in H. destruct H as [H1 H2]. rewrite forallb_forall in H1, H2. split.
  - intros [skip Hl]. specialize (H1 _ Hl). apply existsb_exists in H1. destruct H1 as [[f g] [Hf He]].
    simpl in He. apply andb_true_iff in He. destruct He as [E1 E2]. apply String.eqb_eq in E1, E2. subst. exact Hf.
  - intros Hf. specialize (H2 _ Hf). apply existsb_exists in H2. destruct H2 as [[[f g] skip] [Hl He]].
    simpl in He. apply andb_true_iff in He. destruct He as [E1 E2]. apply String.eqb_eq in E1, E2. subst. exists skip; exact Hl.
Qed.
Definition skips : list string := ["fltcond|Utrue"; "range"; "fltcond|h"; "ode_integ_phase.fltcond|h"].
Lemma link_skips o p q skip x : In (p, q, skip) (profile_links o) -> In x skip -> In x skips.
Proof.
  assert (H : forallb (fun l => forallb (fun x => in_list x skips) (snd l)) (profile_links o) = true).
  { revert o. apply by_profiles. vm_compute. reflexivity. }
  rewrite forallb_forall in H. intros Hl Hx. specialize (H _ Hl). simpl in H.
  rewrite forallb_forall in H. apply in_list_iff, H, Hx.
Qed.

(** Own states never share a name with aircraft states. *)
Lemma builtin_not_user k b u : In b (builtin_states k) -> is_name (ps_abs b) <> is_name (ps_abs (user_state u)).
Proof. destruct k; simpl; intros H E; repeat destruct H as [<-|H]; try contradiction; discriminate. Qed.

Section Profile.
  Variables (o : profile) (users : string -> list pstate) (path : string) (promO promI : string -> option string).
  Hypothesis Hu : users_ok o users.
  Hypothesis Hp : proms_ok o users path promO promI.
  Let S p := phase_states (kind_of o p) (users p).

  Lemma link_phases_in p q skip : In (p, q, skip) (profile_links o) ->
    In p (map fst (profile_phases o)) /\ In q (map fst (profile_phases o)).
  Proof.
    intro H. pose proof (chk_links_ok o) as C. unfold chk_links in C. rewrite forallb_forall in C.
    specialize (C _ H). simpl in C. rewrite !andb_true_iff in C. destruct C as [[A B] _].
    split; apply in_list_iff; assumption.
  Qed.

  Lemma S_cases p s : In s (S p) -> In s (builtin_states (kind_of o p)) \/ exists u, In u (users p) /\ s = user_state u.
  Proof.
    unfold S, phase_states. rewrite in_app_iff, in_map_iff. intros [H|[u [<- H]]]; [left; auto|right; exists u; auto].
  Qed.

  (** The pairs of states a link connects, and what it connects them to. *)
  Lemma linked_pair p q skip a b : In (p, q, skip) (profile_links o) -> In a (S p) -> In b (S q) ->
    is_name (ps_abs a) = is_name (ps_abs b) -> nskip skip a = true ->
    promI (dot path (sub q (is_start (ps_abs a)))) = Some (sub q (is_start (ps_prom b))) /\
    ~ In (sub q (is_start (ps_prom b))) (map snd (profile_connects o)).
  Proof.
    intros Hl Ha Hb Hn Hs. destruct (link_phases_in _ _ _ Hl) as [Hpp Hqq].
    destruct (S_cases _ _ Ha) as [Ba|[u [Uu ->]]], (S_cases _ _ Hb) as [Bb|[v [Uv ->]]].
    - pose proof (chk_links_ok o) as C. unfold chk_links in C. rewrite forallb_forall in C.
      specialize (C _ Hl). simpl in C. rewrite !andb_true_iff in C. destruct C as [_ C].
      rewrite forallb_forall in C. specialize (C _ Ba). rewrite forallb_forall in C. specialize (C _ Bb).
      unfold same_name in C. rewrite Hn, String.eqb_refl, Hs in C. simpl in C.
      rewrite !andb_true_iff in C. destruct C as [[C1 C2] C3].
      assert (Ek : kind_of o q = SteadyP) by (destruct (kind_of o q); congruence).
      apply String.eqb_eq in C2. rewrite C2. split.
      + apply (po_start_own _ _ _ _ _ Hp); auto. rewrite <- Ek. exact Bb.
      + apply negb_true_iff in C3. apply in_list_false. exact C3.
    - exfalso. apply (builtin_not_user _ _ v Ba Hn).
    - exfalso. apply (builtin_not_user _ _ u Bb (eq_sym Hn)).
    - simpl in Hn. injection Hn as Hn.
      assert (Es : is_start (ps_abs u) = is_start (ps_abs v)) by (apply (uo_same _ _ Hu p q); auto).
      split.
      + change (is_start (ps_abs (user_state u))) with (sub "acmodel" (is_start (ps_abs u))).
        rewrite Es. exact (po_start_user _ _ _ _ _ Hp q v Hqq Uv).
      + intro Hin. apply (uo_fresh _ _ Hu q v Hqq Uv). unfold own_inputs. apply in_or_app. left. exact Hin.
  Qed.

  Lemma NoDup_S p : In p (map fst (profile_phases o)) ->
    NoDup (map (fun s => is_name (ps_abs s)) (S p)) /\ NoDup (map (fun s => is_start (ps_prom s)) (S p)).
  Proof.
    intro Hin. apply in_map_iff in Hin. destruct Hin as [[p' k] [E Hin]]. simpl in E; subst p'.
    pose proof (kind_of_in _ _ _ Hin) as Ek. pose proof (in_map fst _ _ Hin) as Hin'.
    pose proof (chk_nodup_ok o) as C. unfold chk_nodup in C. rewrite !andb_true_iff in C. destruct C as [_ C].
    rewrite forallb_forall in C. specialize (C _ Hin). simpl in C. rewrite andb_true_iff in C. destruct C as [C1 C2].
    apply nodupb_ok in C1, C2. unfold S, phase_states. rewrite Ek, !map_app. split; apply NoDup_app_iff.
    - split; [exact C2|]. split.
      + rewrite map_map. simpl. rewrite <- (map_map (fun u => is_name (ps_abs u)) (fun x => sub "acmodel" x)).
        apply NoDup_map_map; [apply (uo_names _ _ Hu)|]. intros a b _ _ H. apply sub_inj in H; auto.
      + intros x Hx Hy. apply in_map_iff in Hx, Hy. destruct Hx as [b [Eb Hb]], Hy as [s [Es Hs]].
        apply in_map_iff in Hs. destruct Hs as [u [<- Hs]].
        apply (builtin_not_user k b u Hb). congruence.
    - split; [exact C1|]. split.
      + rewrite map_map. apply (uo_starts _ _ Hu).
      + intros x Hx Hy. apply in_map_iff in Hx, Hy. destruct Hx as [b [Eb Hb]], Hy as [s [Es Hs]].
        apply in_map_iff in Hs. destruct Hs as [u [<- Hs]].
        apply (uo_fresh _ _ Hu p u Hin' Hs). unfold own_inputs. apply in_or_app. right. apply in_flat_map.
        exists (p, k). split; auto. simpl. apply in_map_iff. exists b. split; auto. simpl in Es. congruence.
  Qed.

  Lemma local_of p s : In p (map fst (profile_phases o)) -> In s (S p) ->
    forall l, has_local promO path p (ps_abs s) l <-> l = is_name (ps_prom s).
  Proof.
    intros Hin Hs l. pose proof (po_name _ _ _ _ _ Hp p s Hin Hs) as E. unfold has_local. rewrite dot_below. rewrite E. split.
    - intros [P [H Hl]]. injection H as <-. destruct Hl as [H|[H _]].
      + apply sub_inj in H. auto.
      + exfalso. apply H. exists "", (is_name (ps_prom s)). unfold sub. simpl. rewrite app_assoc_s. reflexivity.
    - intros ->. eexists; split; [reflexivity|]. left; reflexivity.
  Qed.

  Lemma nskip_iff skip s : nskip skip s = true <-> ~ In (is_name (ps_abs s)) skip /\ ~ In (is_name (ps_prom s)) skip.
  Proof. unfold nskip. rewrite andb_true_iff, !negb_true_iff, !in_list_false. tauto. Qed.

  (** One link. *)
  Lemma link_one p q skip : In (p, q, skip) (profile_links o) ->
    exists cs, link_states promO promI path p q (map ps_abs (S q)) skip (map ps_abs (S p)) = Ok cs /\
      (forall c, In c cs <-> exists a b, In a (S p) /\ In b (S q) /\ is_name (ps_abs a) = is_name (ps_abs b) /\
                                     nskip skip a = true /\ c = conn p q a b) /\
      NoDup (map snd cs).
  Proof.
    intro Hl. destruct (link_phases_in _ _ _ Hl) as [Hpp Hqq].
    destruct (link_states_ok promO promI path p q skip (map ps_abs (S q)) (map ps_abs (S p))) as (L & HL & HI & HN).
    { intros a Ha _. apply in_map_iff in Ha. destruct Ha as [s [<- Hs]]. exists (is_name (ps_prom s)).
      apply local_of; auto. }
    assert (Hmem : forall x, In x L <-> exists a b, In a (S p) /\ In b (S q) /\ is_name (ps_abs a) = is_name (ps_abs b) /\
                                     nskip skip a = true /\ x = ps_abs a).
    { intro x. rewrite HI. split.
      - intros (A & B & C & D). apply in_map_iff in A. destruct A as [s [<- Hs]].
        rewrite map_map in B. apply in_map_iff in B. destruct B as [b [Eb Hb]].
        exists s, b. repeat split; auto. apply nskip_iff. split; auto. apply D. apply local_of; auto.
      - intros (a & b & A & B & C & D & ->). apply nskip_iff in D. destruct D as [D1 D2].
        repeat split; auto.
        + apply in_map; auto.
        + rewrite map_map. apply in_map_iff. exists b; auto.
        + intros l Hl'. apply local_of in Hl'; auto. subst l; auto. }
    exists (map (fun a => (promO (dot path (sub p (is_end a))), promI (dot path (sub q (is_start a))))) L).
    split; [exact HL|].
    assert (Hval : forall a b, In a (S p) -> In b (S q) -> is_name (ps_abs a) = is_name (ps_abs b) -> nskip skip a = true ->
       (promO (dot path (sub p (is_end (ps_abs a)))), promI (dot path (sub q (is_start (ps_abs a))))) = conn p q a b).
    { intros a b Ha Hb Hn Hs. unfold conn. destruct (linked_pair p q skip a b Hl Ha Hb Hn Hs) as [E _]. rewrite E.
      rewrite dot_below, (po_end _ _ _ _ _ Hp p a Hpp Ha). reflexivity. }
    split.
    - intro c. rewrite in_map_iff. split.
      + intros [x [<- Hx]]. apply Hmem in Hx. destruct Hx as (a & b & A & B & C & D & ->).
        exists a, b. repeat split; auto.
      + intros (a & b & A & B & C & D & ->). exists (ps_abs a). split; [apply Hval; auto|].
        apply Hmem. exists a, b. auto.
    - rewrite map_map. simpl. apply NoDup_map_map.
      + apply HN. apply (NoDup_map_inv is_name). rewrite map_map. apply NoDup_S; auto.
      + intros x y Hx Hy E. apply Hmem in Hx, Hy.
        destruct Hx as (a & b & A & B & C & D & ->), Hy as (a' & b' & A' & B' & C' & D' & ->).
        pose proof (Hval a b A B C D) as V1. pose proof (Hval a' b' A' B' C' D') as V2.
        unfold conn in V1, V2. injection V1 as _ V1. injection V2 as _ V2. rewrite V1, V2 in E.
        injection E as E. apply sub_inj in E.
        assert (b = b').
        { apply (NoDup_map_inj _ _ (proj2 (NoDup_S q Hqq))); auto. }
        subst b'. f_equal. apply (NoDup_map_inj _ _ (proj1 (NoDup_S p Hpp))); auto. congruence.
  Qed.

  Lemma links_all : forall links, (forall l, In l links -> In l (profile_links o)) ->
    NoDup (map (fun l => snd (fst l)) links) ->
    exists cs, apply_links promO promI path (fun p => map ps_abs (S p)) links = Ok cs /\
      (forall c, In c cs <-> exists p q skip a b, In (p, q, skip) links /\ In a (S p) /\ In b (S q) /\
          is_name (ps_abs a) = is_name (ps_abs b) /\ nskip skip a = true /\ c = conn p q a b) /\
      NoDup (map snd cs).
  Proof.
    induction links as [|[[p q] skip] links IH]; intros Hsub Hnd; simpl.
    - exists []. split; [reflexivity|]. split; [|constructor]. simpl. split; [tauto|].
      intros (p & q & skip & a & b & [] & _).
    - inversion Hnd as [|x l Hx Hl]; subst. simpl in Hx.
      destruct IH as (cs & E & HI & HN); [intros; apply Hsub; simpl; auto|exact Hl|].
      destruct (link_one p q skip) as (cs1 & E1 & HI1 & HN1); [apply Hsub; simpl; auto|].
      rewrite E1. simpl. rewrite E. simpl. exists (cs1 ++ cs). split; [reflexivity|]. split.
      + intro c. rewrite in_app_iff, HI1, HI. split.
        * intros [(a & b & H)|(p' & q' & s' & a & b & H1 & H)].
          -- exists p, q, skip, a, b. tauto.
          -- exists p', q', s', a, b. tauto.
        * intros (p' & q' & s' & a & b & [H1|H1] & H).
          -- injection H1 as <- <- <-. left. exists a, b. exact H.
          -- right. exists p', q', s', a, b. tauto.
      + rewrite map_app. apply NoDup_app_iff. split; [exact HN1|]. split; [exact HN|].
        intros x H1 H2. apply in_map_iff in H1, H2. destruct H1 as [c1 [<- H1]], H2 as [c2 [E2 H2]].
        apply HI1 in H1. apply HI in H2.
        destruct H1 as (a & b & _ & _ & _ & _ & ->), H2 as (p' & q' & s' & a' & b' & Hl' & _ & _ & _ & _ & ->).
        simpl in E2. injection E2 as E2.
        assert (D1 : dotless q) by (eapply phases_dotless, (link_phases_in p q skip); apply Hsub; simpl; auto).
        assert (D2 : dotless q') by (eapply phases_dotless, (link_phases_in p' q' s'); apply Hsub; simpl; auto).
        destruct (dotless_split _ _ _ _ D2 D1 E2) as [-> _]. apply Hx. apply in_map_iff. exists (p', q, s'). auto.
  Qed.

  Lemma mission_spec : valid_profile o ->
    exists cs, mission promO promI path users o = Ok cs /\
      (forall c, In c cs <->
        (exists x y, In (x, y) (profile_connects o) /\ c = (Some x, Some y)) \/
        (exists p q skip a b, In (p, q, skip) (profile_links o) /\ In a (S p) /\ In b (S q) /\
          is_name (ps_abs a) = is_name (ps_abs b) /\ nskip skip a = true /\ c = conn p q a b)) /\
      NoDup (map snd cs).
  Proof.
    intro Hv. unfold mission.
    assert (G : (pf_takeoff o && match pf_transition o with OtherTransition => true | _ => false end) = false).
    { destruct (pf_takeoff o) eqn:E1; [|reflexivity]. specialize (Hv E1). destruct (pf_transition o) eqn:E2; try reflexivity; congruence. }
    rewrite G.
    pose proof (chk_nodup_ok o) as C. unfold chk_nodup in C. rewrite !andb_true_iff in C. destruct C as [[[C1 C2] _] _].
    apply nodupb_ok in C1, C2.
    destruct (links_all (profile_links o) (fun l H => H) C2) as (cs & E & HI & HN).
    unfold S in E. rewrite E. simpl. eexists. split; [reflexivity|]. split.
    - intro c. rewrite in_app_iff, HI, in_map_iff. split.
      + intros [[[x y] [<- H]]|H]; [left; exists x, y; auto|right; exact H].
      + intros [(x & y & H & ->)|H]; [left; exists (x, y); auto|right; exact H].
    - rewrite map_app, map_map. simpl. apply NoDup_app_iff. split; [|split; [exact HN|]].
      + rewrite <- (map_map snd Some). apply NoDup_map_map; auto. intros a b _ _ H; congruence.
      + intros x H1 H2. apply in_map_iff in H1, H2. destruct H1 as [[s t] [<- H1]], H2 as [c [E2 H2]].
        apply HI in H2. destruct H2 as (p & q & skip & a & b & Hl & Ha & Hb & Hn & Hs & ->).
        simpl in E2. injection E2 as E2.
        destruct (linked_pair p q skip a b Hl Ha Hb Hn Hs) as [_ Hnot]. apply Hnot. rewrite E2.
        apply in_map_iff. exists (s, t). auto.
  Qed.

  (** Aircraft states. *)
  Lemma user_nskip p q skip u : In (p, q, skip) (profile_links o) -> In u (users p) -> nskip skip (user_state u) = true.
  Proof.
    intros Hl Huu. apply nskip_iff. split; intro H; apply (link_skips _ _ _ _ _ Hl) in H.
    - unfold skips in H. simpl in H. intuition discriminate.
    - apply (uo_promoted _ _ Hu p u Huu). exact H.
  Qed.
  Lemma user_in p u : In u (users p) -> In (user_state u) (S p).
  Proof. intro H. unfold S, phase_states. apply in_or_app. right. apply in_map. exact H. Qed.

  Lemma user_conns cs : valid_profile o -> mission promO promI path users o = Ok cs ->
    forall q v src, In q (map fst (profile_phases o)) -> In v (users q) ->
    (In (src, Some (sub q (is_start (ps_prom v)))) cs <->
     exists p u, In (p, q) (flown_after o) /\ In u (users p) /\ is_name (ps_abs u) = is_name (ps_abs v) /\
       src = Some (sub p (is_end (ps_prom u)))).
  Proof.
    intros Hv Hm q v src Hq Hvin. destruct (mission_spec Hv) as (cs' & E & HI & _). rewrite Hm in E. injection E as <-.
    rewrite HI. split.
    - intros [(x & y & H & E)|(p & q' & skip & a & b & Hl & Ha & Hb & Hn & Hs & E)].
      + injection E as _ <-. exfalso. apply (uo_fresh _ _ Hu q v Hq Hvin). unfold own_inputs. apply in_or_app. left.
        apply in_map_iff. eexists; split; [|exact H]. reflexivity.
      + unfold conn in E. injection E as -> E. destruct (link_phases_in _ _ _ Hl) as [Hpp Hqq].
        destruct (dotless_split q q' _ _ (phases_dotless _ _ Hq) (phases_dotless _ _ Hqq) E) as [<- E'].
        assert (b = user_state v).
        { apply (NoDup_map_inj _ _ (proj2 (NoDup_S q Hq))); auto. apply user_in; auto. }
        subst b. destruct (S_cases _ _ Ha) as [Ba|[u [Uu ->]]].
        * exfalso. apply (builtin_not_user _ _ v Ba Hn).
        * exists p, u. split; [apply links_flown; exists skip; exact Hl|]. split; auto. split; [|reflexivity].
          simpl in Hn. injection Hn; auto.
    - intros (p & u & Hf & Huu & Hn & ->). right. apply links_flown in Hf. destruct Hf as [skip Hl].
      exists p, q, skip, (user_state u), (user_state v). repeat split; auto using user_in.
      + simpl. rewrite Hn. reflexivity.
      + eapply user_nskip; eauto.
  Qed.

  (** Connections among the mission's own variables. *)
  Definition own_conns : list (string * string) :=
    profile_connects o ++
    flat_map (fun l => let '(p, q, skip) := l in
      flat_map (fun a => map (fun b => (sub p (is_end (ps_prom a)), sub q (is_start (ps_prom b))))
        (filter (fun b => same_name a b && nskip skip a) (builtin_states (kind_of o q)))) (builtin_states (kind_of o p)))
      (profile_links o).
  Lemma own_in cs x y : valid_profile o -> mission promO promI path users o = Ok cs ->
    In (x, y) own_conns -> In (Some x, Some y) cs.
  Proof.
    intros Hv Hm Hin. destruct (mission_spec Hv) as (cs' & E & HI & _). rewrite Hm in E. injection E as <-.
    apply HI. unfold own_conns in Hin. apply in_app_or in Hin. destruct Hin as [Hin|Hin].
    - left. exists x, y. auto.
    - right. apply in_flat_map in Hin. destruct Hin as [[[p q] skip] [Hl Hin]].
      apply in_flat_map in Hin. destruct Hin as [a [Ha Hin]]. apply in_map_iff in Hin. destruct Hin as [b [E Hb]].
      injection E as <- <-. apply filter_In in Hb. destruct Hb as [Hb Hc]. apply andb_true_iff in Hc. destruct Hc as [Hc Hd].
      exists p, q, skip, a, b. repeat split; auto.
      + unfold S, phase_states. apply in_or_app; auto.
      + unfold S, phase_states. apply in_or_app; auto.
      + apply String.eqb_eq. exact Hc.
  Qed.
  Lemma own_only cs s y : valid_profile o -> mission promO promI path users o = Ok cs ->
    In y (own_inputs o) -> In (s, Some y) cs -> exists x, s = Some x /\ In (x, y) own_conns.
  Proof.
    intros Hv Hm Hy Hin. destruct (mission_spec Hv) as (cs' & E & HI & _). rewrite Hm in E. injection E as <-.
    apply HI in Hin. destruct Hin as [(x & z & H & E)|(p & q & skip & a & b & Hl & Ha & Hb & Hn & Hs & E)].
    - injection E as -> <-. exists x. split; auto. unfold own_conns. apply in_or_app; auto.
    - unfold conn in E. injection E as -> ->. eexists; split; [reflexivity|].
      unfold own_conns. apply in_or_app. right. apply in_flat_map. exists (p, q, skip). split; auto.
      destruct (S_cases _ _ Hb) as [Bb|[v [Uv ->]]].
      + destruct (S_cases _ _ Ha) as [Ba|[u [Uu ->]]].
        * apply in_flat_map. exists a. split; auto. apply in_map_iff. exists b. split; auto.
          apply filter_In. split; auto. apply andb_true_iff. split; auto. apply String.eqb_eq; auto.
        * exfalso. apply (builtin_not_user _ _ u Bb (eq_sym Hn)).
      + exfalso. apply (uo_fresh _ _ Hu q v (proj2 (link_phases_in _ _ _ Hl)) Uv). exact Hy.
  Qed.
End Profile.

(** Own connections, checked for every profile. *)
Definition pair_in (x : string * string) (l : list (string * string)) : bool :=
  existsb (fun y => String.eqb (fst x) (fst y) && String.eqb (snd x) (snd y)) l.
Lemma pair_in_iff x l : pair_in x l = true <-> In x l.
Proof.
  unfold pair_in. rewrite existsb_exists. split.
  - intros [[a b] [H E]]. destruct x as [c d]. simpl in E. apply andb_true_iff in E. destruct E as [E1 E2].
    apply String.eqb_eq in E1, E2. subst; auto.
  - intro H. exists x. split; auto. rewrite !String.eqb_refl. reflexivity.
Qed.
Lemma range_chk o p q : In (p, q) (flown_after o) -> In (range_end p, range_start q) (own_conns o).
Proof.
  assert (H : forallb (fun f => pair_in (range_end (fst f), range_start (snd f)) (own_conns o)) (flown_after o) = true).
  { revert o. apply by_profiles. vm_compute. reflexivity. }
  rewrite forallb_forall in H. intro Hf. apply pair_in_iff. apply (H (p, q) Hf).
Qed.
