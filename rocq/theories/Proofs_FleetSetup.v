(** The example aircraft set up in every mission profile. *)
From Coq Require Import Reals List Bool PeanoNat String Lia.
From Verif Require Import Base Py RSum Model_Atmos Model_Mission Spec_Mission Proofs_Profiles Model_Net Proofs_Net Model_Ducts Model_Systems Model_Flight Spec_Flight Proofs_Flight
  Proofs_Trip Props_Trip Model_Fleet Spec_Fleet Proofs_Fleet.
Import ListNotations.
Open Scope string_scope.
Open Scope list_scope.

(** A check for duplicates that compares only names with the same first part. *)
Definition key (x : string) : string := match split_dot x with Some (a, _) => a | None => "" end.
Fixpoint distinct (l : list string) : list string :=
  match l with [] => [] | x :: r => let d := distinct r in if mem x d then d else x :: d end.
Definition quick_no_dup (l : list string) : bool :=
  let kl := map (fun x => (key x, x)) l in
  forallb (fun k => no_dup (map snd (filter (fun c => String.eqb (fst c) k) kl))) (distinct (map fst kl)).
Lemma distinct_in x l : In x l -> In x (distinct l).
Proof.
  induction l as [|y l IH]; [auto|]. cbn [distinct In]. intros [->|H].
  - destruct (mem x (distinct l)) eqn:E; [now apply mem_In|now left].
  - destruct (mem y (distinct l)); [|right]; auto.
Qed.
Lemma keyed_filter k l : map snd (filter (fun c => String.eqb (fst c) k) (map (fun x => (key x, x)) l)) = filter (fun x => String.eqb (key x) k) l.
Proof. induction l as [|x l IH]; [reflexivity|]. cbn [map filter fst]. destruct (String.eqb (key x) k); cbn [map snd]; now rewrite IH. Qed.
Lemma no_dup_split l : (forall x, In x l -> no_dup (filter (fun y => String.eqb (key y) (key x)) l) = true) -> no_dup l = true.
Proof.
  induction l as [|x l IH]; intro H; [reflexivity|]. cbn [no_dup]. apply andb_true_intro. split.
  - specialize (H x (or_introl eq_refl)). cbn [filter] in H. rewrite String.eqb_refl in H. cbn [no_dup] in H. apply andb_prop in H. destruct H as [H _].
    apply negb_true_iff in H. apply negb_true_iff. destruct (mem x l) eqn:E; [|reflexivity]. exfalso. apply mem_In in E.
    assert (K : mem x (filter (fun y => String.eqb (key y) (key x)) l) = true) by (apply mem_In, filter_In; split; [exact E|apply String.eqb_refl]). congruence.
  - apply IH. intros y Hy. specialize (H y (or_intror Hy)). cbn [filter] in H. destruct (String.eqb (key x) (key y)); [|exact H].
    cbn [no_dup] in H. apply andb_prop in H. now destruct H.
Qed.
Lemma quick_no_dup_ok l : quick_no_dup l = true -> no_dup l = true.
Proof.
  unfold quick_no_dup. rewrite forallb_forall. intro H. apply no_dup_split. intros x Hx. rewrite <- keyed_filter. apply H, distinct_in.
  rewrite map_map. now apply (in_map key).
Qed.
Definition quick_sets_up (g : group) : bool :=
  let outs := group_outs g in let ins := group_ins g in
  forallb (fun s => promos_ok (gs_pin s) (gs_ins s) && promos_ok (gs_pout s) (gs_outs s)) (g_subs g) &&
  forallb (fun c => mem (fst c) outs && mem (snd c) ins) (g_conns g) && quick_no_dup outs && quick_no_dup (map snd (g_conns g)).
Lemma quick_sets_up_ok g : quick_sets_up g = true -> sets_up g = true.
Proof.
  unfold quick_sets_up, sets_up. rewrite !andb_true_iff. intros (((H1 & H2) & H3) & H4). repeat split; auto using quick_no_dup_ok.
Qed.
Definition quick_mission kt kp tri n A o : bool :=
  match mission (tableO A o) (tableI A o) "" (fun _ => ac_states A) o with
  | Ok cs => quick_sets_up {| g_subs := mission_subs kt kp tri n A o; g_conns := some_pairs cs |}
  | Err _ => pf_takeoff o && match pf_transition o with OtherTransition => true | _ => false end
  end.
Lemma quick_mission_ok kt kp tri n A o : quick_mission kt kp tri n A o = true -> mission_sets_up kt kp tri n A o = true.
Proof. unfold quick_mission, mission_sets_up. destruct (mission _ _ _ _ o); [apply quick_sets_up_ok|auto]. Qed.
(** The profiles that differ: options that are not read are left at a default. *)
Definition canonical (o : profile) : profile :=
  {| pf_takeoff := pf_takeoff o; pf_reserve := pf_reserve o; pf_ground_roll := negb (pf_takeoff o) && negb (pf_reserve o) && pf_ground_roll o;
     pf_transition := if pf_takeoff o then pf_transition o else Ode |}.
Definition canonicals : list profile :=
  map (fun c => match c with (a, b, g, t) => {| pf_takeoff := a; pf_reserve := b; pf_ground_roll := g; pf_transition := t |} end)
    [(false, false, false, Ode); (false, false, true, Ode); (false, true, false, Ode); (true, false, false, Ode); (true, false, false, Simplified);
     (true, true, false, Ode); (true, true, false, Simplified)].
Lemma canonical_in o : valid_profile o -> In (canonical o) canonicals.
Proof. intro H. destruct o as [a b c d]. unfold valid_profile in H. cbn in H. destruct a, b, c, d; cbn; try tauto; exfalso; now apply H. Qed.
Lemma canonical_mission kt kp tri n A o : valid_profile o -> quick_mission kt kp tri n A (canonical o) = quick_mission kt kp tri n A o.
Proof. intro H. destruct o as [a b c d]. unfold valid_profile in H. cbn in H. destruct a, b, c, d; try (exfalso; now apply H); reflexivity. Qed.
Lemma canonical_named A o : valid_profile o -> named_ok A (canonical o) = named_ok A o.
Proof. intro H. destruct o as [a b c d]. unfold valid_profile in H. cbn in H. destruct a, b, c, d; try (exfalso; now apply H); reflexivity. Qed.
Lemma fleet_missions M D kt kp tri n A o : In A (fleet M D tri) -> valid_profile o -> mission_sets_up kt kp tri n A o = true /\ named_ok A o = true.
Proof.
  intros I V. rewrite <- (canonical_named A o V). split.
  - apply quick_mission_ok. rewrite <- canonical_mission by exact V. pose proof (canonical_in o V) as C. revert A I. apply forallb_forall. revert C. generalize (canonical o).
    apply forallb_forall. vm_compute. reflexivity.
  - pose proof (canonical_in o V) as C. revert A I. apply forallb_forall. revert C. generalize (canonical o).
    apply forallb_forall. vm_compute. reflexivity.
Qed.

(** Every phase of every profile, with its kind. *)
Definition all_phases : list (string * pkind) :=
  [("v0v1", GroundP); ("v1vr", GroundP); ("rotate", RotationP); ("rotate", RobustRotationP); ("v1v0", BackwardsP); ("groundroll", GroundP);
   ("climb", SteadyP); ("cruise", SteadyP); ("descent", SteadyP); ("reserve_climb", SteadyP); ("reserve_cruise", SteadyP); ("reserve_descent", SteadyP); ("loiter", SteadyP)].
Lemma phases_all o p k : In (p, k) (profile_phases o) -> In (p, k) all_phases.
Proof. destruct o as [[] [] [] []]; cbn; tauto. Qed.
Lemma fleet_phases M D kt kp tri n A : In A (fleet M D tri) ->
  (forall p k, In (p, k) all_phases -> sets_up (phase_group kt kp tri n A p k) = true) /\ (forall p, sets_up (ac_model A n p) = true).
Proof.
  intro I. split.
  - assert (H : forallb (fun A => forallb (fun c => quick_sets_up (phase_group kt kp tri n A (fst c) (snd c))) all_phases) (fleet M D tri) = true) by (vm_compute; reflexivity).
    rewrite forallb_forall in H. specialize (H A I). rewrite forallb_forall in H. intros p k Hp. apply quick_sets_up_ok. exact (H (p, k) Hp).
  - assert (H : forallb (fun A => quick_sets_up (ac_model A n "v0v1") && quick_sets_up (ac_model A n "climb")) (fleet M D tri) = true) by (vm_compute; reflexivity).
    rewrite forallb_forall in H. specialize (H A I). apply andb_prop in H. destruct H as [H1 H2]. intro p. apply quick_sets_up_ok.
    destruct (two_kinds M D tri A n p I) as [-> | ->]; assumption.
Qed.
Lemma fleet_clean M D tri A : In A (fleet M D tri) -> own_durations A /\ plain_outputs A.
Proof.
  intro I. split.
  - assert (H : forallb (fun A => forallb (fun t => negb (mem t own_names) && negb (String.eqb t "fltcond|Utrue_initial")) (ac_times A)) (fleet M D tri) = true) by (vm_compute; reflexivity).
    rewrite forallb_forall in H. specialize (H A I). rewrite forallb_forall in H. intros t Ht. specialize (H t Ht). apply andb_prop in H. destruct H as [H1 H2].
    apply negb_true_iff in H1, H2. split; [|now apply String.eqb_neq]. intro K. apply mem_In in K. congruence.
  - intros n p y Hy K. apply mem_In in K.
    assert (H : forallb (fun A => forallb (fun y => negb (mem y phase_inputs)) (group_outs (ac_model A n "v0v1")) && forallb (fun y => negb (mem y phase_inputs)) (group_outs (ac_model A n "climb"))) (fleet M D tri) = true) by (vm_compute; reflexivity).
    rewrite forallb_forall in H. specialize (H A I). apply andb_prop in H. destruct H as [H1 H2]. rewrite forallb_forall in H1, H2.
    assert (E : negb (mem y phase_inputs) = true) by (destruct (two_kinds M D tri A n p I) as [E|E]; rewrite E in Hy; auto). rewrite K in E. discriminate.
Qed.
(** The aircraft's data reach every phase. *)
Definition takes (x : string) (A : aircraft) (kt kp : coeffs) (tri : mat) (n : nat) : bool :=
  forallb (fun c => mem x (free_ins (phase_group kt kp tri n A (fst c) (snd c)))) all_phases.
Lemma takes_ok x A kt kp tri n o p k : takes x A kt kp tri n = true -> In (p, k) (profile_phases o) -> In x (free_ins (phase_group kt kp tri n A p k)).
Proof. unfold takes. rewrite forallb_forall. intros H I. apply mem_In. exact (H (p, k) (phases_all o p k I)). Qed.
Lemma burner_takes M D kt kp tri n A B : In (A, B) (fuel_burners M D tri) -> takes (fb_mass B) A kt kp tri n = true.
Proof.
  assert (H : forallb (fun c => takes (fb_mass (snd c)) (fst c) kt kp tri n) (fuel_burners M D tri) = true) by (vm_compute; reflexivity).
  rewrite forallb_forall in H. intro I. exact (H (A, B) I).
Qed.
