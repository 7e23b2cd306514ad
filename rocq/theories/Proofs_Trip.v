(** The phases inside a mission group: every phase has values of its own that solve its
    equations, its free inputs come from where the mission connects them, and the
    scalar values of all names form a converged mission in the sense of [Model_Targets]. *)
From Coq Require Import Reals List Bool PeanoNat String Ascii Lia Lra.
From Verif Require Import Base Py RSum Model_Algebra Model_Vectors Model_Integrals Spec_Integrals Model_Atmos Model_Phases Model_Mission Spec_Mission
  Proofs_Mission Proofs_Profiles Model_Targets Model_Net Proofs_Net Model_Thermal Model_HX Model_Ducts Model_HeatPipe Model_Systems Proofs_Systems
  Model_Flight Spec_Flight Proofs_Flight Proofs_Takeoff.
Import ListNotations.
Open Scope R_scope.
Open Scope string_scope.
Open Scope list_scope.

(** ** Names *)
Fixpoint split_dot (s : string) : option (string * string) :=
  match s with
  | EmptyString => None
  | String c r => if Ascii.eqb c "." then Some ("", r) else match split_dot r with Some (a, b) => Some (String c a, b) | None => None end
  end.
Lemma split_sub p y : dotless p -> split_dot (sub p y) = Some (p, y).
Proof.
  unfold dotless, sub. induction p as [|c p IH]; intro H; [reflexivity|]. cbn in *.
  destruct (Ascii.eqb_spec c ".") as [->|N]; [exfalso; apply H; now left|]. rewrite IH by tauto. reflexivity.
Qed.
Definition all_phases : list string :=
  ["v0v1"; "v1vr"; "rotate"; "v1v0"; "groundroll"; "climb"; "cruise"; "descent"; "reserve_climb"; "reserve_cruise"; "reserve_descent"; "loiter"].
Lemma phases_all o p : In p (map fst (profile_phases o)) -> In p all_phases.
Proof.
  assert (H : forallb (fun p => in_list p all_phases) (map fst (profile_phases o)) = true) by (revert o; apply by_profiles; vm_compute; reflexivity).
  rewrite forallb_forall in H. intro Hp. apply in_list_iff, H, Hp.
Qed.
Lemma all_dotless p : In p all_phases -> dotless p.
Proof.
  assert (H : forallb dotlessb all_phases = true) by (vm_compute; reflexivity).
  rewrite forallb_forall in H. intro Hp. apply dotlessb_ok, H, Hp.
Qed.
Lemma not_promoted p z : In p all_phases -> glob "ac|*" (sub p z) = false /\ glob "takeoff|v1" (sub p z) = false.
Proof.
  intro H. repeat (destruct H as [<-|H]; [split; reflexivity|]). contradiction.
Qed.
Lemma promoted_of q p z : In q all_phases -> forall y, promoted (phase_promotes p) y = Some (sub q z) -> False.
Proof.
  intros Hq y H. destruct (not_promoted q z Hq) as [N1 N2]. unfold phase_promotes in H.
  assert (C : forall l, (forall m, In m l -> m = P "ac|*" \/ m = P "takeoff|v1") -> promoted l y = Some (sub q z) -> False).
  { intros l Hl E. unfold promoted in E.
    destruct (find _ l) as [m|] eqn:F.
    - apply find_some in F. destruct F as [F1 F2]. destruct (Hl m F1); subst m; discriminate.
    - destruct (existsb (fun p => promo_match p y) l) eqn:X; [|discriminate]. injection E as ->.
      apply existsb_exists in X. destruct X as (m & Im & Xm). destruct (Hl m Im); subst m; cbn [promo_match] in Xm; congruence. }
  destruct (_ || _)%bool; (eapply C; [|exact H]); intros m Hm; cbn in Hm; intuition.
Qed.

(** ** One value of a choice per phase *)
Lemma choose {B} (d : B) (P : string * pkind -> B -> Prop) l : NoDup (map fst l) -> (forall x, In x l -> exists b, P x b) ->
  exists W : string -> B, forall x, In x l -> P x (W (fst x)).
Proof.
  induction l as [|x l IH]; intros N H; [now exists (fun _ => d)|].
  inversion N as [|? ? N1 N2]; subst. destruct (IH N2 ltac:(intros; apply H; now right)) as [W HW].
  destruct (H x ltac:(now left)) as [b Hb]. exists (fun p => if String.eqb p (fst x) then b else W p).
  intros y [<-|Hy].
  - now rewrite String.eqb_refl.
  - destruct (String.eqb_spec (fst y) (fst x)) as [E|_]; [exfalso; apply N1; rewrite <- E; now apply in_map|]. now apply HW.
Qed.
Lemma profile_nodup o : NoDup (map fst (profile_phases o)).
Proof. pose proof (chk_nodup_ok o) as C. unfold chk_nodup in C. rewrite !andb_true_iff in C. apply nodupb_ok. tauto. Qed.
Lemma no_dup_NoDup l : no_dup l = true -> NoDup l.
Proof.
  induction l as [|x l IH]; cbn; intro H; [constructor|]. apply andb_prop in H. destruct H as [A B].
  constructor; auto. intro I. apply negb_true_iff in A. assert (mem x l = true) by (apply existsb_exists; exists x; split; auto; apply String.eqb_refl). congruence.
Qed.
Lemma find_target (l : list (string * string)) x y : NoDup (map snd l) -> In (x, y) l -> find (fun c => String.eqb (snd c) y) l = Some (x, y).
Proof.
  induction l as [|[a b] l IH]; cbn; intros N H; [contradiction|]. inversion N as [|? ? N1 N2]; subst.
  destruct H as [E|H].
  - injection E as -> ->. now rewrite String.eqb_refl.
  - destruct (String.eqb_spec b y) as [->|_]; [|auto]. exfalso. apply N1. change y with (snd (x, y)). now apply in_map.
Qed.
Lemma source_target G x y : NoDup (map snd (g_conns G)) -> In (x, y) (g_conns G) -> source G y = x.
Proof. intros N H. unfold source. now rewrite (find_target _ _ _ N H). Qed.
Lemma source_no_target G y : ~ In y (map snd (g_conns G)) -> source G y = y.
Proof.
  intro H. unfold source. destruct (find _ (g_conns G)) as [[a b]|] eqn:E; [|reflexivity].
  apply find_some in E. destruct E as [E1 E2]. cbn in E2. apply String.eqb_eq in E2. subst b. exfalso. apply H.
  change y with (snd (a, y)). now apply in_map.
Qed.
Lemma mem_iff x l : mem x l = true <-> In x l.
Proof. split; [apply mem_In|]. intro H. apply existsb_exists. exists x. split; auto. apply String.eqb_refl. Qed.
Lemma free_iff G x : In x (free_ins G) <-> In x (group_ins G) /\ ~ In x (group_outs G) /\ ~ In x (map snd (g_conns G)).
Proof.
  unfold free_ins. cbv zeta. rewrite filter_In, andb_true_iff, !negb_true_iff. rewrite <- !(not_true_iff_false), !mem_iff. tauto.
Qed.
Lemma some_pairs_in cs x y : In (x, y) (some_pairs cs) <-> In (Some x, Some y) cs.
Proof.
  unfold some_pairs. rewrite in_flat_map. split.
  - intros ([[a|] [b|]] & H & E); cbn in E; try contradiction. destruct E as [E|[]]. injection E as <- <-. exact H.
  - intro H. exists (Some x, Some y). split; [exact H|now left].
Qed.

Lemma split_back x p y : split_dot x = Some (p, y) -> x = sub p y.
Proof.
  unfold sub. revert p. induction x as [|c x IH]; intros p H; [discriminate|]. cbn in H.
  destruct (Ascii.eqb_spec c "."%char) as [->|N]; [injection H as <- <-; reflexivity|].
  destruct (split_dot x) as [[a b]|]; [|discriminate]. injection H as <- <-. cbn. f_equal. now apply IH.
Qed.
Lemma connect_targets o x y : In (x, y) (profile_connects o) ->
  (exists q z, In q (map fst (profile_phases o)) /\ y = sub q z) \/
  In y ["bfl.distance_continue"; "bfl.takeoff|vr"; "bfl.distance_abort"; "resrange.rangeo"; "resrange.rangef"].
Proof.
  assert (H : forall o, forallb (fun c => match split_dot (snd c) with
      | Some (q, _) => in_list q (map fst (profile_phases o)) || in_list (snd c) ["bfl.distance_continue"; "bfl.takeoff|vr"; "bfl.distance_abort"; "resrange.rangeo"; "resrange.rangef"]
      | None => false end) (profile_connects o) = true) by (apply by_profiles; vm_compute; reflexivity).
  specialize (H o). rewrite forallb_forall in H. intro I. specialize (H _ I). cbn [snd] in H.
  destruct (split_dot y) as [[q z]|] eqn:E; [|discriminate]. apply orb_prop in H. rewrite !in_list_iff in H. destruct H as [H|H]; [left|now right].
  exists q, z. split; auto. now apply split_back.
Qed.

Lemma params_plain o x : In x (gs_outs (mission_params o)) -> split_dot x = None.
Proof.
  assert (H : forall o, forallb (fun x => match split_dot x with None => true | Some _ => false end) (gs_outs (mission_params o)) = true)
    by (apply by_profiles; vm_compute; reflexivity).
  specialize (H o). rewrite forallb_forall in H. intro Hx. specialize (H x Hx). now destruct (split_dot x).
Qed.

Definition no_aircraft : aircraft := {| ac_model := fun _ _ => {| g_subs := []; g_conns := [] |}; ac_times := []; ac_states := [] |}.
Lemma sub_star n H y : In y (map (gname n [P "*"]) (gs_outs (subgroup n H [P "*"] [P "*"]))) -> In y (group_outs H).
Proof. intro K. apply in_map_iff in K. destruct K as (z & E & K). rewrite gname_star in E. subst z. exact K. Qed.
Lemma phase_outs kt kp tri nn A p k y : In y (group_outs (phase_group kt kp tri nn A p k)) ->
  (exists q, In y (group_outs (ac_model A nn q))) \/ In y (group_outs (phase_group kt kp tri nn no_aircraft p k)).
Proof.
  intro H. unfold group_outs in H at 1. apply in_flat_map in H. destruct H as (s & Hs & H).
  assert (C : (exists q, s = subgroup "acmodel" (ac_model A nn q) [P "*"] [P "*"]) \/ In s (g_subs (phase_group kt kp tri nn no_aircraft p k))).
  { destruct k; cbn [phase_group SteadyFlightPhase GroundRollPhase RobustRotationPhase RotationPhase g_subs] in Hs |- *; cbn [app] in Hs |- *;
      repeat (destruct Hs as [<-|Hs]; [first [left; eexists; reflexivity | right; solve [insub]]|]); try contradiction;
      right; repeat right; exact Hs. }
  destruct C as [(q & ->)|C]; [left; exists q; exact (sub_star _ _ _ H)|right]. apply in_flat_map. exists s. auto.
Qed.
Lemma kind_steady o p : In p ["climb"; "cruise"; "descent"; "reserve_climb"; "reserve_cruise"; "reserve_descent"; "loiter"] -> kind_of o p = SteadyP.
Proof.
  assert (H : forall o, forallb (fun p => match kind_of o p with SteadyP => true | _ => false end)
    ["climb"; "cruise"; "descent"; "reserve_climb"; "reserve_cruise"; "reserve_descent"; "loiter"] = true) by (apply by_profiles; vm_compute; reflexivity).
  specialize (H o). rewrite forallb_forall in H. intro Hp. specialize (H p Hp). destruct (kind_of o p); congruence.
Qed.
Lemma kind_takeoff o : pf_takeoff o = true -> kind_of o "v0v1" = GroundP /\ kind_of o "v1vr" = GroundP /\ kind_of o "v1v0" = BackwardsP /\
  (kind_of o "rotate" = match pf_transition o with Simplified => RobustRotationP | _ => RotationP end).
Proof. destruct o as [tk rs gr []]; cbn [pf_takeoff]; intros ->; destruct rs, gr; vm_compute; auto. Qed.
Lemma kind_roll o : pf_takeoff o = false -> pf_basic o = true -> pf_ground_roll o = true -> kind_of o "groundroll" = GroundP /\ In "groundroll" (map fst (profile_phases o)).
Proof. unfold pf_basic. destruct o as [tk rs gr tr]; cbn [pf_takeoff pf_reserve pf_ground_roll]; intros -> H ->; destruct rs; try discriminate; destruct tr; vm_compute; auto. Qed.
Lemma always_flown o p : In p ["climb"; "cruise"; "descent"] -> In p (map fst (profile_phases o)).
Proof.
  assert (H : forall o, forallb (fun p => in_list p (map fst (profile_phases o))) ["climb"; "cruise"; "descent"] = true) by (apply by_profiles; vm_compute; reflexivity).
  specialize (H o). rewrite forallb_forall in H. intro Hp. apply in_list_iff, H, Hp.
Qed.
Lemma reserve_flown o p : pf_reserve o = true -> In p ["reserve_climb"; "reserve_cruise"; "reserve_descent"; "loiter"] -> In p (map fst (profile_phases o)).
Proof.
  assert (H : forall o, negb (pf_reserve o) || forallb (fun p => in_list p (map fst (profile_phases o))) ["reserve_climb"; "reserve_cruise"; "reserve_descent"; "loiter"] = true) by (apply by_profiles; vm_compute; reflexivity).
  specialize (H o). intro E. rewrite E in H. cbn [negb orb] in H. rewrite forallb_forall in H. intro Hp. apply in_list_iff, H, Hp.
Qed.
Lemma takeoff_flown o p : pf_takeoff o = true -> In p ["v0v1"; "v1vr"; "rotate"; "v1v0"] -> In p (map fst (profile_phases o)).
Proof.
  assert (H : forall o, negb (pf_takeoff o) || forallb (fun p => in_list p (map fst (profile_phases o))) ["v0v1"; "v1vr"; "rotate"; "v1v0"] = true) by (apply by_profiles; vm_compute; reflexivity).
  specialize (H o). intro E. rewrite E in H. cbn [negb orb] in H. rewrite forallb_forall in H. intro Hp. apply in_list_iff, H, Hp.
Qed.

Lemma ground_clear kt kp tri nn A p x : own_durations A -> In x own_names -> ~ In x (map snd (g_conns (GroundRollPhase kt kp tri nn A p))).
Proof.
  intros H I. cbn [GroundRollPhase g_conns]. rewrite map_app. intro K. apply in_app_or in K. destruct K as [K|K].
  - unfold ground_conns in K. destruct (String.eqb p "v1v0"); [|destruct (String.eqb p "v0v1")]; cbn [map snd In] in K;
      repeat (destruct K as [K|K]; [subst; apply mem_In in I; vm_compute in I; discriminate|]); contradiction.
  - exact (own_clear A x H I K).
Qed.
(** ** The mission group *)
Section Trip.
Variables (kt kp : coeffs) (tri : mat) (nn : nat) (A : aircraft) (o : profile) (G : group).
Hypothesis HG : mission_group kt kp tri nn A o = Ok G.
Definition tableO : string -> option string := lookup (prom_table A o [is_name; is_end]).
Definition tableI : string -> option string := lookup (prom_table A o [is_start]).
Lemma mission_ok : exists cs, mission tableO tableI "" (fun _ => ac_states A) o = Ok cs /\
  g_subs G = mission_subs kt kp tri nn A o /\ g_conns G = some_pairs cs /\
  (forall x y, In (x, y) (g_conns G) -> In x (group_outs G) /\ In y (group_ins G)) /\ NoDup (map snd (g_conns G)).
Proof.
  revert HG. unfold mission_group. fold tableO tableI. destruct (mission tableO tableI "" (fun _ => ac_states A) o) as [cs|e]; cbn [res_bind]; [|discriminate].
  intro H. exists cs. split; [reflexivity|]. unfold setup in H.
  destruct (negb (forallb _ _)); [discriminate|]. destruct (negb (forallb (fun c => mem (fst c) _ && mem (snd c) _) _)) eqn:E; [discriminate|].
  destruct (negb (no_dup (group_outs _))); [discriminate|]. destruct (negb (no_dup (map snd _))) eqn:N; [discriminate|]. injection H as <-.
  split; [reflexivity|]. split; [reflexivity|]. apply negb_false_iff in E, N. rewrite forallb_forall in E. split; [|now apply no_dup_NoDup].
  intros x y H. specialize (E _ H). cbn [fst snd] in E. apply andb_prop in E. rewrite !mem_iff in E. exact E.
Qed.
Definition phase_of (p : string) : group := phase_group kt kp tri nn A p (kind_of o p).
Lemma other_name p : In p all_phases -> ~ In p ["missionparams"; "bfl"; "engineoutclimb"; "resrange"].
Proof. intros H K. cbn in K. repeat (destruct H as [<-|H]; [intuition discriminate|]). contradiction. Qed.
Lemma subs_cases s : In s (g_subs G) ->
  (exists p, In p (map fst (profile_phases o)) /\ s = subgroup p (phase_of p) (phase_promotes p) []) \/
  s = mission_params o \/ (s = bfl /\ pf_takeoff o = true) \/
  (s = subgroup "engineoutclimb" (ClimbAnglePhase kt kp 1 A "EngineOutClimbAngle") [P "ac|*"] []) \/ (s = resrange /\ pf_reserve o = true).
Proof.
  destruct mission_ok as (cs & _ & -> & _). unfold mission_subs. intros [<-|H]; [tauto|]. rewrite !in_app_iff in H.
  destruct H as [H|[H|[H|H]]].
  - destruct (pf_takeoff o) eqn:E; [destruct H as [<-|[]]|contradiction]. tauto.
  - apply in_map_iff in H. destruct H as ([p k] & <- & H). left. exists p. split; [now apply (in_map fst) in H|].
    unfold phase_sub, phase_of. cbn [fst snd]. now rewrite (kind_of_in o p k H).
  - destruct (pf_takeoff o); [destruct H as [<-|[]]; tauto|contradiction].
  - destruct (pf_reserve o) eqn:E; [destruct H as [<-|[]]; tauto|contradiction].
Qed.
Lemma phase_in p : In p (map fst (profile_phases o)) -> In (subgroup p (phase_of p) (phase_promotes p) []) (g_subs G).
Proof.
  intro H. destruct mission_ok as (cs & _ & -> & _). unfold mission_subs. right. rewrite !in_app_iff. right. left.
  apply in_map_iff in H. destruct H as ([p' k] & E & H). cbn [fst] in E. subst p'. apply in_map_iff. exists (p, k). split; [|exact H].
  unfold phase_sub, phase_of. cbn [fst snd]. now rewrite (kind_of_in o p k H).
Qed.
Lemma gname_sub p pin z y : gname p pin z = y -> (promoted pin z = Some y) \/ (promoted pin z = None /\ sub p z = y).
Proof. unfold gname. destruct (promoted pin z) as [w|]; intro H; [left; now f_equal|right; auto]. Qed.
Lemma ac_promoted q z y : In q all_phases -> promoted [P "ac|*"] y = Some (sub q z) -> False.
Proof. intros Hq H. apply (promoted_of q "climb" z Hq y). exact H. Qed.
Lemma ins_of q z : In q all_phases -> In (sub q z) (group_ins G) ->
  In q (map fst (profile_phases o)) /\ In z (free_ins (phase_of q)) /\ gname q (phase_promotes q) z = sub q z.
Proof.
  intros Hq H. unfold group_ins in H. apply in_flat_map in H. destruct H as (s & Hs & H). apply in_map_iff in H. destruct H as (z' & E & Hz).
  pose proof (all_dotless q Hq) as Dq. pose proof (other_name q Hq) as NO.
  destruct (subs_cases s Hs) as [(p & Hp & ->)|[->|[[-> _]|[->|[-> _]]]]]; cbn [subgroup nested mission_params indep bfl resrange gs_name gs_pin gs_ins] in E, Hz.
  - destruct (gname_sub _ _ _ _ E) as [X|[X1 X2]]; [now apply promoted_of in X|].
    apply dotless_split in X2; [|apply all_dotless; now apply (phases_all o)|exact Dq]. destruct X2 as [-> ->]. auto.
  - contradiction.
  - exfalso. change (sub "bfl" z' = sub q z) in E. apply dotless_split in E; [|apply dotlessb_ok; reflexivity|exact Dq]. destruct E as [<- _]. apply NO. cbn. tauto.
  - exfalso. destruct (gname_sub _ _ _ _ E) as [X|[X1 X2]]; [now apply ac_promoted in X|].
    apply dotless_split in X2; [|apply dotlessb_ok; reflexivity|exact Dq]. destruct X2 as [<- _]. apply NO. cbn. tauto.
  - exfalso. change (sub "resrange" z' = sub q z) in E. apply dotless_split in E; [|apply dotlessb_ok; reflexivity|exact Dq]. destruct E as [<- _]. apply NO. cbn. tauto.
Qed.
Lemma outs_of q z : In q all_phases -> In (sub q z) (group_outs G) -> In q (map fst (profile_phases o)) /\ In z (group_outs (phase_of q)).
Proof.
  intros Hq H. unfold group_outs in H. apply in_flat_map in H. destruct H as (s & Hs & H). apply in_map_iff in H. destruct H as (z' & E & Hz).
  pose proof (all_dotless q Hq) as Dq. pose proof (other_name q Hq) as NO.
  destruct (subs_cases s Hs) as [(p & Hp & ->)|[->|[[-> _]|[->|[-> _]]]]]; cbn [subgroup nested gs_name gs_pout gs_outs] in E, Hz.
  - change (sub p z' = sub q z) in E.
    apply dotless_split in E; [|apply all_dotless; now apply (phases_all o)|exact Dq]. destruct E as [-> ->]. auto.
  - exfalso. cbn [mission_params indep gs_name gs_pout] in E. rewrite gname_star in E. subst z'. apply params_plain in Hz. rewrite split_sub in Hz by exact Dq. discriminate.
  - exfalso. cbn [bfl gs_name gs_pout gs_outs] in E, Hz. destruct Hz as [<-|[]]. cbn in E. apply (f_equal split_dot) in E. rewrite split_sub in E by exact Dq. discriminate.
  - exfalso. change (sub "engineoutclimb" z' = sub q z) in E. apply dotless_split in E; [|apply dotlessb_ok; reflexivity|exact Dq]. destruct E as [<- _]. apply NO. cbn. tauto.
  - exfalso. change (sub "resrange" z' = sub q z) in E. apply dotless_split in E; [|apply dotlessb_ok; reflexivity|exact Dq]. destruct E as [<- _]. apply NO. cbn. tauto.
Qed.

(** *** The values of the phases *)
Variable V : env.
Hypothesis HV : solution G V.
Lemma phase_values : exists W : string -> env, forall p, In p (map fst (profile_phases o)) ->
  solution (phase_of p) (W p) /\
  (forall x i, In x (free_ins (phase_of p)) -> W p x i = V (source G (gname p (phase_promotes p) x)) i) /\
  (forall y i, In y (group_outs (phase_of p)) -> W p y i = V (sub p y) i).
Proof.
  destruct (choose (fun _ _ => 0) (fun x (W : env) => solution (phase_of (fst x)) W /\
    (forall y i, In y (free_ins (phase_of (fst x))) -> W y i = V (source G (gname (fst x) (phase_promotes (fst x)) y)) i) /\
    (forall y i, In y (group_outs (phase_of (fst x))) -> W y i = V (sub (fst x) y) i)) (profile_phases o) (profile_nodup o)) as [W HW].
  - intros [p k] Hx. cbn [fst]. apply (in_map fst) in Hx. apply (HV _ (phase_in p Hx)).
  - exists W. intros p Hp. apply in_map_iff in Hp. destruct Hp as (x & <- & Hx). exact (HW x Hx).
Qed.
Variable W : string -> env.
Hypothesis HW : forall p, In p (map fst (profile_phases o)) ->
  solution (phase_of p) (W p) /\
  (forall x i, In x (free_ins (phase_of p)) -> W p x i = V (source G (gname p (phase_promotes p) x)) i) /\
  (forall y i, In y (group_outs (phase_of p)) -> W p y i = V (sub p y) i).
Lemma conn_in x q z i : In (x, sub q z) (g_conns G) -> In q all_phases ->
  W q z i = V x i /\ In z (free_ins (phase_of q)) /\ In q (map fst (profile_phases o)).
Proof.
  intros H Hq. destruct mission_ok as (cs & _ & _ & _ & HC & ND). destruct (HC _ _ H) as [_ HI].
  destruct (ins_of q z Hq HI) as (Hp & Hz & E). destruct (HW q Hp) as (_ & I & _). rewrite (I z i Hz), E, (source_target G _ _ ND H). auto.
Qed.
Lemma conn_phases p x q z i : In (sub p x, sub q z) (g_conns G) -> In p all_phases -> In q all_phases -> W q z i = W p x i.
Proof.
  intros H Hp Hq. destruct (conn_in _ _ _ i H Hq) as [-> _]. destruct mission_ok as (cs & _ & _ & _ & HC & ND). destruct (HC _ _ H) as [HO _].
  destruct (outs_of p x Hp HO) as [Hp' Hx]. destruct (HW p Hp') as (_ & _ & O). now rewrite (O x i Hx).
Qed.

(** *** The scalar values of all names *)
Hypotheses (HD : own_durations A) (HO : plain_outputs A) (Hnn : (0 < nn)%nat) (Hv : valid_profile o)
  (Hu : users_ok o (fun _ => ac_states A)) (Hpr : proms_ok o (fun _ => ac_states A) "" tableO tableI).
Definition val (x : string) : R :=
  match split_dot x with
  | Some (p, y) => if mem p (map fst (profile_phases o)) then W p (if mem y (group_outs (phase_of p)) then y else source (phase_of p) y) 0%nat
                   else V (source G x) 0%nat
  | None => V (source G x) 0%nat
  end.
Lemma val_phase p y : In p (map fst (profile_phases o)) ->
  val (sub p y) = W p (if mem y (group_outs (phase_of p)) then y else source (phase_of p) y) 0%nat.
Proof.
  intro H. unfold val. rewrite split_sub by (apply all_dotless; now apply (phases_all o)). apply mem_iff in H. now rewrite H.
Qed.
Lemma val_in p y : In p (map fst (profile_phases o)) -> ~ In y (group_outs (phase_of p)) -> val (sub p y) = W p (source (phase_of p) y) 0%nat.
Proof. intros H N. rewrite val_phase by auto. destruct (mem y _) eqn:E; [apply mem_iff in E; contradiction|reflexivity]. Qed.
Lemma val_out p y : In p (map fst (profile_phases o)) -> In y (group_outs (phase_of p)) -> val (sub p y) = W p y 0%nat.
Proof. intros H N. rewrite val_phase by auto. apply mem_iff in N. now rewrite N. Qed.
Lemma val_own p y : In p (map fst (profile_phases o)) -> source (phase_of p) y = y -> val (sub p y) = W p y 0%nat.
Proof. intros H E. rewrite val_phase by auto. rewrite E. now destruct (mem y _). Qed.
Lemma targets_cases x y : In (x, y) (g_conns G) -> (exists q z, In q (map fst (profile_phases o)) /\ y = sub q z) \/ In y ["bfl.distance_continue"; "bfl.takeoff|vr"; "bfl.distance_abort"; "resrange.rangeo"; "resrange.rangef"].
Proof.
  destruct mission_ok as (cs & Hm & _ & -> & _). intro H. apply some_pairs_in in H.
  destruct (mission_spec o _ "" tableO tableI Hu Hpr Hv) as (cs' & E & HI & _). rewrite Hm in E. injection E as <-.
  apply HI in H. destruct H as [(a & b & H & E)|(p & q & skip & a & b & Hl & _ & _ & _ & _ & E)].
  - injection E as <- <-. now apply (connect_targets o x).
  - unfold conn in E. injection E as _ ->. left. exists q, (is_start (ps_prom b)). split; [|reflexivity]. exact (proj2 (link_phases_in o _ _ _ Hl)).
Qed.
Lemma top_name x : In x (group_outs G) -> (forall q z, In q (map fst (profile_phases o)) -> x <> sub q z) -> source G x = x.
Proof.
  intros HX HN. apply source_no_target. intro H. apply in_map_iff in H. destruct H as ([a x'] & Ex & H). cbn [snd] in Ex. subst x'.
  destruct (targets_cases a x H) as [(q & z & Hq & E)|K]; [now apply (HN q z)|].
  unfold group_outs in HX. apply in_flat_map in HX. destruct HX as (s & Hs & HX). apply in_map_iff in HX. destruct HX as (z' & E & Hz).
  destruct (subs_cases s Hs) as [(p & Hp & ->)|[->|[[-> _]|[->|[-> _]]]]]; cbn [subgroup nested gs_name gs_pout gs_outs] in E, Hz.
  - apply (HN p z' Hp). symmetry. exact E.
  - cbn [mission_params indep gs_name gs_pout] in E. rewrite gname_star in E. subst z'. apply params_plain in Hz.
    repeat (destruct K as [<-|K]; [discriminate|]). contradiction.
  - cbn [bfl gs_name gs_pout gs_outs] in E, Hz. destruct Hz as [<-|[]]. cbn in E. subst x. repeat (destruct K as [K|K]; [discriminate|]). contradiction.
  - change (sub "engineoutclimb" z' = x) in E. subst x. repeat (destruct K as [K|K]; [discriminate|]). contradiction.
  - cbn [resrange gs_name gs_pout gs_outs] in E, Hz. destruct Hz as [<-|[]]. cbn in E. subst x. repeat (destruct K as [K|K]; [discriminate|]). contradiction.
Qed.
Lemma val_source x : In x (group_outs G) -> val x = V x 0%nat.
Proof.
  intro HX. destruct (split_dot x) as [[p y]|] eqn:E.
  - destruct (mem p (map fst (profile_phases o))) eqn:M.
    + apply mem_iff in M. apply split_back in E. subst x. destruct (outs_of p y (phases_all o p M) HX) as [_ Hy].
      rewrite val_out by auto. destruct (HW p M) as (_ & _ & O). now apply O.
    + unfold val. rewrite E, M. f_equal. apply top_name; auto. intros q z Hq ->.
      rewrite split_sub in E by (apply all_dotless; now apply (phases_all o)). injection E as <- <-. apply mem_iff in Hq. congruence.
  - unfold val. rewrite E. f_equal. apply top_name; auto. intros q z Hq ->.
    rewrite split_sub in E by (apply all_dotless; now apply (phases_all o)). discriminate.
Qed.
Lemma val_conns x y : In (x, y) (g_conns G) -> val y = val x.
Proof.
  intro H. destruct mission_ok as (cs & _ & _ & _ & HC & ND). destruct (HC _ _ H) as [HX _]. rewrite (val_source x HX).
  destruct (targets_cases x y H) as [(q & z & Hq & ->)|K].
  - destruct (conn_in x q z 0%nat H (phases_all o q Hq)) as (E & F & _). apply free_iff in F. destruct F as (_ & F1 & F2).
    rewrite val_own; auto. now apply source_free.
  - assert (S : match split_dot y with Some (p, _) => mem p all_phases = false | None => True end)
      by (repeat (destruct K as [<-|K]; [reflexivity|]); contradiction).
    unfold val. destruct (split_dot y) as [[p z]|]; [|now rewrite (source_target G x y ND H)].
    destruct (mem p (map fst (profile_phases o))) eqn:M; [|now rewrite (source_target G x y ND H)].
    apply mem_iff, phases_all, mem_iff in M. congruence.
Qed.

(** *** The setters of the durations *)
Lemma not_out p k y : kind_of o p = k -> In y phase_inputs -> mem y (group_outs (phase_group kt kp tri nn no_aircraft p k)) = false ->
  ~ In y (group_outs (phase_of p)).
Proof.
  intros <- Hy N H. apply phase_outs in H. destruct H as [(q & H)|H]; [now apply HO in H|]. apply mem_iff in H. unfold phase_of in *. congruence.
Qed.
Lemma steady_phase p : In p ["climb"; "cruise"; "descent"; "reserve_climb"; "reserve_cruise"; "reserve_descent"; "loiter"] ->
  phase_of p = phase_group kt kp tri nn A p SteadyP.
Proof. intro H. unfold phase_of. now rewrite (kind_steady o p H). Qed.
Lemma balance_holds p m n out lhs rhs pin pout : In p (map fst (profile_phases o)) ->
  In (balance2 m n out lhs rhs pin pout) (g_subs (phase_of p)) -> (0 < m)%nat ->
  W p (source (phase_of p) (gname n pin lhs)) 0%nat = W p (source (phase_of p) (gname n pin rhs)) 0%nat.
Proof. intros Hp H Hm. destruct (HW p Hp) as (S & _). exact (S _ H 0%nat Hm). Qed.
Lemma setter_balance p n lhs rhs : In p ["climb"; "cruise"; "descent"; "reserve_climb"; "reserve_cruise"; "reserve_descent"; "loiter"] ->
  In p (map fst (profile_phases o)) -> fst (setter_of p) = [balance2 1 n "duration" lhs rhs [] [P "duration"]] ->
  In (sub n lhs) phase_inputs -> In (sub n rhs) phase_inputs ->
  mem (sub n lhs) (group_outs (phase_group kt kp tri nn no_aircraft p SteadyP)) = false ->
  mem (sub n rhs) (group_outs (phase_group kt kp tri nn no_aircraft p SteadyP)) = false ->
  val (sub p (sub n lhs)) = val (sub p (sub n rhs)).
Proof.
  intros HS Hp E I1 I2 N1 N2. pose proof (kind_steady o p HS) as K.
  rewrite !val_in by (auto; eapply not_out; eauto). apply (balance_holds p 1 n "duration" lhs rhs [] [P "duration"] Hp); [|lia].
  rewrite (steady_phase p HS). cbn [phase_group SteadyFlightPhase g_subs]. rewrite E. apply in_or_app. right. now left.
Qed.
Lemma inner_conn p n x : In p ["climb"; "descent"; "reserve_climb"; "reserve_descent"] ->
  In p (map fst (profile_phases o)) -> snd (setter_of p) = [("ode_integ_phase.fltcond|h_final", sub n x)] ->
  In (sub n x) phase_inputs -> mem (sub n x) (group_outs (phase_group kt kp tri nn no_aircraft p SteadyP)) = false ->
  val (sub p (sub n x)) = val (sub p "ode_integ_phase.fltcond|h_final").
Proof.
  intros HS0 Hp E I N. assert (HS : In p ["climb"; "cruise"; "descent"; "reserve_climb"; "reserve_cruise"; "reserve_descent"; "loiter"]) by (cbn in HS0 |- *; tauto).
  pose proof (kind_steady o p HS) as K. rewrite (val_in p (sub n x)) by (auto; eapply not_out; eauto). rewrite val_out; auto.
  - f_equal. rewrite (steady_phase p HS). unfold source. cbn [phase_group SteadyFlightPhase g_conns]. rewrite E. cbn [app find fst snd]. now rewrite String.eqb_refl.
  - rewrite (steady_phase p HS). unfold group_outs. apply in_flat_map. eexists. split; [right; left; reflexivity|]. inlist.
Qed.
Lemma val_inner x y : In (x, y) (phase_connects o) -> val y = val x.
Proof.
  unfold phase_connects. intro H. apply in_app_or in H. destruct H as [H|H].
  - destruct H as [H|[H|[]]]; injection H as <- <-.
    + apply (inner_conn "climb" "climbdt" "fltcond|h_final"); try inlist; try reflexivity. apply always_flown; inlist.
    + apply (inner_conn "descent" "descentdt" "fltcond|h_final"); try inlist; try reflexivity. apply always_flown; inlist.
  - destruct (pf_reserve o) eqn:R; [|contradiction]. destruct H as [H|[H|[]]]; injection H as <- <-.
    + apply (inner_conn "reserve_climb" "reserve_climbdt" "fltcond|h_final"); try inlist; try reflexivity. apply reserve_flown; auto; inlist.
    + apply (inner_conn "reserve_descent" "reserve_descentdt" "fltcond|h_final"); try inlist; try reflexivity. apply reserve_flown; auto; inlist.
Qed.
Lemma decision p : pf_takeoff o = true -> p = "v0v1" \/ p = "v1v0" -> W p "takeoff|v1" 0%nat = val "takeoff|v1".
Proof.
  intros T Hp. assert (F : In p (map fst (profile_phases o))) by (apply takeoff_flown; auto; destruct Hp; subst; inlist).
  destruct (kind_takeoff o T) as (K0 & K1 & K2 & K3). destruct (HW p F) as (_ & I & _). rewrite I.
  - assert (E : gname p (phase_promotes p) "takeoff|v1" = "takeoff|v1") by (destruct Hp; subst; reflexivity). rewrite E. reflexivity.
  - apply free_iff. split; [|split].
    + assert (EP : phase_of p = GroundRollPhase kt kp tri nn A p) by (unfold phase_of; destruct Hp; subst; rewrite ?K0, ?K2; reflexivity).
      rewrite EP. unfold group_ins. apply in_flat_map. cbn [GroundRollPhase g_subs].
      destruct Hp; subst; eexists; (split; [apply in_or_app; right|]); [right; left; reflexivity | inlist | do 3 right; left; reflexivity | inlist].
    + destruct Hp; subst; eapply not_out; eauto; try inlist; vm_compute; reflexivity.
    + intro K. assert (In "takeoff|v1" own_names) by inlist.
      assert (EP : phase_of p = GroundRollPhase kt kp tri nn A p) by (unfold phase_of; destruct Hp; subst; rewrite ?K0, ?K2; reflexivity).
      rewrite EP in K. revert K. now apply ground_clear.
Qed.
Lemma ground_phase p : pf_takeoff o = true -> In p ["v0v1"; "v1vr"; "v1v0"] -> phase_of p = GroundRollPhase kt kp tri nn A p.
Proof.
  intros T H. destruct (kind_takeoff o T) as (K0 & K1 & K2 & _). unfold phase_of. destruct H as [<-|[<-|[<-|[]]]]; rewrite ?K0, ?K1, ?K2; reflexivity.
Qed.
Lemma val_balances x y : In (x, y) (balances o) -> val x = val y.
Proof.
  unfold balances. intro H. apply in_app_or in H. destruct H as [H|H]; [|apply in_app_or in H; destruct H as [H|H]].
  - destruct (pf_takeoff o) eqn:T.
    + assert (FL := fun p => takeoff_flown o p T). apply in_app_or in H. destruct H as [H|H].
      * destruct H as [H|[H|[H|[]]]]; injection H as <- <-.
        -- pose proof (ground_phase "v0v1" T ltac:(inlist)) as EP. pose proof (ground_shared kt kp tri nn A "v0v1" HD) as Hs.
           assert (F : In "v0v1" (map fst (profile_phases o))) by (apply FL; inlist).
           rewrite <- (decision "v0v1" T ltac:(auto)). change "v0v1.fltcond|Utrue_final" with (sub "v0v1" "fltcond|Utrue_final"). rewrite val_own; auto; [|rewrite EP; apply Hs; inlist].
           assert (B := balance_holds "v0v1" 1 "v1constraint" "duration" "takeoff|v1" "fltcond|Utrue_final" [P "*"] [P "duration"] F).
           rewrite EP in B. rewrite !gname_star in B. rewrite !Hs in B by inlist. apply B; [|lia]. do 9 right. left. reflexivity.
        -- pose proof (ground_phase "v1vr" T ltac:(inlist)) as EP. pose proof (ground_shared kt kp tri nn A "v1vr" HD) as Hs.
           assert (F : In "v1vr" (map fst (profile_phases o))) by (apply FL; inlist).
           change "v1vr.takeoff|vr" with (sub "v1vr" "takeoff|vr"). change "v1vr.fltcond|Utrue_final" with (sub "v1vr" "fltcond|Utrue_final"). rewrite !val_own; auto; try (rewrite EP; apply Hs; inlist).
           assert (B := balance_holds "v1vr" 1 "vrconstraint" "duration" "takeoff|vr" "fltcond|Utrue_final" [P "*"] [P "duration"] F).
           rewrite EP in B. rewrite !gname_star in B. rewrite !Hs in B by inlist. apply B; [|lia]. do 9 right. left. reflexivity.
        -- pose proof (ground_phase "v1v0" T ltac:(inlist)) as EP. pose proof (ground_shared kt kp tri nn A "v1v0" HD) as Hs.
           assert (F : In "v1v0" (map fst (profile_phases o))) by (apply FL; inlist).
           assert (Hi : source (GroundRollPhase kt kp tri nn A "v1v0") "fltcond|Utrue_initial" = "fltcond|Utrue_initial").
           { apply source_free. cbn [GroundRollPhase g_conns]. rewrite map_app. intro K. apply in_app_or in K. destruct K as [K|K].
             - repeat (destruct K as [K|K]; [discriminate|]). contradiction.
             - apply time_targets in K. now apply (proj2 (HD _ (proj1 K))). }
           rewrite <- (decision "v1v0" T ltac:(auto)). change "v1v0.fltcond|Utrue_initial" with (sub "v1v0" "fltcond|Utrue_initial"). rewrite val_own; auto; [|now rewrite EP].
           assert (B := balance_holds "v1v0" 1 "v0constraint" "duration" "takeoff|v1" "fltcond|Utrue_initial" [P "*"] [P "duration"] F).
           rewrite EP in B. rewrite !gname_star in B. rewrite Hi in B. rewrite Hs in B by inlist. apply B; [|lia]. do 11 right. left. reflexivity.
      * destruct (pf_transition o) eqn:TR; try contradiction. destruct H as [H|[]]. injection H as <- <-.
        destruct (kind_takeoff o T) as (_ & _ & _ & K3). rewrite TR in K3. assert (EP : phase_of "rotate" = RotationPhase kt kp tri nn A "rotate") by (unfold phase_of; now rewrite K3).
        pose proof (rotation_shared kt kp tri nn A "rotate" HD) as Hs. assert (F : In "rotate" (map fst (profile_phases o))) by (apply FL; inlist).
        change "rotate.h_obs" with (sub "rotate" "h_obs"). change "rotate.fltcond|h_final" with (sub "rotate" "fltcond|h_final"). rewrite !val_own; auto; try (rewrite EP; apply Hs; inlist).
        assert (B := balance_holds "rotate" 1 "clear_obstacle" "duration" "h_obs" "fltcond|h_final" [P "*"] [P "duration"] F).
        rewrite EP in B. rewrite !gname_star in B. rewrite !Hs in B by inlist. apply B; [|lia]. do 8 right. left. reflexivity.
    + destruct (pf_basic o && pf_ground_roll o)%bool eqn:B0; [|contradiction]. apply andb_prop in B0. destruct B0 as [B1 B2]. destruct H as [H|[]]. injection H as <- <-.
      destruct (kind_roll o T B1 B2) as [K F]. assert (EP : phase_of "groundroll" = GroundRollPhase kt kp tri nn A "v0v1") by (unfold phase_of; now rewrite K).
      pose proof (ground_shared kt kp tri nn A "v0v1" HD) as Hs.
      change "groundroll.takeoff|v1" with (sub "groundroll" "takeoff|v1"). change "groundroll.fltcond|Utrue_final" with (sub "groundroll" "fltcond|Utrue_final"). rewrite !val_own; auto; try (rewrite EP; apply Hs; inlist).
      assert (B := balance_holds "groundroll" 1 "v1constraint" "duration" "takeoff|v1" "fltcond|Utrue_final" [P "*"] [P "duration"] F).
      rewrite EP in B. rewrite !gname_star in B. rewrite !Hs in B by inlist. apply B; [|lia]. do 9 right. left. reflexivity.
  - assert (FL := always_flown o). destruct H as [H|[H|[H|[]]]]; injection H as <- <-.
    + apply (setter_balance "climb" "climbdt" "fltcond|h_final" "cruise|h0"); try (apply FL); try inlist; reflexivity.
    + apply (setter_balance "cruise" "cruisedt" "range_final" "mission_range"); try (apply FL); try inlist; reflexivity.
    + apply (setter_balance "descent" "descentdt" "fltcond|h_final" "takeoff|h"); try (apply FL); try inlist; reflexivity.
  - destruct (pf_reserve o) eqn:R; [|contradiction]. assert (FL := fun p => reserve_flown o p R). destruct H as [H|[H|[H|[]]]]; injection H as <- <-.
    + apply (setter_balance "reserve_climb" "reserve_climbdt" "fltcond|h_final" "reserve|h0"); try (apply FL); try inlist; reflexivity.
    + apply (setter_balance "reserve_cruise" "reserve_cruisedt" "range_final" "reserve_range"); try (apply FL); try inlist; reflexivity.
    + apply (setter_balance "reserve_descent" "reserve_descentdt" "fltcond|h_final" "takeoff|h"); try (apply FL); try inlist; reflexivity.
Qed.
Lemma mission_converged cs : mission tableO tableI "" (fun _ => ac_states A) o = Ok cs -> converged o cs val.
Proof.
  intro Hm. destruct mission_ok as (cs' & Hm' & SU & CO & HC & ND). rewrite Hm in Hm'. injection Hm' as <-. constructor.
  - intros x y H. apply val_conns. rewrite CO. now apply some_pairs_in.
  - exact val_inner.
  - exact val_balances.
  - intro R. assert (I : In resrange (g_subs G)).
    { rewrite SU. unfold mission_subs. rewrite R. right. rewrite !in_app_iff. do 3 right. now left. }
    pose proof (HV _ I) as E. cbn [gs_rel resrange] in E. unfold reads, writes in E. cbn [gs_name gs_pin gs_pout] in E.
    change (V (sub "resrange" "reserverange") 0%nat = V (source G (sub "resrange" "rangef")) 0%nat - V (source G (sub "resrange" "rangeo")) 0%nat) in E.
    assert (Q : forall z, val (sub "resrange" z) = V (source G (sub "resrange" z)) 0%nat).
    { intro z. unfold val. rewrite split_sub by (apply dotlessb_ok; reflexivity). destruct (mem "resrange" _) eqn:M; [|reflexivity].
      apply mem_iff, phases_all, mem_iff in M. discriminate. }
    change "resrange.reserverange" with (sub "resrange" "reserverange"). rewrite val_source.
    + change "resrange.rangef" with (sub "resrange" "rangef"). change "resrange.rangeo" with (sub "resrange" "rangeo"). now rewrite !Q.
    + unfold group_outs. apply in_flat_map. exists resrange. split; [exact I|]. now left.
  - intro R. assert (F : In "loiter" (map fst (profile_phases o))) by (apply reserve_flown; auto; inlist).
    pose proof (steady_phase "loiter" ltac:(inlist)) as EP. destruct (HW "loiter" F) as (S & _ & _). rewrite EP in S.
    assert (B := S (relabel "loiter_dt" [("duration_in", "duration")] [P "*"] [P "*"]) ltac:(do 9 right; left; reflexivity) "duration_in" "duration" ltac:(now left) 0%nat).
    unfold reads, writes in B. cbn [relabel gs_name gs_pin gs_pout] in B. rewrite !gname_star in B.
    assert (E1 : source (phase_group kt kp tri nn A "loiter" SteadyP) "duration_in" = "duration_in") by (apply steady_source; auto; [inlist|discriminate]).
    rewrite E1 in B. change "loiter.duration" with (sub "loiter" "duration"). change "loiter.duration_in" with (sub "loiter" "duration_in").
    rewrite val_out; auto; [rewrite val_own; auto; now rewrite EP|]. rewrite EP. unfold group_outs. apply in_flat_map. eexists. split; [do 9 right; left; reflexivity|]. inlist.
  - intro T. assert (I : In bfl (g_subs G)).
    { rewrite SU. unfold mission_subs. rewrite T. right. now left. }
    pose proof (HV _ I) as E. cbn [gs_rel bfl] in E. unfold reads, writes in E. cbn [gs_name gs_pin gs_pout] in E.
    assert (Q : forall z, val (sub "bfl" z) = V (source G (sub "bfl" z)) 0%nat).
    { intro z. unfold val. rewrite split_sub by (apply dotlessb_ok; reflexivity). destruct (mem "bfl" _) eqn:M; [|reflexivity].
      apply mem_iff, phases_all, mem_iff in M. discriminate. }
    rewrite (val_source "takeoff|v1").
    + change (bfl_residual (val (sub "bfl" "distance_continue")) (val (sub "bfl" "distance_abort")) (val (sub "bfl" "takeoff|vr")) (V "takeoff|v1" 0%nat) = 0). rewrite !Q. exact E.
    + unfold group_outs. apply in_flat_map. exists bfl. split; [exact I|]. now left.
Qed.
End Trip.
