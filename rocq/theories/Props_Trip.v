(** C88: a mission is one flight, for any aircraft model. *)
From Coq Require Import Reals List Bool PeanoNat String Ascii Lia Lra.
From Verif Require Import Base Py RSum Model_Algebra Model_Vectors Proofs_Vectors Model_Integrals Spec_Integrals Model_Atmos Proofs_Atmos Model_Phases Model_Mission Spec_Mission
  Proofs_Mission Proofs_Profiles Props_Mission Model_Targets Props_Targets Model_Net Proofs_Net Model_Thermal Model_HX Model_Ducts Model_HeatPipe Model_Systems Proofs_Systems
  Model_Flight Spec_Flight Proofs_Flight Proofs_Takeoff Proofs_Fly Props_Flight Props_Takeoff Proofs_Trip Proofs_Journey.
Import ListNotations.
Open Scope R_scope.
Open Scope string_scope.
Open Scope list_scope.

(** All phases obey their own equations (see C86 and C87 for what that means), share the
    aircraft's data, follow one another without a gap and end where the user asked. *)
Theorem C88_one_flight kt kp X n A o G V : own_durations A -> plain_outputs A -> method_size Simpson n -> is_inverse (n - 1) simpson_a X ->
  valid_profile o -> users_ok o (fun _ => ac_states A) -> proms_ok o (fun _ => ac_states A) "" (tableO A o) (tableI A o) ->
  mission_group kt kp (method_tri Simpson n X) n A o = Ok G -> solution G V ->
  exists W, one_flight kt kp (method_tri Simpson n X) n A o V W.
Proof.
  intros HD HO MS HX Hv Hu Hp HG HV. destruct (phase_values _ _ _ _ _ _ _ HG V HV) as [W HW]. exists W. eapply is_one_flight; eauto.
Qed.
Print Assumptions C88_one_flight.

(** The ground covered and the height gained in a phase, from its speeds and its duration. *)
Definition covered (n : nat) (W : env) : R := W "duration" 0%nat / INR (n - 1) * area (W "fltcond|groundspeed") (n - 1).
Definition gained (n : nat) (W : env) : R := W "duration" 0%nat / INR (n - 1) * area (W "fltcond|vs") (n - 1).
Definition legs (f : string -> R) (l : list string) : R := fold_right (fun p s => f p + s) 0 l.
Lemma legs_total f first last l : (forall p, In p l -> f p = last p - first p) -> legs f l = total first last l.
Proof. induction l as [|p l IH]; intro H; [reflexivity|]. cbn. rewrite (H p) by (now left). fold (legs f l). rewrite IH; [reflexivity|]. intros; apply H; now right. Qed.
(** The speeds flown, added up over the mission, make the distance and the altitudes the user asked for. *)
Theorem C88_distance kt kp X n A o V W : own_durations A -> method_size Simpson n -> is_inverse (n - 1) simpson_a X ->
  (pf_takeoff o = true -> pf_transition o = Ode) -> one_flight kt kp (method_tri Simpson n X) n A o V W ->
  legs (fun p => covered n (W p)) (main_legs o) = V "mission_range" 0%nat - W (first_phase o) "range" 0%nat /\
  (pf_reserve o = true -> legs (fun p => covered n (W p)) (reserve_legs o) = V "reserve_range" 0%nat) /\
  W "climb" "fltcond|h" 0%nat + gained n (W "climb") = V "cruise|h0" 0%nat /\
  V "cruise|h0" 0%nat + gained n (W "cruise") + gained n (W "descent") = V "takeoff|h" 0%nat.
Proof.
  intros HD MS HX Hv F. assert (Hn : (1 <= n)%nat) by (destruct MS; lia).
  assert (ST : forall p, In p ["climb"; "cruise"; "descent"; "reserve_climb"; "reserve_cruise"; "reserve_descent"; "loiter"] -> In p (map fst (profile_phases o)) ->
    covered n (W p) = W p "range" (n - 1)%nat - W p "range" 0%nat /\ gained n (W p) = W p "fltcond|h" (n - 1)%nat - W p "fltcond|h" 0%nat).
  { intros p HS Hp. apply in_map_iff in Hp. destruct Hp as ([p' k] & E & Hp). cbn in E. subst p'.
    assert (K := kind_steady o p HS). rewrite (kind_of_in o p k Hp) in K. subst k. pose proof (fl_phases _ _ _ _ _ _ _ _ F p _ Hp) as S.
    destruct (C86_path kt kp X n A p (W p) HD MS HX S) as (E1 & E2 & _).
    rewrite (evolves_last _ _ _ _ _ Hn E1), (evolves_last _ _ _ _ _ Hn E2), (evolves_first _ _ _ _ _ Hn E1), (evolves_first _ _ _ _ _ Hn E2).
    unfold covered, gained. split; ring. }
  assert (TK : forall p, pf_takeoff o = true -> In p ["v0v1"; "v1vr"; "rotate"] -> covered n (W p) = W p "range" (n - 1)%nat - W p "range" 0%nat).
  { intros p T HS. assert (Hp : In p (map fst (profile_phases o))) by (apply takeoff_flown; auto; cbn in HS |- *; tauto).
    apply in_map_iff in Hp. destruct Hp as ([p' k] & E & Hp). cbn in E. subst p'.
    pose proof (fl_phases _ _ _ _ _ _ _ _ F p _ Hp) as S. destruct (kind_takeoff o T) as (K1 & K2 & _ & K3). rewrite (Hv T) in K3.
    pose proof (kind_of_in o p k Hp) as K. unfold covered.
    assert (R : exists r0, evolves n (W p "duration" 0%nat) r0 (W p "fltcond|groundspeed") (W p "range")).
    { destruct HS as [<-|[<-|[<-|[]]]]; [rewrite K1 in K | rewrite K2 in K | rewrite K3 in K]; subst k; cbn [phase_group String.eqb Ascii.eqb Bool.eqb] in S.
      - eexists. exact (proj1 (C87_roll_distance kt kp X n A _ _ HD MS HX S)).
      - eexists. exact (proj1 (C87_roll_distance kt kp X n A _ _ HD MS HX S)).
      - eexists. exact (proj1 (proj2 (C87_rotation_path kt kp X n A _ _ HD MS HX S))). }
    destruct R as [r0 R]. rewrite (evolves_last _ _ _ _ _ Hn R), (evolves_first _ _ _ _ _ Hn R). ring. }
  assert (GR : pf_basic o = true -> pf_ground_roll o = true -> covered n (W "groundroll") = W "groundroll" "range" (n - 1)%nat - W "groundroll" "range" 0%nat).
  { intros B R. assert (T : pf_takeoff o = false) by (unfold pf_basic in B; now destruct (pf_takeoff o)). destruct (kind_roll o T B R) as [K Hp].
    apply in_map_iff in Hp. destruct Hp as ([p' k] & E & Hp). cbn in E. subst p'. pose proof (fl_phases _ _ _ _ _ _ _ _ F _ _ Hp) as S.
    rewrite (kind_of_in o _ k Hp) in K. subst k. cbn [phase_group String.eqb Ascii.eqb Bool.eqb] in S.
    destruct (C87_roll_distance kt kp X n A _ _ HD MS HX S) as [R0 _]. unfold covered. rewrite (evolves_last _ _ _ _ _ Hn R0), (evolves_first _ _ _ _ _ Hn R0). ring. }
  pose proof (fl_range _ _ _ _ _ _ _ _ F) as L. destruct (fl_altitude _ _ _ _ _ _ _ _ F) as [L1 L2]. destruct (fl_targets _ _ _ _ _ _ _ _ F) as (T1 & T2 & T3).
  assert (LI : forall p q, pair_in (p, q) (flown_after o) = true -> W q "range" 0%nat = W p "range" (n - 1)%nat) by (intros p q H; apply L; now apply pair_in_iff).
  assert (FL := always_flown o).
  split; [|split; [|split]].
  - rewrite (legs_total _ (fun p => W p "range" 0%nat) (fun p => W p "range" (n - 1)%nat)).
    + rewrite <- T3. clear - LI. unfold main_legs, first_phase in *. destruct o as [tk rs gr tr]; cbn [pf_takeoff pf_reserve pf_ground_roll pf_transition] in *.
      destruct tk; [|destruct rs; [|destruct gr]]; cbn [negb andb app];
        refine (total_chain (fun p => W p "range" 0%nat) (fun p => W p "range" (n - 1)%nat) _ _ _);
        intros a b Hab; apply LI; cbn in Hab; repeat (destruct Hab as [Hab|Hab]; [injection Hab as <- <-|]); try contradiction; try (destruct rs); try destruct gr; reflexivity.
    + intros p Hp. unfold main_legs in Hp. apply in_app_or in Hp. destruct Hp as [Hp|Hp].
      * destruct (pf_takeoff o) eqn:T; [now apply TK|]. destruct (negb (pf_reserve o) && pf_ground_roll o)%bool eqn:B; [|contradiction].
        apply andb_prop in B. destruct B as [B1 B2]. destruct Hp as [<-|[]]. apply GR; auto. unfold pf_basic. rewrite T, B1. reflexivity.
      * apply ST; [cbn in Hp |- *; tauto|now apply FL].
  - intro R. destruct (fl_reserve _ _ _ _ _ _ _ _ F R) as (_ & _ & _ & _ & RR & _). rewrite <- RR.
    rewrite (legs_total _ (fun p => W p "range" 0%nat) (fun p => W p "range" (n - 1)%nat)).
    + unfold reserve_legs. rewrite R. rewrite (total_chain (fun p => W p "range" 0%nat) (fun p => W p "range" (n - 1)%nat) "reserve_climb" ["reserve_cruise"; "reserve_descent"]).
      * cbn [List.last]. rewrite (LI "descent" "reserve_climb"); [reflexivity|]. clear - R. destruct o as [tk rs gr tr]; cbn in R; subst; destruct tk, gr; reflexivity.
      * intros a b Hab. apply LI. clear - R Hab. destruct o as [tk rs gr tr]; cbn in R; subst. cbn in Hab.
        repeat (destruct Hab as [Hab|Hab]; [injection Hab as <- <-; destruct tk, gr; reflexivity|]). contradiction.
    + intros p Hp. unfold reserve_legs in Hp. rewrite R in Hp. apply ST; [cbn in Hp |- *; tauto|apply reserve_flown; auto; cbn in Hp |- *; tauto].
  - rewrite (proj2 (ST "climb" ltac:(inlist) ltac:(apply FL; inlist))). lra.
  - rewrite (proj2 (ST "cruise" ltac:(inlist) ltac:(apply FL; inlist))), (proj2 (ST "descent" ltac:(inlist) ltac:(apply FL; inlist))). lra.
Qed.
Print Assumptions C88_distance.

(** ** The example aircraft meet the hypotheses *)
Definition named_ok (A : aircraft) (o : profile) : bool :=
  forallb (fun p => forallb (fun s =>
      opt_eqb (tableO A o (sub p (is_name (ps_abs s)))) (Some (sub p (is_name (ps_prom s)))) &&
      opt_eqb (tableO A o (sub p (is_end (ps_abs s)))) (Some (sub p (is_end (ps_prom s))))) (phase_states (kind_of o p) (ac_states A)) &&
    forallb (fun u => opt_eqb (tableI A o (sub p (sub "acmodel" (is_start (ps_abs u))))) (Some (sub p (is_start (ps_prom u)))) &&
      negb (in_list (sub p (is_start (ps_prom u))) (own_inputs o))) (ac_states A) &&
    forallb (fun s => match kind_of o p with SteadyP => opt_eqb (tableI A o (sub p (is_start (ps_abs s)))) (Some (sub p (is_start (ps_prom s)))) | _ => true end) (builtin_states SteadyP))
    (map fst (profile_phases o)) &&
  nodupb (map (fun u => is_name (ps_abs u)) (ac_states A)) && nodupb (map (fun u => is_start (ps_prom u)) (ac_states A)) &&
  forallb (fun u => negb (in_list (is_name (ps_prom u)) ["fltcond|Utrue"; "range"; "fltcond|h"; "ode_integ_phase.fltcond|h"]) &&
    forallb (fun v => negb (String.eqb (is_name (ps_abs u)) (is_name (ps_abs v))) || String.eqb (is_start (ps_abs u)) (is_start (ps_abs v))) (ac_states A)) (ac_states A).
Lemma opt_eqb_ok a b : opt_eqb a (Some b) = true -> a = Some b.
Proof. destruct a; cbn; intro H; [|discriminate]. apply String.eqb_eq in H. now subst. Qed.
Lemma named_users A o : named_ok A o = true -> users_ok o (fun _ => ac_states A) /\ proms_ok o (fun _ => ac_states A) "" (tableO A o) (tableI A o).
Proof.
  unfold named_ok. rewrite !andb_true_iff. intros (((H & N1) & N2) & K). apply nodupb_ok in N1, N2. rewrite forallb_forall in H, K.
  assert (HP : forall p, In p (map fst (profile_phases o)) -> 
    (forall s, In s (phase_states (kind_of o p) (ac_states A)) -> tableO A o (sub p (is_name (ps_abs s))) = Some (sub p (is_name (ps_prom s))) /\
       tableO A o (sub p (is_end (ps_abs s))) = Some (sub p (is_end (ps_prom s)))) /\
    (forall u, In u (ac_states A) -> tableI A o (sub p (sub "acmodel" (is_start (ps_abs u)))) = Some (sub p (is_start (ps_prom u))) /\ ~ In (sub p (is_start (ps_prom u))) (own_inputs o)) /\
    (forall s, In s (builtin_states SteadyP) -> kind_of o p = SteadyP -> tableI A o (sub p (is_start (ps_abs s))) = Some (sub p (is_start (ps_prom s))))).
  { intros p Hp. specialize (H p Hp). rewrite !andb_true_iff in H. destruct H as ((H1 & H2) & H3). rewrite forallb_forall in H1, H2, H3. split; [|split].
    - intros s Hs. specialize (H1 s Hs). rewrite andb_true_iff in H1. destruct H1 as [A1 A2]. now apply opt_eqb_ok in A1, A2.
    - intros u Hu. specialize (H2 u Hu). rewrite andb_true_iff in H2. destruct H2 as [A1 A2]. apply opt_eqb_ok in A1. apply negb_true_iff, in_list_false in A2. auto.
    - intros s Hs E. specialize (H3 s Hs). rewrite E in H3. now apply opt_eqb_ok in H3. }
  split; constructor.
  - auto.
  - auto.
  - intros p u Hp Hu. now apply (HP p Hp).
  - intros _ _ u v Hu Hv E. specialize (K u Hu). rewrite andb_true_iff in K. destruct K as [_ K]. rewrite forallb_forall in K. specialize (K v Hv).
    rewrite E, String.eqb_refl in K. now apply String.eqb_eq in K.
  - intros _ u Hu. specialize (K u Hu). rewrite andb_true_iff in K. destruct K as [K _]. now apply negb_true_iff, in_list_false in K.
  - intros p s Hp Hs. now apply (HP p Hp).
  - intros p s Hp Hs. now apply (HP p Hp).
  - intros p u Hp Hu. now apply (HP p Hp).
  - intros p s Hp E Hs. now apply (HP p Hp).
Qed.
Lemma minimal_named tri o : named_ok minimal o = true /\ named_ok (minimal_integrator tri) o = true.
Proof. split; revert o; apply by_profiles; vm_compute; reflexivity. Qed.
Definition sets_up (g : group) : bool :=
  forallb (fun s => promos_ok (gs_pin s) (gs_ins s) && promos_ok (gs_pout s) (gs_outs s)) (g_subs g) &&
  forallb (fun c => mem (fst c) (group_outs g) && mem (snd c) (group_ins g)) (g_conns g) &&
  no_dup (group_outs g) && no_dup (map snd (g_conns g)).
Lemma sets_up_ok g : sets_up g = true -> setup g = Ok g.
Proof.
  unfold sets_up. rewrite !andb_true_iff. intros (((H1 & H2) & H3) & H4). unfold setup.
  rewrite H1, H2, H3, H4. reflexivity.
Qed.
Definition mission_sets_up kt kp tri n A o : bool :=
  match mission (tableO A o) (tableI A o) "" (fun _ => ac_states A) o with
  | Ok cs => sets_up {| g_subs := mission_subs kt kp tri n A o; g_conns := some_pairs cs |}
  | Err _ => pf_takeoff o && match pf_transition o with OtherTransition => true | _ => false end
  end.
Lemma mission_sets_up_ok kt kp tri n A o : mission_sets_up kt kp tri n A o = true -> valid_profile o ->
  exists cs, mission (tableO A o) (tableI A o) "" (fun _ => ac_states A) o = Ok cs /\
    mission_group kt kp tri n A o = Ok {| g_subs := mission_subs kt kp tri n A o; g_conns := some_pairs cs |}.
Proof.
  unfold mission_sets_up, mission_group, valid_profile. fold (tableO A o) (tableI A o). destruct (mission _ _ _ _ o) as [cs|e].
  - intros H _. exists cs. split; [reflexivity|]. cbn [res_bind]. now apply sets_up_ok.
  - intros H Hv. apply andb_prop in H. destruct H as [H1 H2]. destruct (pf_transition o) eqn:E; try discriminate. now exfalso; apply Hv.
Qed.
(** Every valid mission profile sets up with the two minimal aircraft, which meet the hypotheses. *)
Theorem C88_sets_up kt kp tri n o : valid_profile o -> forall A, A = minimal \/ A = minimal_integrator tri ->
  own_durations A /\ plain_outputs A /\ users_ok o (fun _ => ac_states A) /\ proms_ok o (fun _ => ac_states A) "" (tableO A o) (tableI A o) /\
  exists G, mission_group kt kp tri n A o = Ok G.
Proof.
  intros Hv A HA. assert (N : named_ok A o = true) by (destruct (minimal_named tri o); destruct HA; subst; assumption).
  assert (M : mission_sets_up kt kp tri n A o = true).
  { destruct HA; subst; clear; revert o; apply by_profiles; vm_compute; reflexivity. }
  destruct (named_users A o N) as [U P]. destruct (mission_sets_up_ok _ _ _ _ _ _ M Hv) as (cs & _ & E).
  split; [|split; [|split; [exact U|split; [exact P|eauto]]]].
  - destruct HA; subst; [intros t []|]. intros t [<-|[]]. split; [|discriminate]. intro K. apply mem_In in K. vm_compute in K. discriminate.
  - destruct HA; subst; intros m p y Hy K; apply mem_In in K; cbn in Hy; repeat (destruct Hy as [<-|Hy]; [vm_compute in K; discriminate|]); contradiction.
Qed.
Print Assumptions C88_sets_up.

(** A flight of the minimal aircraft: climb to 3000 m at 5 m/s, an hour of cruise, descent at 5 m/s. *)
Section Example.
Variables (kt kp : coeffs) (X : mat) (n : nat).
Definition leg (h r T vs rf : R) : Proofs_Fly.flight :=
  {| f_h := h; f_r := r; f_T := T; f_vs := vs; f_eas := 60; f_dT := 0; f_m := 5000; f_S := 30; f_LD := 15; f_Fmax := 10000; f_rf := rf |}.
Definition leg_climb := leg 0 0 600 5 0.
Definition r_climb : R := fly_range kt kp n leg_climb (n - 1).
Definition r_cruise : R := fly_range kt kp n (leg 3000 r_climb 3600 0 0) (n - 1).
Definition leg_descent := leg 3000 r_cruise 600 (- (5)) 0.
Definition r_mission : R := fly_range kt kp n leg_descent (n - 1).
Definition leg_cruise := leg 3000 r_climb 3600 0 r_mission.
Definition trip_phase (p : string) : env :=
  fly kt kp n (if String.eqb p "climb" then leg_climb else if String.eqb p "cruise" then leg_cruise else leg_descent).
Definition trip : env := fun x i =>
  match split_dot x with
  | Some (p, y) => trip_phase p y i
  | None => match assoc x [("takeoff|h", 0); ("cruise|h0", 3000); ("mission_range", r_mission);
      ("ac|geom|wing|S_ref", 30); ("ac|weights|TOW", 5000); ("ac|propulsion|max_thrust", 10000); ("ac|aero|L_over_D", 15)] with Some v => v | None => 0 end
  end.
Definition basic : profile := {| pf_takeoff := false; pf_reserve := false; pf_ground_roll := false; pf_transition := Ode |}.
Definition free_steady : list string :=
  ["fltcond|vs"; "ode_integ_phase.fltcond|h_initial"; "ode_integ_phase.range_initial"; "fltcond|TempIncrement"; "fltcond|Ueas"; "fltcond|vs";
   "ac|geom|wing|S_ref"; "ac|weights|TOW"; "ac|propulsion|max_thrust"; "ac|aero|L_over_D"; "ac|geom|wing|S_ref"; "ac|geom|wing|S_ref"; "braking"; "zero_accel"].
Example C88_met : temp_coeffs kt -> pressure_coeffs kp -> method_size Simpson n -> is_inverse (n - 1) simpson_a X ->
  exists G, mission_group kt kp (method_tri Simpson n X) n minimal basic = Ok G /\ solution G trip.
Proof.
  intros Ht Hp MS HX. assert (Hn : 0 < INR (n - 1)) by (destruct MS; apply lt_0_INR; lia).
  assert (M : mission_sets_up kt kp (method_tri Simpson n X) n minimal basic = true) by (vm_compute; reflexivity).
  destruct (mission_sets_up_ok _ _ _ _ _ _ M ltac:(discriminate)) as (cs & Hm & HG). rewrite HG. eexists. split; [reflexivity|].
  vm_compute in Hm. injection Hm as <-. cbn [some_pairs flat_map app].
  assert (FR : forall i, (i < n)%nat -> 0 <= INR i / INR (n - 1) <= 1).
  { intros i Hi. assert (0 <= INR i <= INR (n - 1)) by (split; [apply pos_INR | apply le_INR; lia]).
    split; [apply Rdiv_le_0_compat; lra|]. apply (Rmult_le_reg_r (INR (n - 1))); auto. unfold Rdiv. rewrite Rmult_assoc, Rinv_l by lra. lra. }
  assert (PR : forall f i, (i < n)%nat -> f = leg_climb \/ f = leg_cruise \/ f = leg_descent ->
    exists q, compute_pressure kp (fly_h n f i) (get_masks (fly_h n f i)) = Some q).
  { intros f i Hi Hf. specialize (FR i Hi). assert (fly_h n f i < h_max).
    { unfold fly_h, h_max. destruct Hf as [->|[->| ->]]; cbn [leg leg_climb leg_cruise leg_descent f_h f_T f_vs]; lra. }
    destruct (press_positive kp _ Hp H) as (q & E & _). eauto. }
  set (tri := method_tri Simpson n X) in *. intros s Hs. cbn [g_subs mission_subs profile_phases basic pf_takeoff pf_reserve pf_ground_roll pf_basic app map negb andb] in Hs.
  assert (PH : forall p, In p ["climb"; "cruise"; "descent"] -> solution (phase_group kt kp tri n minimal p SteadyP) (trip_phase p)).
  { intros p Ip. apply fly_steady; auto.
    - unfold trip_phase. destruct (String.eqb p "climb"), (String.eqb p "cruise"); cbn; lra.
    - unfold trip_phase. destruct (String.eqb p "climb"), (String.eqb p "cruise"); cbn; lra.
    - intros i Hi. apply PR; auto. destruct (String.eqb p "climb"); [now left|]. destruct (String.eqb p "cruise"); [right; now left|right; now right]. }
  assert (K1 : fly_h n leg_climb (n - 1) = 3000) by (unfold fly_h; cbn [leg leg_climb f_h f_T f_vs]; field; lra).
  assert (K2 : fly_h n leg_cruise (n - 1) = 3000) by (unfold fly_h; cbn [leg leg_cruise f_h f_T f_vs]; field; lra).
  assert (K3 : fly_h n leg_descent (n - 1) = 0) by (unfold fly_h; cbn [leg leg_descent f_h f_T f_vs]; field; lra).
  assert (OU : forall p y i, In p ["climb"; "cruise"; "descent"] -> trip_phase p y i = trip (sub p y) i).
  { intros p y i Ip. unfold trip. rewrite split_sub; [reflexivity|]. apply all_dotless. cbn in Ip |- *. tauto. }
  assert (FI : forall p l, free_ins (phase_group kt kp tri n minimal p SteadyP) = free_steady ++ l -> free_ins (phase_group kt kp tri n minimal p SteadyP) = free_steady ++ l) by auto.
  destruct Hs as [<-|[<-|[<-|[<-|[]]]]].
  - exact I.
  - exists (trip_phase "climb"). split; [apply PH; inlist|split].
    + intros x i Hx. change (In x (free_ins (phase_group kt kp tri n minimal "climb" SteadyP))) in Hx. rewrite (FI "climb" ["climbdt.cruise|h0"] eq_refl) in Hx. cbn [free_steady app In] in Hx. repeat (destruct Hx as [<-|Hx]; [first [exact K1 | reflexivity]|]). contradiction.
    + intros y i Hy. apply (OU "climb"). inlist.
  - exists (trip_phase "cruise"). split; [apply PH; inlist|split].
    + intros x i Hx. change (In x (free_ins (phase_group kt kp tri n minimal "cruise" SteadyP))) in Hx. rewrite (FI "cruise" ["cruisedt.range_final"; "cruisedt.mission_range"] eq_refl) in Hx. cbn [free_steady app In] in Hx. repeat (destruct Hx as [<-|Hx]; [first [exact (eq_sym K1) | reflexivity]|]). contradiction.
    + intros y i Hy. apply (OU "cruise"). inlist.
  - exists (trip_phase "descent"). split; [apply PH; inlist|split].
    + intros x i Hx. change (In x (free_ins (phase_group kt kp tri n minimal "descent" SteadyP))) in Hx. rewrite (FI "descent" ["descentdt.takeoff|h"] eq_refl) in Hx. cbn [free_steady app In] in Hx. repeat (destruct Hx as [<-|Hx]; [first [exact (eq_sym K2) | exact K3 | reflexivity]|]). contradiction.
    + intros y i Hy. apply (OU "descent"). inlist.
Qed.
End Example.
Print Assumptions C88_met.
