(** C94: the airliners whose drag comes from OpenAeroStruct fly with the drag, the weight and the maneuver of the wing they are given. *)
From Coq Require Import Reals List Bool PeanoNat String Ascii Lia Lra FunctionalExtensionality.
From Verif Require Import Base Py RSum Model_Algebra Model_Vectors Model_Integrals Spec_Integrals Model_Atmos Model_Aero Model_Phases Model_Mission Spec_Mission Proofs_Profiles
  Model_Net Proofs_Net Model_Thermal Model_Ducts Proofs_Ducts Model_Systems Proofs_Systems Model_Flight Spec_Flight Proofs_Flight Proofs_Trip Props_Trip
  Model_Fleet Spec_Fleet Proofs_Fleet Proofs_FleetFlow Proofs_FleetSetup Props_Fleet Props_Targets
  Model_Mesh Spec_Mesh Model_Training Spec_Training Props_Training Model_Polar Spec_Polar Props_Polar Model_Aerostruct Spec_Aerostruct Model_Winged Spec_Winged.
Import ListNotations.
Open Scope R_scope.
Open Scope string_scope.
Open Scope list_scope.

(** ** Every mission is one flight *)
Section Flies.
Variables (kt kp : coeffs) (T : tools) (es : string -> list event) (g : grid) (s : surf) (z : wing_sizes) (D : deck) (tri : mat) (n : nat).
Let fleet_ := winged_fleet T es g s z D tri.
Lemma winged_missions A o : In A fleet_ -> valid_profile o -> mission_sets_up kt kp tri n A o = true /\ named_ok A o = true.
Proof.
  intros I V. rewrite <- (canonical_named _ o V). pose proof (canonical_in o V) as C. split.
  - apply quick_mission_ok. rewrite <- canonical_mission by exact V. revert C. generalize (canonical o). apply forallb_forall.
    revert A I. apply forallb_forall. vm_cast_no_check (eq_refl true).
  - revert C. generalize (canonical o). apply forallb_forall. revert A I. apply forallb_forall. vm_cast_no_check (eq_refl true).
Qed.
Lemma winged_phases A : In A fleet_ ->
  (forall p k, In (p, k) all_phases -> sets_up (phase_group kt kp tri n A p k) = true) /\ (forall p, sets_up (ac_model A n p) = true).
Proof.
  intro I. split.
  - assert (K : forallb (fun A => forallb (fun c => quick_sets_up (phase_group kt kp tri n A (fst c) (snd c))) all_phases) fleet_ = true) by (vm_cast_no_check (eq_refl true)).
    rewrite forallb_forall in K. specialize (K A I). rewrite forallb_forall in K. intros p k Hp. apply quick_sets_up_ok. exact (K (p, k) Hp).
  - intro p. apply quick_sets_up_ok. revert A I. apply forallb_forall. vm_cast_no_check (eq_refl true).
Qed.
Lemma winged_clean A : In A fleet_ -> own_durations A /\ plain_outputs A.
Proof.
  intro I. split.
  - assert (K : forallb (fun A => forallb (fun t => negb (mem t own_names) && negb (String.eqb t "fltcond|Utrue_initial")) (ac_times A)) fleet_ = true) by (vm_compute; reflexivity).
    rewrite forallb_forall in K. specialize (K A I). rewrite forallb_forall in K. intros t Ht. specialize (K t Ht). apply andb_prop in K. destruct K as [H1 H2].
    apply negb_true_iff in H1, H2. split; [|now apply String.eqb_neq]. intro Q. apply mem_In in Q. congruence.
  - intros m p y Hy K. apply mem_In in K.
    assert (F : forallb (fun A => forallb (fun y => negb (mem y phase_inputs)) (group_outs (ac_model A m p))) fleet_ = true) by (vm_compute; reflexivity).
    rewrite forallb_forall in F. specialize (F A I). rewrite forallb_forall in F. specialize (F y Hy). rewrite K in F. discriminate F.
Qed.
End Flies.
(** Aircraft models, phases and missions set up, whatever the profile, and a converged mission is one flight (C88). *)
Theorem C94_flies kt kp T es g s z D X n A o : method_size Simpson n -> is_inverse (n - 1) simpson_a X -> valid_profile o ->
  let tri := method_tri Simpson n X in In A (winged_fleet T es g s z D tri) ->
  (forall p, Model_Net.setup (ac_model A n p) = Ok (ac_model A n p)) /\
  (forall p k, In (p, k) (profile_phases o) -> Model_Net.setup (phase_group kt kp tri n A p k) = Ok (phase_group kt kp tri n A p k)) /\
  exists G, mission_group kt kp tri n A o = Ok G /\ forall V, solution G V -> exists W, one_flight kt kp tri n A o V W.
Proof.
  intros MS HX Hv tri I. destruct (winged_missions kt kp T es g s z D tri n A o I Hv) as [HM HN]. destruct (winged_phases kt kp T es g s z D tri n A I) as [HP HA].
  destruct (named_users A o HN) as [HU HQ]. destruct (mission_sets_up_ok _ _ _ _ _ _ HM Hv) as (cs & _ & E). destruct (winged_clean T es g s z D tri A I) as [HD HO].
  split; [intro p; exact (sets_up_ok _ (HA p))|]. split; [intros p k Hp; apply sets_up_ok, HP; now apply phases_all in Hp|].
  eexists. split; [exact E|]. intros V HV. exact (C88_one_flight kt kp X n A o _ V HD HO MS HX Hv HU HQ E HV).
Qed.
Print Assumptions C94_flies.

(** ** Every phase *)
Ltac in_subs := cbn [g_subs winged In]; tauto.
Lemma winged_engines drag weigh D tri n U : solution (winged drag weigh D tri n) U -> two_engines D n U.
Proof.
  intro S. constructor.
  - intros i Hi. pose proof (sol_comp _ U n "doubler" doubler _ _ "fuel_flow" _ _ i S ltac:(in_subs) eq_refl Hi) as E1.
    destruct (sol_rel _ U (CFM56 D n "propmodel" [P "fltcond|*"; P "throttle"] []) S ltac:(in_subs) i Hi) as (_ & C2 & _).
    change (U "fuel_flow" i = 2 * U "propmodel.fuel_flow" i) in E1.
    change (U "propmodel.fuel_flow" i = dk_fuel D (U "throttle" i) (U "fltcond|h" i) (U "fltcond|M" i)) in C2. now rewrite C2 in E1.
  - intros i Hi. pose proof (sol_comp _ U n "doubler" doubler _ _ "thrust" _ _ i S ltac:(in_subs) eq_refl Hi) as E1.
    destruct (sol_rel _ U (CFM56 D n "propmodel" [P "fltcond|*"; P "throttle"] []) S ltac:(in_subs) i Hi) as (C1 & _).
    change (U "thrust" i = 2 * U "propmodel.thrust" i) in E1.
    change (U "propmodel.thrust" i = dk_thrust D (U "throttle" i) (U "fltcond|h" i) (U "fltcond|M" i)) in C1. now rewrite C1 in E1.
  - exact (sol_comp _ U n "OEW" passthru _ _ "OEW" _ _ 0%nat S ltac:(in_subs) eq_refl Nat.lt_0_1).
Qed.
Lemma winged_fuel drag weigh D X n U : method_size Simpson n -> is_inverse (n - 1) simpson_a X -> solution (winged drag weigh D (method_tri Simpson n X) n) U ->
  evolves n (U "ode_integ.duration" 0%nat) (U "fuel_used_initial" 0%nat) (U "fuel_flow") (U "fuel_used") /\ U "fuel_used_final" 0%nat = U "fuel_used" (n - 1)%nat.
Proof.
  intros MS HX S. apply (burn _ U n X "ode_integ" [P "fuel_used_initial"] [P "fuel_used"; P "fuel_used_final"]) with (1 := MS) (2 := HX) (3 := S); try reflexivity. in_subs.
Qed.
Definition seen_list : list string :=
  ["weight"; "fuel_used"; "fuel_used_initial"; "fuel_used_final"; "fuel_flow"; "ac|weights|MTOW"; "thrust"; "throttle"; "fltcond|h"; "fltcond|M"; "fltcond|q"; "fltcond|CL"; "OEW"; "ac|weights|OEW";
   "drag"; "ac|geom|wing|S_ref"; "ac|geom|wing|AR"; "ac|geom|wing|taper"; "ac|geom|wing|c4sweep"; "ac|geom|wing|twist"; "ac|aero|CD_nonwing"; "drag.alpha_bal.alpha"; "drag.fltcond|TempIncrement"].
Definition vlm_seen : list string := ["drag.ac|geom|wing|OAS_mesh"; "drag.twisted_mesh"; "drag.t_over_c_interp.panel_toverc"].
Definition struct_seen : list string :=
  ["ac|geom|wing|toverc"; "ac|geom|wing|skin_thickness"; "ac|geom|wing|spar_thickness"; "ac|weights|W_wing"; "ac|weights|orig_W_wing"; "ac|struct|failure"].
Definition view (l : list string) (A : aircraft) (n : nat) (p : string) : bool :=
  forallb (fun x => ac_sees (ac_times A) (ac_model A n p) x x) l && ac_sees (ac_times A) (ac_model A n p) "ode_integ.duration" "duration".
Lemma winged_seen kt kp tri n A p k W l : view l A n (told p k) = true -> solution (phase_group kt kp tri n A p k) W ->
  exists U, solution (ac_model A n (told p k)) U /\ (forall x, mem x l = true -> U x = W x) /\ U "ode_integ.duration" = W "duration".
Proof.
  unfold view. intros H S. apply andb_prop in H. destruct H as [H1 H2]. rewrite forallb_forall in H1.
  destruct (acmodel_in _ _ _ _ _ _ _ _ S) as (U & SU & SEE). exists U. split; [exact SU|]. split.
  - intros x Hx. extensionality i. apply SEE, H1. now apply mem_In.
  - extensionality i. now apply SEE.
Qed.
Lemma vlm_view T es g s D tri n p : view (seen_list ++ vlm_seen) (VLMAirliner T es g s D tri) n p = true.
Proof. vm_cast_no_check (eq_refl true). Qed.
Lemma struct_view T es z g D tri n p : view (seen_list ++ struct_seen) (StructAirliner T es z g D tri) n p = true.
Proof. vm_cast_no_check (eq_refl true). Qed.
Ltac look SEE U K := repeat match type of K with context [U ?x] => rewrite (SEE x eq_refl) in K end.
Lemma engines_seen D n U W l : (forall x, mem x l = true -> U x = W x) -> forallb (fun x => mem x l) seen_list = true -> two_engines D n U -> two_engines D n W.
Proof.
  intros SEE H [E1 E2 E3]. rewrite forallb_forall in H. assert (Q : forall x, mem x seen_list = true -> U x = W x) by (intros x Hx; apply SEE, H; now apply mem_In). look Q U E1. look Q U E2. look Q U E3. now constructor.
Qed.
Lemma fuel_seen n U W l : (forall x, mem x l = true -> U x = W x) -> forallb (fun x => mem x l) seen_list = true -> U "ode_integ.duration" = W "duration" ->
  evolves n (U "ode_integ.duration" 0%nat) (U "fuel_used_initial" 0%nat) (U "fuel_flow") (U "fuel_used") /\ U "fuel_used_final" 0%nat = U "fuel_used" (n - 1)%nat -> fuel_account n W.
Proof.
  intros SEE H ED [E1 E2]. rewrite forallb_forall in H. assert (Q : forall x, mem x seen_list = true -> U x = W x) by (intros x Hx; apply SEE, H; now apply mem_In).
  rewrite ED in E1. look Q U E1. look Q U E2. now constructor.
Qed.
Lemma usable_same g sv o es x y : same_inputs g o x y -> usable g sv o es y -> usable g sv o es x.
Proof.
  intros S (U1 & U2 & U3). split; [exact U1|]. split; [intro C; apply U2; exact (proj1 (close_same _ _ _ _ _ S) C)|].
  intros q Hq C. apply (U3 q Hq). exact (proj1 (close_same _ _ _ _ _ S) C).
Qed.
Lemma same_trans g o x y w : same_inputs g o x y -> same_inputs g o y w -> same_inputs g o x w.
Proof. intros S S' k m i I Hi. rewrite (S k m i I Hi). exact (S' k m i I Hi). Qed.
Ltac inside SE SEE own := match goal with |- _ ?x ?i = _ =>
  let e := eval vm_compute in (if in_list x own then x else if String.eqb x "failure" then "ac|struct|failure" else String.append "drag." x) in
  rewrite (SE x e i ltac:(vm_compute; reflexivity)); rewrite (SEE e eq_refl); reflexivity end.
(** The airliner of B738_VLM_drag.py in every phase: fuel and weight, engines, drag. *)
Theorem C94_vlm_phase kt kp T es g s D n X p k W : method_size Simpson n -> is_inverse (n - 1) simpson_a X ->
  let tri := method_tri Simpson n X in solution (phase_group kt kp tri n (VLMAirliner T es g s D tri) p k) W ->
  fuel_account n W /\ (forall i, (i < n)%nat -> W "weight" i = W "ac|weights|MTOW" 0%nat - W "fuel_used" i) /\ two_engines D n W /\
  vlm_drag T (es (told p k)) (vlm_polar n g s) n W.
Proof.
  intros MS HX tri S. destruct (winged_seen kt kp tri n _ p k W _ (vlm_view T es g s D tri n (told p k)) S) as (U & SU & SEE & ED). clear S. set (q := told p k) in *.
  cbn [VLMAirliner ac_model] in SU. unfold VLMModel in SU.
  split; [eapply (fuel_seen n U W _ SEE eq_refl ED); exact (winged_fuel _ _ _ _ _ _ MS HX SU)|].
  split. { intros i Hi. assert (E : U "weight" i = U "ac|weights|MTOW" 0%nat - U "fuel_used" i) by (refine (weigh _ U n [P "*"] _ _ _ i SU _ Hi _ _ _); try reflexivity; in_subs). look SEE U E. exact E. }
  split; [eapply (engines_seen D n U W _ SEE eq_refl); exact (winged_engines _ _ _ _ _ _ SU)|].
  unfold vlm_drag. set (pol := vlm_polar n g s) in *. intros UA.
  destruct (subgroup_in _ U "drag" _ (map P wing_inputs) [P "drag"] SU ltac:(in_subs)) as (Z & SZ & SE).
  set (F := in_drag shared W) in *.
  assert (ZF : forall x, In x (shared ++ ["alpha_bal.alpha"; "fltcond|TempIncrement"; "twisted_mesh"; "t_over_c_interp.panel_toverc"]) -> Z x = F x).
  { intros x Hx. cbn [app shared In] in Hx. extensionality i. repeat (destruct Hx as [<-|Hx]; [inside SE SEE shared|]). destruct Hx. }
  assert (SI : same_inputs VLMData (vlm_options pol) (wing pol Z) (wing pol F)).
  { intros x m i I _. cbn [design In] in I. unfold wing. cbn [pol vlm_polar v_geo].
    repeat (destruct I as [[= <- _]|I]; [cbn [String.eqb Ascii.eqb Bool.eqb]; rewrite ZF by (cbn; tauto); reflexivity|]). destruct I. }
  destruct (C81_vlm_drag T (es q) pol (vlm_group T (es q) pol [6%nat] (gr_Mach g) (gr_alpha g) (gr_alt g)) Z eq_refl SZ (usable_same _ _ _ _ _ _ SI UA)) as (x0 & CLt & CDt & C0 & I0 & TL & TD & Q).
  exists x0, CLt, CDt. split; [exact (proj1 (close_same _ _ _ _ _ SI) C0)|].
  split; [destruct I0 as [I0|I0]; [left; exact (same_trans _ _ _ _ _ I0 SI)|now right]|]. split; [exact TL|]. split; [exact TD|].
  intros i Hi. specialize (Q i Hi). cbv zeta in Q |- *. cbn [pol vlm_polar v_vec] in Q.
  rewrite !(ZF "fltcond|M"), !(ZF "fltcond|h"), !(ZF "alpha_bal.alpha"), !(ZF "fltcond|CL"), !(ZF "drag"), !(ZF "fltcond|q"), !(ZF "ac|geom|wing|S_ref"), !(ZF "ac|aero|CD_nonwing") in Q by (cbn; tauto).
  exact Q.
Qed.
Print Assumptions C94_vlm_phase.

(** The mesh of the polar is that of the wing the phase flies with, turned by the spline of its twist. *)
Theorem C94_vlm_wing kt kp T es g s D tri n p k W : solution (phase_group kt kp tri n (VLMAirliner T es g s D tri) p k) W ->
  let S_ref := W "ac|geom|wing|S_ref" 0%nat in let AR := W "ac|geom|wing|AR" 0%nat in let taper := W "ac|geom|wing|taper" 0%nat in let sweep := W "ac|geom|wing|c4sweep" 0%nat in
  0 < S_ref -> 0 < AR -> 0 <= taper -> cos (sweep * PI / 180) <> 0 ->
  let m := as_mesh 7 (W "drag.ac|geom|wing|OAS_mesh") in
  planform m 3 7 = S_ref /\ streamwise_columns m 3 7 /\ (let span := 2 * (py m 0 6 - py m 0 0) in py m 0 6 = 0 /\ 0 < span /\ span ^ 2 / S_ref = AR) /\
  chord m 3 0 = taper * chord m 3 6 /\ (forall j, (j < 7)%nat -> quarter m 3 j = tan (sweep * PI / 180) * - py m 0 j) /\
  (forall ix j d, (ix < 3)%nat -> (j < 7)%nat -> (d < 3)%nat ->
     exists tw, (forall j', (j' < 7)%nat -> tw j' = t_spline T 3 7 (W "ac|geom|wing|twist") j') /\ as_mesh 7 (W "drag.twisted_mesh") ix j d = t_rotate T 3 7 m tw ix j d).
Proof.
  intro S. destruct (winged_seen kt kp tri n _ p k W _ (vlm_view T es g s D tri n (told p k)) S) as (U & SU & SEE & _). clear S. set (q := told p k) in *.
  cbn [VLMAirliner ac_model] in SU. unfold VLMModel in SU.
  destruct (subgroup_in _ U "drag" _ (map P wing_inputs) [P "drag"] SU ltac:(in_subs)) as (Z & SZ & SE).
  assert (ZF : forall x, In x (shared ++ ["ac|geom|wing|OAS_mesh"; "twisted_mesh"]) -> Z x = in_drag shared W x).
  { intros x Hx. cbn [app shared In] in Hx. extensionality i. repeat (destruct Hx as [<-|Hx]; [inside SE SEE shared|]). destruct Hx. }
  pose proof (C81_trapezoid T (es q) (vlm_polar n g s) (vlm_group T (es q) (vlm_polar n g s) [6%nat] (gr_Mach g) (gr_alpha g) (gr_alt g)) Z 6%nat eq_refl SZ eq_refl eq_refl ltac:(cbn; lia) ltac:(lia)) as Q.
  cbv zeta in Q |- *. rewrite !(ZF "ac|geom|wing|S_ref"), !(ZF "ac|geom|wing|AR"), !(ZF "ac|geom|wing|taper"), !(ZF "ac|geom|wing|c4sweep"), !(ZF "ac|geom|wing|twist"), !(ZF "ac|geom|wing|OAS_mesh"), !(ZF "twisted_mesh") in Q by (cbn; tauto).
  exact Q.
Qed.
Print Assumptions C94_vlm_wing.

Lemma winged_weight_value n E i : (i < n)%nat ->
  add_compute (winged_weight n) E i = Ok (E "ac|weights|MTOW" 0%nat - E "fuel_used" i - E "ac|weights|orig_W_wing" 0%nat + E "ac|weights|W_wing" 0%nat).
Proof.
  intro H. unfold add_compute, winged_weight, add_resolve. cbn [as_ins as_sf as_vec as_len List.length repeat read_sizes Nat.eqb negb res_bind fst snd forallb].
  replace (list_max [1%nat; n; 1%nat; 1%nat]) with n by (change (n = Nat.max 1 (Nat.max n 1)); lia). rewrite fits_refl.
  cbn [fits Nat.eqb orb andb negb combine res_bind fold_left fst snd]. rewrite (bidx_row n i H). unfold bidx. cbn [Nat.eqb].
  rewrite !Nat.mod_1_r. f_equal. ring.
Qed.
(** The airliner of B738_aerostructural.py in every phase. *)
Theorem C94_struct_phase kt kp T es z g D n X p k W : method_size Simpson n -> is_inverse (n - 1) simpson_a X ->
  let tri := method_tri Simpson n X in solution (phase_group kt kp tri n (StructAirliner T es z g D tri) p k) W ->
  fuel_account n W /\ with_wing n W /\ two_engines D n W /\ struct_drag T (es (told p k)) (trained z g) n W.
Proof.
  intros MS HX tri S. destruct (winged_seen kt kp tri n _ p k W _ (struct_view T es z g D tri n (told p k)) S) as (U & SU & SEE & ED). clear S. set (q := told p k) in *.
  cbn [StructAirliner ac_model] in SU. unfold StructModel in SU.
  split; [eapply (fuel_seen n U W _ SEE eq_refl ED); exact (winged_fuel _ _ _ _ _ _ MS HX SU)|].
  split. { intros i Hi. pose proof (sol_rel _ U _ SU ltac:(do 5 right; left; reflexivity) i Hi) as E. rewrite winged_weight_value in E by exact Hi. injection E as E.
    change (U "ac|weights|MTOW" 0%nat - U "fuel_used" i - U "ac|weights|orig_W_wing" 0%nat + U "ac|weights|W_wing" 0%nat = U "weight" i) in E. look SEE U E. lra. }
  split; [eapply (engines_seen D n U W _ SEE eq_refl); exact (winged_engines _ _ _ _ _ _ SU)|].
  unfold struct_drag. set (o := trained z g) in *. intros UA.
  destruct (subgroup_in _ U "drag" _ _ _ SU ltac:(do 3 right; left; reflexivity)) as (Z & SZ & SE).
  set (F := in_drag (shared ++ shared_box) W) in *.
  assert (ZF : forall x, In x (shared ++ shared_box ++ ["alpha_bal.alpha"; "fltcond|TempIncrement"; "failure"]) -> Z x = F x).
  { intros x Hx. cbn [app shared shared_box In] in Hx. extensionality i.
    repeat (destruct Hx as [<-|Hx]; [inside SE SEE (shared ++ shared_box)|]). destruct Hx. }
  assert (SI : same_inputs OASData o Z F).
  { intros x m i I _. cbn [design In] in I. repeat (destruct I as [[= <- _]|I]; [rewrite ZF by (cbn; tauto); reflexivity|]). destruct I. }
  assert (TP : positive_tol OASData o) by (intros _; cbn; apply Rinv_0_lt_compat; lra).
  destruct (C81_aerostruct_drag T (es q) n o (aerostruct_group T (es q) n o (gr_Mach g) (gr_alpha g) (gr_alt g)) Z eq_refl SZ TP (usable_same _ _ _ _ _ _ SI UA))
    as (x0 & CLt & CDt & Ft & C0 & I0 & TL & TD & TF & WW & Q).
  rewrite (ZF "ac|aero|CD_nonwing") in TD by (cbn; tauto). rewrite (ZF "ac|weights|W_wing") in WW by (cbn; tauto).
  exists x0, CLt, CDt, Ft. split; [exact (proj1 (close_same _ _ _ _ _ SI) C0)|].
  split; [destruct I0 as [I0|I0]; [left; exact (same_trans _ _ _ _ _ I0 SI)|now right]|]. split; [exact TL|]. split; [exact TD|]. split; [exact TF|]. split; [exact WW|].
  intros i Hi. specialize (Q i Hi). cbv zeta in Q |- *.
  rewrite !(ZF "fltcond|M"), !(ZF "fltcond|h"), !(ZF "alpha_bal.alpha"), !(ZF "fltcond|CL"), !(ZF "drag"), !(ZF "fltcond|q"), !(ZF "ac|geom|wing|S_ref"), !(ZF "failure") in Q by (cbn; tauto).
  exact Q.
Qed.
Print Assumptions C94_struct_phase.

(** ** The mission *)
Definition mission_inputs : list string := ["ac|weights|MTOW"; "ac|geom|wing|S_ref"; "ac|geom|wing|AR"; "ac|geom|wing|taper"; "ac|geom|wing|c4sweep"; "ac|geom|wing|twist"; "ac|aero|CD_nonwing"].
Lemma winged_takes kt kp T es g s z D tri n A x : In A (winged_fleet T es g s z D tri) -> In x mission_inputs -> takes x A kt kp tri n = true.
Proof.
  intros I. revert x. assert (K : forallb (fun A => forallb (fun x => takes x A kt kp tri n) mission_inputs) (winged_fleet T es g s z D tri) = true) by (vm_cast_no_check (eq_refl true)).
  rewrite forallb_forall in K. specialize (K A I). now rewrite forallb_forall in K.
Qed.
Lemma struct_takes kt kp T es z g D tri n x : In x ("ac|weights|orig_W_wing" :: box_inputs) -> takes x (StructAirliner T es z g D tri) kt kp tri n = true.
Proof. revert x. apply forallb_forall. vm_cast_no_check (eq_refl true). Qed.
Lemma spent_evolved n W : (1 <= n)%nat -> fuel_account n W -> W "fuel_used" 0%nat = W "fuel_used_initial" 0%nat /\ W "fuel_used" (n - 1)%nat = W "fuel_used" 0%nat + fuel_spent n W.
Proof.
  intros Hn [B _]. pose proof (evolves_first _ _ _ _ _ Hn B) as Z. pose proof (evolves_last _ _ _ _ _ Hn B) as L. split; [exact Z|]. unfold fuel_spent. rewrite L, Z. reflexivity.
Qed.
(** Every phase flies with the wing of the design; fuel and weight go on from phase to phase; the fuel burned is what the airliner gets lighter by. *)
Theorem C94_vlm_mission kt kp T es g s D X n o V W : method_size Simpson n -> is_inverse (n - 1) simpson_a X ->
  let tri := method_tri Simpson n X in one_flight kt kp tri n (VLMAirliner T es g s D tri) o V W ->
  (forall p k x i, In (p, k) (profile_phases o) -> In x ["ac|weights|MTOW"; "ac|geom|wing|S_ref"; "ac|geom|wing|AR"; "ac|geom|wing|taper"; "ac|geom|wing|c4sweep"; "ac|geom|wing|twist"; "ac|aero|CD_nonwing"] ->
     W p x i = V x i) /\
  (forall p q, In (p, q) (flown_after o) -> W q "fuel_used" 0%nat = W p "fuel_used" (n - 1)%nat /\ W q "weight" 0%nat = W p "weight" (n - 1)%nat) /\
  W (first_phase o) "weight" 0%nat = V "ac|weights|MTOW" 0%nat - W (first_phase o) "fuel_used_initial" 0%nat /\
  W "descent" "weight" (n - 1)%nat = W (first_phase o) "weight" 0%nat - legs (fun p => fuel_spent n (W p)) (main_legs o) /\
  (pf_reserve o = true -> W "loiter" "weight" (n - 1)%nat = W "descent" "weight" (n - 1)%nat - legs (fun p => fuel_spent n (W p)) (reserve_legs o ++ ["loiter"])).
Proof.
  intros MS HX tri F. assert (N1 : (n - 1 < n)%nat) by (destruct MS; lia). assert (N0 : (0 < n)%nat) by lia. assert (Hn : (1 <= n)%nat) by lia.
  assert (AI : forall p k x i, In (p, k) (profile_phases o) -> In x mission_inputs -> W p x i = V x i).
  { intros p k x i Hp Hx. apply (fl_aircraft _ _ _ _ _ _ _ _ F p k x i Hp); [|revert x Hx; apply forallb_forall; reflexivity].
    eapply takes_ok; [|exact Hp]. apply (winged_takes kt kp T es g s {| ws_x := 0; ws_y := 0; ws_twist := 0; ws_toverc := 0; ws_skin := 0; ws_spar := 0 |} D tri n); [left; reflexivity|exact Hx]. }
  split; [exact AI|].
  assert (PH : forall p, (exists k, In (p, k) (profile_phases o)) -> fuel_account n (W p) /\ (forall i, (i < n)%nat -> W p "weight" i = V "ac|weights|MTOW" 0%nat - W p "fuel_used" i)).
  { intros p [k Hp]. destruct (C94_vlm_phase kt kp T es g s D n X p k (W p) MS HX (fl_phases _ _ _ _ _ _ _ _ F p k Hp)) as (B1 & B2 & _). split; [exact B1|]. intros i Hi. rewrite (B2 i Hi), (AI p k) by (first [exact Hp|cbn; tauto]). reflexivity. }
  assert (FU : forall p q, In (p, q) (flown_after o) -> W q "fuel_used" 0%nat = W p "fuel_used" (n - 1)%nat).
  { intros p q Hpq. destruct (after_flown o p q Hpq) as [Hp Hq]. rewrite (proj1 (spent_evolved n (W q) Hn (proj1 (PH q Hq)))). rewrite <- (fa_end _ _ (proj1 (PH p Hp))).
    exact (fl_states _ _ _ _ _ _ _ _ F p q _ Hpq (or_introl eq_refl)). }
  assert (CN : forall p q, In (p, q) (flown_after o) -> W q "weight" 0%nat = W p "weight" (n - 1)%nat).
  { intros p q Hpq. destruct (after_flown o p q Hpq) as [Hp Hq]. rewrite (proj2 (PH p Hp) _ N1), (proj2 (PH q Hq) _ N0), (FU p q Hpq). reflexivity. }
  split; [intros p q Hpq; split; [exact (FU p q Hpq)|exact (CN p q Hpq)]|].
  assert (SP : forall p, (exists k, In (p, k) (profile_phases o)) -> - fuel_spent n (W p) = W p "weight" (n - 1)%nat - W p "weight" 0%nat).
  { intros p Hp. destruct (PH p Hp) as [B1 B2]. rewrite (B2 _ N1), (B2 _ N0). destruct (spent_evolved n (W p) Hn B1) as [_ E]. rewrite E. ring. }
  assert (OP : forall l, legs (fun p => fuel_spent n (W p)) l = - legs (fun p => - fuel_spent n (W p)) l) by (induction l as [|a l IH]; [cbn; ring|unfold legs in *; cbn [fold_right]; rewrite IH; ring]).
  split; [|split].
  - destruct (PH _ (first_flown o)) as [B1 B2]. rewrite (B2 _ N0), (proj1 (spent_evolved n _ Hn B1)). reflexivity.
  - rewrite OP, (legs_total _ (fun p => W p "weight" 0%nat) (fun p => W p "weight" (n - 1)%nat)).
    + rewrite (main_chain o _ _ CN). ring.
    + intros p Hp. exact (SP p (main_flown o p Hp)).
  - intro R. rewrite OP, (legs_total _ (fun p => W p "weight" 0%nat) (fun p => W p "weight" (n - 1)%nat)).
    + rewrite (reserve_chain o _ _ R CN). ring.
    + intros p Hp. exact (SP p (reserve_legs_flown o p R Hp)).
Qed.
Print Assumptions C94_vlm_mission.
(** The weight of the wing is computed in every phase anew: what the airliner weighs without it goes on from phase to phase. *)
Theorem C94_struct_mission kt kp T es z g D X n o V W : method_size Simpson n -> is_inverse (n - 1) simpson_a X ->
  let tri := method_tri Simpson n X in one_flight kt kp tri n (StructAirliner T es z g D tri) o V W ->
  let wing p := W p "ac|weights|W_wing" 0%nat in
  (forall p k x i, In (p, k) (profile_phases o) -> In x ["ac|weights|MTOW"; "ac|weights|orig_W_wing"; "ac|geom|wing|S_ref"; "ac|geom|wing|AR"; "ac|geom|wing|taper"; "ac|geom|wing|c4sweep"; "ac|geom|wing|twist";
     "ac|geom|wing|toverc"; "ac|geom|wing|skin_thickness"; "ac|geom|wing|spar_thickness"; "ac|aero|CD_nonwing"] -> W p x i = V x i) /\
  (forall p q, In (p, q) (flown_after o) -> W q "fuel_used" 0%nat = W p "fuel_used" (n - 1)%nat /\ W q "weight" 0%nat - wing q = W p "weight" (n - 1)%nat - wing p) /\
  W (first_phase o) "weight" 0%nat = V "ac|weights|MTOW" 0%nat - V "ac|weights|orig_W_wing" 0%nat + wing (first_phase o) - W (first_phase o) "fuel_used_initial" 0%nat /\
  W "descent" "weight" (n - 1)%nat - wing "descent" = W (first_phase o) "weight" 0%nat - wing (first_phase o) - legs (fun p => fuel_spent n (W p)) (main_legs o) /\
  (pf_reserve o = true -> W "loiter" "weight" (n - 1)%nat - wing "loiter" = W "descent" "weight" (n - 1)%nat - wing "descent" - legs (fun p => fuel_spent n (W p)) (reserve_legs o ++ ["loiter"])).
Proof.
  intros MS HX tri F wing. assert (N1 : (n - 1 < n)%nat) by (destruct MS; lia). assert (N0 : (0 < n)%nat) by lia. assert (Hn : (1 <= n)%nat) by lia.
  assert (AI : forall p k x i, In (p, k) (profile_phases o) -> In x (mission_inputs ++ "ac|weights|orig_W_wing" :: box_inputs) -> W p x i = V x i).
  { intros p k x i Hp Hx. apply (fl_aircraft _ _ _ _ _ _ _ _ F p k x i Hp); [|revert x Hx; apply forallb_forall; reflexivity].
    eapply takes_ok; [|exact Hp]. apply in_app_or in Hx. destruct Hx as [Hx|Hx]; [|now apply struct_takes].
    apply (winged_takes kt kp T es g [] z D tri n); [right; left; reflexivity|exact Hx]. }
  split. { intros p k x i Hp Hx. apply (AI p k x i Hp). revert Hx. cbn [app mission_inputs box_inputs In]. tauto. }
  assert (PH : forall p, (exists k, In (p, k) (profile_phases o)) -> fuel_account n (W p) /\
     (forall i, (i < n)%nat -> W p "weight" i - wing p = V "ac|weights|MTOW" 0%nat - V "ac|weights|orig_W_wing" 0%nat - W p "fuel_used" i)).
  { intros p [k Hp]. destruct (C94_struct_phase kt kp T es z g D n X p k (W p) MS HX (fl_phases _ _ _ _ _ _ _ _ F p k Hp)) as (B1 & B2 & _). split; [exact B1|].
    intros i Hi. rewrite (B2 i Hi), !(AI p k) by (first [exact Hp|cbn; tauto]). unfold wing. ring. }
  assert (FU : forall p q, In (p, q) (flown_after o) -> W q "fuel_used" 0%nat = W p "fuel_used" (n - 1)%nat).
  { intros p q Hpq. destruct (after_flown o p q Hpq) as [Hp Hq]. rewrite (proj1 (spent_evolved n (W q) Hn (proj1 (PH q Hq)))). rewrite <- (fa_end _ _ (proj1 (PH p Hp))).
    exact (fl_states _ _ _ _ _ _ _ _ F p q _ Hpq (or_introl eq_refl)). }
  assert (CN : forall p q, In (p, q) (flown_after o) -> W q "weight" 0%nat - wing q = W p "weight" (n - 1)%nat - wing p).
  { intros p q Hpq. destruct (after_flown o p q Hpq) as [Hp Hq]. rewrite (proj2 (PH p Hp) _ N1), (proj2 (PH q Hq) _ N0), (FU p q Hpq). reflexivity. }
  split; [intros p q Hpq; split; [exact (FU p q Hpq)|exact (CN p q Hpq)]|].
  assert (SP : forall p, (exists k, In (p, k) (profile_phases o)) -> - fuel_spent n (W p) = (W p "weight" (n - 1)%nat - wing p) - (W p "weight" 0%nat - wing p)).
  { intros p Hp. destruct (PH p Hp) as [B1 B2]. rewrite (B2 _ N1), (B2 _ N0). destruct (spent_evolved n (W p) Hn B1) as [_ E]. rewrite E. ring. }
  assert (OP : forall l, legs (fun p => fuel_spent n (W p)) l = - legs (fun p => - fuel_spent n (W p)) l) by (induction l as [|a l IH]; [cbn; ring|unfold legs in *; cbn [fold_right]; rewrite IH; ring]).
  split; [|split].
  - destruct (PH _ (first_flown o)) as [B1 B2]. pose proof (B2 _ N0) as E. rewrite (proj1 (spent_evolved n _ Hn B1)) in E. lra.
  - rewrite OP, (legs_total _ (fun p => W p "weight" 0%nat - wing p) (fun p => W p "weight" (n - 1)%nat - wing p)).
    + rewrite (main_chain o _ _ CN). ring.
    + intros p Hp. exact (SP p (main_flown o p Hp)).
  - intro R. rewrite OP, (legs_total _ (fun p => W p "weight" 0%nat - wing p) (fun p => W p "weight" (n - 1)%nat - wing p)).
    + rewrite (reserve_chain o _ _ R CN). ring.
    + intros p Hp. exact (SP p (reserve_legs_flown o p R Hp)).
Qed.
Print Assumptions C94_struct_mission.

(** ** The maneuver the wing is sized for *)
Definition basic_mission : profile := {| pf_takeoff := false; pf_reserve := false; pf_ground_roll := false; pf_transition := Ode |}.
Definition analysis_ok kt kp T A es z g D tri n : bool :=
  let P_ := StructAirliner T es z g D tri in
  match mission (tableO P_ basic_mission) (tableI P_ basic_mission) "" (fun _ => ac_states P_) basic_mission with
  | Ok cs => let G := {| g_subs := mission_subs kt kp tri n P_ basic_mission; g_conns := some_pairs cs |} in
      quick_sets_up (StructAnalysis T A kt kp z G) && forallb (fun x => mem x (free_ins G)) (mission_inputs ++ "ac|weights|orig_W_wing" :: box_inputs) && mem "climb.ac|weights|W_wing" (group_outs G)
  | Err _ => false
  end.
(** The mission is flown, and the maneuver is analysed, with the same wing; at the angle of attack found the wing carries the load factor times
    the weight of the airliner at takeoff with the wing the climb was flown with. *)
Theorem C94_maneuver kt kp T A es z g D X n : method_size Simpson n -> is_inverse (n - 1) simpson_a X ->
  let tri := method_tri Simpson n X in let B := StructAirliner T es z g D tri in
  exists G, mission_group kt kp tri n B basic_mission = Ok G /\ Model_Net.setup (StructAnalysis T A kt kp z G) = Ok (StructAnalysis T A kt kp z G) /\
  forall V, solution (StructAnalysis T A kt kp z G) V -> exists V' W Z, one_flight kt kp tri n B basic_mission V' W /\ solution (Aerostruct T A kt kp (maneuver_wing z)) Z /\
    (forall x, In x wing_design -> Z x = V x /\ forall p k i, In (p, k) (profile_phases basic_mission) -> W p x i = V x i) /\
    Z "load_factor" 0%nat = V "load_factor" 0%nat /\ V "2_5g_KS_failure" 0%nat = Z "failure" 0%nat /\
    1/2 * Z "density.fltcond|rho" 0%nat * (Z "airspeed.Utrue" 0%nat) ^ 2 * V "ac|geom|wing|S_ref" 0%nat * Z "fltcond|CL" 0%nat =
      V "load_factor" 0%nat * (V "ac|weights|MTOW" 0%nat - V "kg_to_N.orig_W_wing" 0%nat + W "climb" "ac|weights|W_wing" 0%nat) * V "kg_to_N.a" 0%nat.
Proof.
  intros MS HX tri B. assert (OK : analysis_ok kt kp T A es z g D tri n = true) by (vm_cast_no_check (eq_refl true)).
  assert (I : In B (winged_fleet T es g [] z D tri)) by (right; left; reflexivity). assert (Hv : valid_profile basic_mission) by discriminate.
  destruct (winged_missions kt kp T es g [] z D tri n B basic_mission I Hv) as [HM HN]. destruct (mission_sets_up_ok _ _ _ _ _ _ HM Hv) as (cs & Ec & EG).
  unfold analysis_ok in OK. fold B in OK. cbv zeta in OK. rewrite Ec in OK. set (G := {| g_subs := mission_subs kt kp tri n B basic_mission; g_conns := some_pairs cs |}) in *.
  apply andb_prop in OK. destruct OK as [OK O3]. apply andb_prop in OK. destruct OK as [O1 O2]. rewrite forallb_forall in O2. apply mem_In in O3.
  exists G. split; [exact EG|]. split; [apply sets_up_ok, quick_sets_up_ok, O1|]. intros V HV.
  destruct (C94_flies kt kp T es g [] z D X n B basic_mission MS HX Hv I) as (_ & _ & G' & EG' & HG'). fold tri in EG', HG'. rewrite EG in EG'. injection EG' as <-.
  set (H := StructAnalysis T A kt kp z G) in *.
  destruct (HV (subgroup "analysis" G [P "*"] [P "*"])) as (V' & S' & HIn & HOut); [right; left; reflexivity|].
  assert (VI : forall x i, In x (mission_inputs ++ "ac|weights|orig_W_wing" :: box_inputs) -> V' x i = V x i).
  { intros x i Hx. rewrite (HIn x i) by (apply mem_In, O2, Hx). unfold reads. cbn [subgroup nested gs_name gs_pin]. rewrite gname_star.
    assert (SR : forallb (fun x => String.eqb (source H x) x) (mission_inputs ++ "ac|weights|orig_W_wing" :: box_inputs) = true) by reflexivity.
    rewrite forallb_forall in SR. specialize (SR x Hx). apply String.eqb_eq in SR. now rewrite SR. }
  destruct (HG' V' S') as [W F].
  destruct (subgroup_in H V "aerostructural_maneuver" (Aerostruct T A kt kp (maneuver_wing z)) _ _ HV ltac:(do 2 right; left; reflexivity)) as (Z & SZ & SE).
  exists V', W, Z. split; [exact F|]. split; [exact SZ|].
  destruct (C94_struct_mission kt kp T es z g D X n basic_mission V' W MS HX F) as (AI & _).
  assert (SV : forall x y, sub_sees H "aerostructural_maneuver" (Aerostruct T A kt kp (maneuver_wing z))
      (map P ["ac|geom|wing|S_ref"; "ac|geom|wing|AR"; "ac|geom|wing|taper"; "ac|geom|wing|c4sweep"; "ac|geom|wing|toverc"; "ac|geom|wing|skin_thickness"; "ac|geom|wing|spar_thickness";
          "ac|geom|wing|twist"; "load_factor"]) [As "failure" "2_5g_KS_failure"] x y = true -> Z x = V y) by (intros x y E; extensionality i; exact (SE x y i E)).
  split. { intros x Hx. split.
    - cbn [wing_design In] in Hx. repeat (destruct Hx as [<-|Hx]; [apply SV; vm_compute; reflexivity|]). destruct Hx.
    - intros p k i Hp. rewrite <- VI by (revert Hx; cbn [wing_design mission_inputs box_inputs app In]; tauto). apply (AI p k x i Hp). revert Hx. cbn [wing_design In]. tauto. }
  rewrite (SV "load_factor" "load_factor" ltac:(vm_compute; reflexivity)), (SV "failure" "2_5g_KS_failure" ltac:(vm_compute; reflexivity)). split; [reflexivity|]. split; [reflexivity|].
  rewrite (SV "density.fltcond|rho" "aerostructural_maneuver.density.fltcond|rho" ltac:(vm_compute; reflexivity)),
    (SV "airspeed.Utrue" "aerostructural_maneuver.airspeed.Utrue" ltac:(vm_compute; reflexivity)), (SV "fltcond|CL" "aerostructural_maneuver.fltcond|CL" ltac:(vm_compute; reflexivity)).
  pose proof (sol_comp H V 1 "dyn_pressure" DynamicPressureComp _ _ "fltcond|q" _ _ 0%nat HV ltac:(do 3 right; left; reflexivity) eq_refl Nat.lt_0_1) as E1.
  pose proof (sol_comp H V 1 "lift" Lift _ _ "lift" _ _ 0%nat HV ltac:(do 4 right; left; reflexivity) eq_refl Nat.lt_0_1) as E2.
  pose proof (sol_comp H V 1 "kg_to_N" maneuver_lift _ _ "lift" _ _ 0%nat HV ltac:(do 5 right; left; reflexivity) eq_refl Nat.lt_0_1) as E3.
  pose proof (sol_rel H V _ HV ltac:(do 6 right; left; reflexivity) 0%nat Nat.lt_0_1) as E4.
  change (V "dyn_pressure.fltcond|q" 0%nat = 5/10 * V "aerostructural_maneuver.density.fltcond|rho" 0%nat * V "aerostructural_maneuver.airspeed.Utrue" 0%nat ^ 2) in E1.
  change (V "lift.lift" 0%nat = V "dyn_pressure.fltcond|q" 0%nat * V "ac|geom|wing|S_ref" 0%nat * V "aerostructural_maneuver.fltcond|CL" 0%nat) in E2.
  change (V "kg_to_N.lift" 0%nat = V "load_factor" 0%nat * (V "ac|weights|MTOW" 0%nat - V "kg_to_N.orig_W_wing" 0%nat + V "climb.ac|weights|W_wing" 0%nat) * V "kg_to_N.a" 0%nat) in E3.
  change (V "kg_to_N.lift" 0%nat = V "lift.lift" 0%nat) in E4.
  assert (CW : V "climb.ac|weights|W_wing" 0%nat = W "climb" "ac|weights|W_wing" 0%nat).
  { transitivity (V' "climb.ac|weights|W_wing" 0%nat).
    - rewrite (HOut "climb.ac|weights|W_wing" 0%nat O3). unfold writes. cbn [subgroup nested gs_name gs_pout]. now rewrite gname_star.
    - apply (fl_reported _ _ _ _ _ _ _ _ F "climb" SteadyP "ac|weights|W_wing" 0%nat); [cbn; tauto|apply mem_In; vm_compute; reflexivity]. }
  rewrite CW in E3. rewrite E1 in E2. rewrite E2, E3 in E4. rewrite E4. field.
Qed.
Print Assumptions C94_maneuver.
