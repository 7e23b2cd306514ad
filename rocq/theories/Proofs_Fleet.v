From Coq Require Import Reals List Bool PeanoNat String Lia Lra.
From Verif Require Import Base Py RSum Model_Algebra Model_Vectors Model_Integrals Spec_Integrals Proofs_Integrals
  Model_Atmos Model_Mission Model_Net Proofs_Net Model_Thermal Model_HX Model_Ducts Proofs_Ducts Model_HeatPipe
  Model_Systems Proofs_Systems Model_Weights Model_Flight Spec_Flight Proofs_Flight Model_Fleet Spec_Fleet.
Import ListNotations.
Open Scope R_scope.
Open Scope string_scope.
Open Scope list_scope.

(** ** The aircraft model inside a phase *)
Definition phase_targets : list string :=
  ["climbdt.fltcond|h_final"; "descentdt.fltcond|h_final"; "reserve_climbdt.fltcond|h_final"; "reserve_descentdt.fltcond|h_final";
   "ode_integ_phase.duration"; "vel_dqdt"; "flipvel.vec_in"; "fltcond|Utrue_initial"; "altitudes.end_val"].
Lemma phase_conns kt kp tri nn A p k : exists l, g_conns (phase_group kt kp tri nn A p k) = l ++ time_conns (ac_times A) /\
  forall c, In c l -> In (snd c) phase_targets.
Proof.
  assert (GC : forall q c, In c (ground_conns q) -> In (snd c) phase_targets).
  { intros q c. unfold ground_conns. destruct (String.eqb q "v1v0"); [|destruct (String.eqb q "v0v1")]; cbn [In]; intro H;
      repeat (destruct H as [<-|H]; [inlist|]); contradiction. }
  destruct k; cbn [phase_group].
  - exists (snd (setter_of p) ++ [("duration", "ode_integ_phase.duration")]). split; [cbn [SteadyFlightPhase g_conns]; now rewrite <- app_assoc|].
    intros c H. apply in_app_or in H. destruct H as [H|[<-|[]]]; [|inlist]. revert H. unfold setter_of.
    repeat (destruct (String.eqb p _); [cbn [snd In]; intro H; repeat (destruct H as [<-|H]; [inlist|]); contradiction|]). contradiction.
  - eexists. split; [reflexivity|apply GC].
  - eexists. split; [reflexivity|apply GC].
  - exists [("h_obstacle", "altitudes.end_val")]. split; [reflexivity|]. intros c [<-|[]]. inlist.
  - exists []. split; [reflexivity|]. contradiction.
Qed.
Definition seen_as (times : list string) (x y : string) : bool :=
  negb (mem x phase_targets) && (if mem x times then String.eqb y "duration" else String.eqb x y).
Lemma phase_source kt kp tri nn A p k x y : seen_as (ac_times A) x y = true -> source (phase_group kt kp tri nn A p k) x = y.
Proof.
  unfold seen_as. intro H. apply andb_prop in H. destruct H as [H1 H2]. apply negb_true_iff in H1.
  destruct (phase_conns kt kp tri nn A p k) as (l & E & HL).
  assert (NL : forall c, In c l -> snd c <> x). { intros c Hc K. specialize (HL c Hc). rewrite K in HL. apply mem_In in HL. congruence. }
  destruct (String.eqb_spec x "duration") as [->|ND].
  { assert (Y : y = "duration") by (destruct (mem "duration" (ac_times A)); apply String.eqb_eq in H2; congruence). subst y.
    apply source_free. rewrite E, map_app. intro K. apply in_app_or in K. destruct K as [K|K].
    - apply in_map_iff in K. destruct K as (c & K & Hc). exact (NL c Hc K).
    - apply time_targets in K. now destruct K. }
  destruct (mem x (ac_times A)) eqn:HT.
  - apply String.eqb_eq in H2. subst y. unfold source. rewrite E. rewrite find_app_none by (intros c Hc; apply String.eqb_neq; now apply NL).
    destruct (find (fun c => String.eqb (snd c) x) (time_conns (ac_times A))) as [c|] eqn:F.
    + apply find_some in F. destruct F as [F _]. unfold time_conns in F. apply in_map_iff in F. destruct F as (t & <- & _). reflexivity.
    + exfalso. assert (I : In ("duration", x) (time_conns (ac_times A))).
      { unfold time_conns. apply in_map_iff. exists x. split; [reflexivity|]. apply filter_In. split; [now apply mem_In|]. now apply negb_true_iff, String.eqb_neq. }
      pose proof (find_none _ _ F _ I) as K. cbn [snd] in K. rewrite String.eqb_refl in K. discriminate.
  - apply String.eqb_eq in H2. subst y. apply source_free. rewrite E, map_app. intro K. apply in_app_or in K. destruct K as [K|K].
    + apply in_map_iff in K. destruct K as (c & K & Hc). exact (NL c Hc K).
    + apply time_targets in K. destruct K as [K _]. apply mem_In in K. congruence.
Qed.
(** The flight phase the aircraft model is told. *)
Definition told (p : string) (k : pkind) : string := match k with GroundP => if String.eqb p "groundroll" then "v0v1" else p | _ => p end.
(** [x] of the aircraft model [g] is [y] of the phase. *)
Definition ac_sees (times : list string) (g : group) (x y : string) : bool :=
  (mem x (group_outs g) && String.eqb x y) || (mem x (free_ins g) && seen_as times x y).
Lemma acmodel_in kt kp tri nn A p k W : solution (phase_group kt kp tri nn A p k) W ->
  exists U, solution (ac_model A nn (told p k)) U /\
    forall x y i, ac_sees (ac_times A) (ac_model A nn (told p k)) x y = true -> U x i = W y i.
Proof.
  intro S. set (G := phase_group kt kp tri nn A p k) in *.
  assert (I : In (subgroup "acmodel" (ac_model A nn (told p k)) [P "*"] [P "*"]) (g_subs G)).
  { unfold G. destruct k; cbn [phase_group told SteadyFlightPhase GroundRollPhase RotationPhase RobustRotationPhase g_subs]; try (apply in_or_app; left); insub. }
  destruct (sol_nested _ _ _ _ _ _ _ _ S I) as (U & SU & HI & HO). exists U. split; [exact SU|]. intros x y i H.
  unfold ac_sees in H. apply orb_prop in H. destruct H as [H|H]; apply andb_prop in H; destruct H as [H1 H2]; apply mem_In in H1.
  - apply String.eqb_eq in H2. subst y. rewrite (HO x i H1), gname_star. reflexivity.
  - rewrite (HI x i H1), gname_star. unfold G. now rewrite (phase_source kt kp tri nn A p k x y H2).
Qed.
(** [x] of a subgroup [h] of [g] is [y] of [g]. *)
Definition sub_sees (g : group) (name : string) (h : group) (pin pout : list promo) (x y : string) : bool :=
  (mem x (group_outs h) && String.eqb (gname name pout x) y) || (mem x (free_ins h) && String.eqb (source g (gname name pin x)) y).
Lemma subgroup_in G U name h pin pout : solution G U -> In (subgroup name h pin pout) (g_subs G) ->
  exists S, solution h S /\ forall x y i, sub_sees G name h pin pout x y = true -> S x i = U y i.
Proof.
  intros S I. destruct (sol_nested _ _ _ _ _ _ _ _ S I) as (T & ST & HI & HO). exists T. split; [exact ST|]. intros x y i H.
  unfold sub_sees in H. apply orb_prop in H. destruct H as [H|H]; apply andb_prop in H; destruct H as [H1 H2]; apply mem_In in H1; apply String.eqb_eq in H2; subst y.
  - exact (HO x i H1).
  - exact (HI x i H1).
Qed.

(** ** Fuel *)
Lemma weight_value nn E i : (i < nn)%nat -> add_compute (weight_eq nn) E i = Ok (E "ac|weights|MTOW" 0%nat - E "fuel_used" i).
Proof.
  intro H. unfold add_compute, weight_eq, add_resolve. cbn [as_ins as_sf as_vec as_len List.length repeat read_sizes Nat.eqb negb res_bind fst snd forallb].
  replace (list_max [1%nat; nn]) with nn by (change (nn = Nat.max 1 (Nat.max nn 0)); lia). rewrite fits_refl.
  cbn [fits Nat.eqb orb andb negb combine res_bind fold_left fst snd]. rewrite (bidx_row nn i H). unfold bidx at 1. cbn [Nat.eqb].
  rewrite Nat.mod_1_r. f_equal. ring.
Qed.
Lemma weigh G U nn pin pout a b i : solution G U -> In (adder nn "weight" (weight_eq nn) pin pout) (g_subs G) -> (i < nn)%nat ->
  source G (gname "weight" pin "ac|weights|MTOW") = a -> source G (gname "weight" pin "fuel_used") = b -> gname "weight" pout "weight" = "weight" ->
  U "weight" i = U a 0%nat - U b i.
Proof.
  intros S I Hi <- <- E. pose proof (sol_rel G U _ S I i Hi) as H. rewrite weight_value in H by exact Hi.
  injection H as H. unfold writes, reads in H. cbn [adder gs_name gs_pout gs_pin as_out weight_eq] in H. rewrite E in H. now symmetry.
Qed.
Lemma burn G U n X name pin pout dur q0 rate q qf : method_size Simpson n -> is_inverse (n - 1) simpson_a X -> solution G U ->
  In (integrators n (method_tri Simpson n X) name [fuel_integ] pin pout) (g_subs G) ->
  source G (gname name pin "duration") = dur -> source G (gname name pin "fuel_used_initial") = q0 -> source G (gname name pin "fuel_flow") = rate ->
  gname name pout "fuel_used" = q -> gname name pout "fuel_used_final" = qf ->
  evolves n (U dur 0%nat) (U q0 0%nat) (U rate) (U q) /\ U qf 0%nat = U q (n - 1)%nat.
Proof.
  intros MS HX S I <- <- <- <- <-. destruct (sol_integ G U n X name [fuel_integ] pin pout fuel_integ MS HX S I (or_introl eq_refl)) as [E F].
  cbn [fuel_integ integ_std in_zero in_start in_q in_end in_rate] in E, F.
  change (String.append "fuel_used" "_initial") with "fuel_used_initial" in E, F. change (String.append "fuel_used" "_final") with "fuel_used_final" in F.
  split; [exact E|]. rewrite F. symmetry. apply evolves_last; [destruct MS; lia|exact E].
Qed.
Lemma burn_value nn E i : (i < nn)%nat -> add_compute (burn_eq nn) E i = Ok (E "ac|weights|MTOW" 0%nat - E "fuel_burn" i).
Proof.
  intro H. unfold add_compute, burn_eq, add_resolve. cbn [as_ins as_sf as_vec as_len List.length repeat read_sizes Nat.eqb negb res_bind fst snd forallb].
  replace (list_max [1%nat; nn]) with nn by (change (nn = Nat.max 1 (Nat.max nn 0)); lia). rewrite fits_refl.
  cbn [fits Nat.eqb orb andb negb combine res_bind fold_left fst snd]. rewrite (bidx_row nn i H). unfold bidx at 1. cbn [Nat.eqb].
  rewrite Nat.mod_1_r. f_equal. ring.
Qed.
(** What the aircraft model's own equations say; its time is called [dur]. *)
Definition book_eqs (n : nat) (B : fuel_book) (dur : string) (U : env) : Prop :=
  (forall i, (i < n)%nat -> U "weight" i = U (fb_mass B) 0%nat - U (fb_used B) i) /\
  evolves n (U dur 0%nat) (U (fb_start B) 0%nat) (U (fb_flow B)) (U (fb_used B)) /\ U (fb_end B) 0%nat = U (fb_used B) (n - 1)%nat.
Lemma books_intro n B dur U W (see : string -> string -> bool) : (forall x y i, see x y = true -> U x i = W y i) -> (1 <= n)%nat -> book_eqs n B dur U ->
  see "weight" "weight" && see (fb_mass B) (fb_mass B) && see (fb_flow B) (fb_flow B) && see (fb_used B) (fb_used B) &&
  see (fb_start B) (fb_start B) && see (fb_end B) (fb_end B) && see dur "duration" = true -> books n B W.
Proof.
  rewrite !andb_true_iff. intros R Hn (H1 & H2 & H3) ((((((E1 & E2) & E3) & E4) & E5) & E6) & E7). constructor.
  - intros i Hi. rewrite <- (R _ _ _ E1), <- (R _ _ _ E2), <- (R _ _ _ E4). now apply H1.
  - intros i Hi. rewrite <- (R _ _ _ E7), <- (R _ _ _ E5), <- (R _ _ _ E4). rewrite (H2 i Hi). f_equal. f_equal.
    clear - R E3. assert (EQ : forall j, U (fb_flow B) j = W (fb_flow B) j) by (intro; now apply R).
    assert (ST : forall j, strip (U (fb_flow B)) j = strip (W (fb_flow B)) j) by (intro j; unfold strip; rewrite !EQ; reflexivity).
    induction i as [|i IH]; [reflexivity|]. cbn [area]. now rewrite IH, ST.
  - rewrite <- (R _ _ _ E6), <- (R _ _ _ E4). exact H3.
Qed.
(** The example aircraft know two kinds of phases only. *)
Lemma two_kinds M D tri A n p : In A (fleet M D tri) -> ac_model A n p = ac_model A n "v0v1" \/ ac_model A n p = ac_model A n "climb".
Proof.
  intro I. cbn [fleet In] in I.
  assert (C2 : in_list p ["v0v1"; "v1v0"; "v1vr"; "rotate"] = true \/ in_list p ["v0v1"; "v1v0"; "v1vr"; "rotate"] = false) by (destruct (in_list p _); auto).
  assert (C : cd0_source p = cd0_source "v0v1" \/ cd0_source p = cd0_source "climb").
  { unfold cd0_source. destruct (in_list p _); [left|right]; reflexivity. }
  repeat (destruct I as [<-|I]; [first [left; reflexivity|
    cbn [TBM850 Caravan KingAir HybridTwin HybridTwinThermal HybridTwinActive ElectricTBM B738 SizedB738 ac_model];
    unfold TBM850Model, CaravanModel, KingAirModel, HybridTwinModel, HybridTwinThermalModel, HybridTwinActiveModel, ElectricTBMModel, B738Model, SizedModel, polar;
    first [destruct C as [->| ->]|destruct C2 as [->| ->]]; [left|right]; reflexivity]|]). contradiction.
Qed.
Lemma burner_fleet M D tri A B : In (A, B) (fuel_burners M D tri) -> In A (fleet M D tri).
Proof.
  intro I. apply (in_map fst) in I. cbn [fst fuel_burners map] in I. unfold fleet. cbn [In] in *. tauto.
Qed.
Definition book_seen (A : aircraft) (B : fuel_book) (dur : string) (n : nat) (p : string) : bool :=
  let see := ac_sees (ac_times A) (ac_model A n p) in
  see "weight" "weight" && see (fb_mass B) (fb_mass B) && see (fb_flow B) (fb_flow B) && see (fb_used B) (fb_used B) &&
  see (fb_start B) (fb_start B) && see (fb_end B) (fb_end B) && see dur "duration".
Lemma fleet_books M D n X A B p U : method_size Simpson n -> is_inverse (n - 1) simpson_a X -> In (A, B) (fuel_burners M D (method_tri Simpson n X)) ->
  solution (ac_model A n p) U -> exists dur, book_eqs n B dur U /\ book_seen A B dur n p = true.
Proof.
  intros MS HX I S. assert (Hn : (1 <= n)%nat) by (destruct MS; lia). pose proof (two_kinds M D _ A n p (burner_fleet _ _ _ _ _ I)) as K.
  unfold fuel_burners in I. cbn [In] in I. unfold book_seen.
  repeat (destruct I as [I|I]; [injection I as <- <-|]); try contradiction.
  - exists "fuel_integrator.duration". split; [|destruct K as [->| ->]; vm_compute; reflexivity].
    cbn [minimal_integrator ac_model] in S. set (G := {| g_subs := _; g_conns := _ |}) in S. split.
    + intros i Hi. exact (sol_comp G U n "weight_calc" FuelWeight _ _ "weight" _ _ i S ltac:(insub) eq_refl Hi).
    + destruct (sol_integ G U n X "fuel_integrator" _ _ _ (integ_std "fuel_burned" "fuel_flow" false) MS HX S ltac:(insub) (or_introl eq_refl)) as [E F].
      split; [exact E|]. etransitivity; [exact F|]. symmetry. exact (evolves_last _ _ _ _ _ Hn E).
  - exists "intfuel.duration". split; [|destruct K as [->| ->]; vm_compute; reflexivity]. split.
    + intros i Hi. refine (weigh _ U n [P "ac|weights|MTOW"] _ _ _ i S _ Hi _ _ _); try insub; reflexivity.
    + refine (burn _ U n X "intfuel" _ _ _ _ _ _ _ MS HX S _ _ _ _ _ _); try insub; reflexivity.
  - exists "duration". split; [|destruct K as [->| ->]; vm_compute; reflexivity]. split.
    + intros i Hi. refine (weigh _ U n [P "*"] _ _ _ i S _ Hi _ _ _); try insub; reflexivity.
    + refine (burn _ U n X "intfuel" _ _ _ _ _ _ _ MS HX S _ _ _ _ _ _); try insub; reflexivity.
  - exists "duration". split; [|destruct K as [->| ->]; vm_compute; reflexivity]. split.
    + intros i Hi. refine (weigh _ U n [P "*"] _ _ _ i S _ Hi _ _ _); try insub; reflexivity.
    + refine (burn _ U n X "intfuel" _ _ _ _ _ _ _ MS HX S _ _ _ _ _ _); try insub; reflexivity.
  - exists "duration". split; [|destruct K as [->| ->]; vm_compute; reflexivity]. split.
    + intros i Hi. refine (weigh _ U n [P "*"] _ _ _ i S _ Hi _ _ _); try insub; reflexivity.
    + refine (burn _ U n X "intfuel" _ _ _ _ _ _ _ MS HX S _ _ _ _ _ _); try insub; reflexivity.
  - exists "duration". split; [|destruct K as [->| ->]; vm_compute; reflexivity]. split.
    + intros i Hi. refine (weigh _ U n [P "*"] _ _ _ i S _ Hi _ _ _); try insub; reflexivity.
    + refine (burn _ U n X "intfuel" _ _ _ _ _ _ _ MS HX S _ _ _ _ _ _); try insub; reflexivity.
  - exists "duration". split; [|destruct K as [->| ->]; vm_compute; reflexivity]. split.
    + intros i Hi. refine (weigh _ U n [P "*"] _ _ _ i S _ Hi _ _ _); try insub; reflexivity.
    + refine (burn _ U n X "intfuel" _ _ _ _ _ _ _ MS HX S _ _ _ _ _ _); try insub; reflexivity.
  - exists "ode_integ.duration". split; [|destruct K as [->| ->]; vm_compute; reflexivity]. split.
    + intros i Hi. refine (weigh _ U n [P "*"] _ _ _ i S _ Hi _ _ _); try insub; reflexivity.
    + refine (burn _ U n X "ode_integ" _ _ _ _ _ _ _ MS HX S _ _ _ _ _ _); try insub; reflexivity.
  - exists "fuel_burn_integ.duration". split; [|destruct K as [->| ->]; vm_compute; reflexivity].
    cbn [SizedB738 ac_model] in S. split.
    + intros i Hi. pose proof (sol_rel _ U _ S (or_intror (or_intror (or_intror (or_intror (or_intror (or_intror (or_introl eq_refl))))))) i Hi) as H. rewrite burn_value in H by exact Hi.
      injection H as H. symmetry. exact H.
    + destruct (sol_integ _ U n X "fuel_burn_integ" _ _ _ burn_integ MS HX S ltac:(insub) (or_introl eq_refl)) as [E F].
      split; [exact E|]. etransitivity; [exact F|]. symmetry. exact (evolves_last _ _ _ _ _ Hn E).
Qed.
Lemma phase_books kt kp M D n X A B p k W : method_size Simpson n -> is_inverse (n - 1) simpson_a X ->
  In (A, B) (fuel_burners M D (method_tri Simpson n X)) -> solution (phase_group kt kp (method_tri Simpson n X) n A p k) W -> books n B W.
Proof.
  intros MS HX I S. destruct (acmodel_in _ _ _ _ _ _ _ _ S) as (U & SU & SEE).
  destruct (fleet_books M D n X A B _ U MS HX I SU) as (dur & E & F).
  eapply books_intro; [exact SEE|destruct MS; lia|exact E|exact F].
Qed.
