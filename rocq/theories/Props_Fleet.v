(** C89: the example aircraft keep account of their fuel and of their battery, through every mission. *)
From Coq Require Import Reals List Bool PeanoNat String Ascii Lia Lra.
From Verif Require Import Base Py RSum Model_Algebra Model_Vectors Model_Integrals Spec_Integrals Model_Atmos Proofs_Atmos Model_Aero Model_Mission Spec_Mission
  Proofs_Profiles Props_Targets Model_Net Proofs_Net Model_Thermal Model_HX Model_Ducts Proofs_Ducts Model_HeatPipe Model_Systems Spec_Systems Proofs_Systems Model_Weights
  Model_Flight Spec_Flight Proofs_Flight Proofs_Fly Proofs_FlyBurn Proofs_Trip Props_Trip Model_Fleet Spec_Fleet Proofs_Fleet Proofs_FleetFlow Proofs_FleetParts Proofs_FleetBody Proofs_FleetSetup.
Import ListNotations.
Open Scope R_scope.
Open Scope string_scope.
Open Scope list_scope.

(** ** Every mission of every example aircraft is one flight *)
(** Aircraft model, phases and mission set up, whatever the profile, and a converged mission is one flight (C88). *)
Theorem C89_flies kt kp M D X n A o : method_size Simpson n -> is_inverse (n - 1) simpson_a X -> valid_profile o ->
  let tri := method_tri Simpson n X in In A (fleet M D tri) ->
  (forall p, setup (ac_model A n p) = Ok (ac_model A n p)) /\
  (forall p k, In (p, k) (profile_phases o) -> setup (phase_group kt kp tri n A p k) = Ok (phase_group kt kp tri n A p k)) /\
  exists G, mission_group kt kp tri n A o = Ok G /\ forall V, solution G V -> exists W, one_flight kt kp tri n A o V W.
Proof.
  intros MS HX Hv tri I. destruct (fleet_missions M D kt kp tri n A o I Hv) as [HM HN]. destruct (fleet_phases M D kt kp tri n A I) as [HP HA].
  destruct (named_users A o HN) as [HU HQ]. destruct (mission_sets_up_ok _ _ _ _ _ _ HM Hv) as (cs & _ & E). destruct (fleet_clean M D tri A I) as [HD HO].
  split; [intro; apply sets_up_ok, HA|]. split; [intros p k Hp; apply sets_up_ok, HP; now apply phases_all in Hp|].
  eexists. split; [exact E|]. intros V HV. exact (C88_one_flight kt kp X n A o _ V HD HO MS HX Hv HU HQ E HV).
Qed.
Print Assumptions C89_flies.

(** ** Fuel *)
(** In every phase the weight is the takeoff weight less the fuel used, and the fuel used is the integral of the fuel flow. *)
Theorem C89_phase kt kp M D n X A B p k W : method_size Simpson n -> is_inverse (n - 1) simpson_a X ->
  In (A, B) (fuel_burners M D (method_tri Simpson n X)) -> solution (phase_group kt kp (method_tri Simpson n X) n A p k) W -> books n B W.
Proof. apply phase_books. Qed.
Print Assumptions C89_phase.

(** Values that go on from phase to phase add up. *)
Lemma main_chain (o : profile) (first last : string -> R) : (forall p q, In (p, q) (flown_after o) -> first q = last p) ->
  total first last (main_legs o) = last "descent" - first (first_phase o).
Proof.
  intro L. assert (LI : forall p q, pair_in (p, q) (flown_after o) = true -> first q = last p) by (intros p q H; apply L; now apply pair_in_iff). clear L.
  unfold main_legs, first_phase in *. destruct o as [tk rs gr tr]; cbn [pf_takeoff pf_reserve pf_ground_roll pf_transition] in *.
  destruct tk; [|destruct rs; [|destruct gr]]; cbn [negb andb app]; refine (total_chain first last _ _ _);
    intros a b Hab; apply LI; cbn in Hab; repeat (destruct Hab as [Hab|Hab]; [injection Hab as <- <-|]); try contradiction; try (destruct rs); try destruct gr; reflexivity.
Qed.
Lemma reserve_chain (o : profile) (first last : string -> R) : pf_reserve o = true -> (forall p q, In (p, q) (flown_after o) -> first q = last p) ->
  total first last (reserve_legs o ++ ["loiter"]) = last "loiter" - last "descent".
Proof.
  intros R L. assert (LI : forall p q, pair_in (p, q) (flown_after o) = true -> first q = last p) by (intros p q H; apply L; now apply pair_in_iff). clear L.
  unfold reserve_legs. rewrite R. cbn [app]. rewrite (total_chain first last "reserve_climb" ["reserve_cruise"; "reserve_descent"; "loiter"]).
  - cbn [List.last]. rewrite (LI "descent" "reserve_climb"); [reflexivity|]. destruct o as [tk rs gr tr]; cbn in R; subst; destruct tk, gr; reflexivity.
  - intros a b Hab. apply LI. destruct o as [tk rs gr tr]; cbn in R; subst. cbn in Hab.
    repeat (destruct Hab as [Hab|Hab]; [injection Hab as <- <-; destruct tk, gr; reflexivity|]). contradiction.
Qed.
Lemma main_flown o p : In p (main_legs o) -> exists k, In (p, k) (profile_phases o).
Proof.
  intro H. assert (K : In p (map fst (profile_phases o))) by (revert H; destruct o as [[] [] [] []]; cbn; tauto).
  apply in_map_iff in K. destruct K as ([q k] & E & K). cbn in E. subst q. eauto.
Qed.
Lemma reserve_legs_flown o p : pf_reserve o = true -> In p (reserve_legs o ++ ["loiter"]) -> exists k, In (p, k) (profile_phases o).
Proof.
  intros R H. assert (K : In p (map fst (profile_phases o))) by (revert R H; destruct o as [[] [] [] []]; cbn; try discriminate; tauto).
  apply in_map_iff in K. destruct K as ([q k] & E & K). cbn in E. subst q. eauto.
Qed.
Lemma after_flown o p q : In (p, q) (flown_after o) -> (exists k, In (p, k) (profile_phases o)) /\ exists k, In (q, k) (profile_phases o).
Proof.
  intro H. assert (K : In p (map fst (profile_phases o)) /\ In q (map fst (profile_phases o))).
  { revert H. destruct o as [[] [] [] []]; cbn; intro H; repeat (destruct H as [H|H]; [injection H as <- <-; tauto|]); contradiction. }
  destruct K as [K1 K2]. split; [apply in_map_iff in K1; destruct K1 as ([r k] & E & K)|apply in_map_iff in K2; destruct K2 as ([r k] & E & K)]; cbn in E; subst r; eauto.
Qed.
Lemma first_flown o : exists k, In (first_phase o, k) (profile_phases o).
Proof.
  assert (K : In (first_phase o) (map fst (profile_phases o))) by (destruct o as [[] [] [] []]; cbn; tauto).
  apply in_map_iff in K. destruct K as ([q k] & E & K). cbn in E. subst q. eauto.
Qed.
(** The state of the fuel is one of the aircraft's states. *)
Lemma burner_state M D tri A B : In (A, B) (fuel_burners M D tri) -> exists u, In u (ac_states A) /\ is_start (ps_prom u) = fb_start B /\ is_end (ps_prom u) = fb_end B.
Proof.
  intro I. assert (H : forallb (fun c => existsb (fun u => String.eqb (is_start (ps_prom u)) (fb_start (snd c)) && String.eqb (is_end (ps_prom u)) (fb_end (snd c))) (ac_states (fst c))) (fuel_burners M D tri) = true) by reflexivity.
  rewrite forallb_forall in H. specialize (H _ I). apply existsb_exists in H. destruct H as (u & Hu & E). apply andb_prop in E. destruct E as [E1 E2].
  apply String.eqb_eq in E1, E2. cbn [snd] in *. eauto.
Qed.
Lemma burner_glob M D tri A B : In (A, B) (fuel_burners M D tri) -> glob "ac|*" (fb_mass B) = true.
Proof.
  intro I. assert (H : forallb (fun c => glob "ac|*" (fb_mass (snd c))) (fuel_burners M D tri) = true) by reflexivity. rewrite forallb_forall in H. exact (H (A, B) I).
Qed.
(** The weight goes on from phase to phase; the aircraft lands lighter by what its engines burned in all phases,
    and ends the loiter lighter by what they burned in the reserve. *)
Theorem C89_mission kt kp M D X n A B o V W : method_size Simpson n -> is_inverse (n - 1) simpson_a X ->
  In (A, B) (fuel_burners M D (method_tri Simpson n X)) -> one_flight kt kp (method_tri Simpson n X) n A o V W ->
  (forall p q, In (p, q) (flown_after o) -> W q "weight" 0%nat = W p "weight" (n - 1)%nat) /\
  W (first_phase o) "weight" 0%nat = V (fb_mass B) 0%nat - W (first_phase o) (fb_start B) 0%nat /\
  W "descent" "weight" (n - 1)%nat = W (first_phase o) "weight" 0%nat - legs (fun p => burned n B (W p)) (main_legs o) /\
  (pf_reserve o = true -> W "loiter" "weight" (n - 1)%nat = W "descent" "weight" (n - 1)%nat - legs (fun p => burned n B (W p)) (reserve_legs o ++ ["loiter"])).
Proof.
  intros MS HX I F. assert (Hn : (1 <= n)%nat) by (destruct MS; lia). assert (N1 : (n - 1 < n)%nat) by lia. assert (N0 : (0 < n)%nat) by lia.
  assert (BK : forall p, (exists k, In (p, k) (profile_phases o)) -> books n B (W p) /\ W p (fb_mass B) 0%nat = V (fb_mass B) 0%nat).
  { intros p [k Hp]. split; [exact (phase_books kt kp M D n X A B p k (W p) MS HX I (fl_phases _ _ _ _ _ _ _ _ F p k Hp))|].
    apply (fl_aircraft _ _ _ _ _ _ _ _ F p k); auto; [|eapply burner_glob; eauto]. eapply takes_ok; eauto. eapply burner_takes; eauto. }
  destruct (burner_state _ _ _ _ _ I) as (u & Hu & Us & Ue).
  assert (ST : forall p q, In (p, q) (flown_after o) -> W q (fb_start B) 0%nat = W p (fb_used B) (n - 1)%nat).
  { intros p q Hpq. destruct (after_flown o p q Hpq) as [Hp Hq]. rewrite <- (bk_end _ _ _ (proj1 (BK p Hp))). rewrite <- Us, <- Ue. exact (fl_states _ _ _ _ _ _ _ _ F p q u Hpq Hu). }
  assert (WS : forall p, (exists k, In (p, k) (profile_phases o)) -> W p "weight" 0%nat = V (fb_mass B) 0%nat - W p (fb_start B) 0%nat /\
    W p "weight" (n - 1)%nat = V (fb_mass B) 0%nat - W p (fb_used B) (n - 1)%nat /\ burned n B (W p) = W p "weight" 0%nat - W p "weight" (n - 1)%nat).
  { intros p Hp. destruct (BK p Hp) as [[B1 B2 B3] E]. rewrite (B1 0%nat N0), (B1 _ N1), E, (evolves_first _ _ _ _ _ Hn B2), (evolves_last _ _ _ _ _ Hn B2). unfold burned. repeat split; ring. }
  assert (CN : forall p q, In (p, q) (flown_after o) -> W q "weight" 0%nat = W p "weight" (n - 1)%nat).
  { intros p q Hpq. destruct (after_flown o p q Hpq) as [Hp Hq]. rewrite (proj1 (WS q Hq)), (proj1 (proj2 (WS p Hp))), (ST p q Hpq). reflexivity. }
  assert (OP : forall l, legs (fun p => burned n B (W p)) l = - legs (fun p => - burned n B (W p)) l) by (induction l as [|a l IH]; [cbn; ring|unfold legs in *; cbn [fold_right]; rewrite IH; ring]).
  split; [exact CN|]. split; [apply WS, first_flown|]. split.
  - rewrite OP, (legs_total _ (fun p => W p "weight" 0%nat) (fun p => W p "weight" (n - 1)%nat)).
    + rewrite (main_chain o _ _ CN). ring.
    + intros p Hp. rewrite (proj2 (proj2 (WS p (main_flown o p Hp)))). ring.
  - intro R. rewrite OP, (legs_total _ (fun p => W p "weight" 0%nat) (fun p => W p "weight" (n - 1)%nat)).
    + rewrite (reserve_chain o _ _ R CN). ring.
    + intros p Hp. rewrite (proj2 (proj2 (WS p (reserve_legs_flown o p R Hp)))). ring.
Qed.
Print Assumptions C89_mission.

(** An engine that takes no fuel back makes the aircraft lighter, from one parabola of the integration to the next... *)
Theorem C89_lighter n B W a b : method_size Simpson n -> books n B W -> 0 <= W "duration" 0%nat -> (forall i, (i < n)%nat -> 0 <= W (fb_flow B) i) ->
  Nat.even a = true -> Nat.even b = true -> (a <= b < n)%nat -> W "weight" b <= W "weight" a.
Proof.
  intros MS [B1 B2 _] HT HF Ha Hb Hab. rewrite (B1 a), (B1 b) by lia. rewrite (B2 a), (B2 b) by lia.
  pose proof (area_nonneg n _ a b MS HF Ha Hb Hab). assert (0 < INR (n - 1)) by (destruct MS; apply lt_0_INR; lia).
  assert (0 <= W "duration" 0%nat / INR (n - 1)) by (apply Rmult_le_pos; [lra|apply Rlt_le, Rinv_0_lt_compat; lra]). nra.
Qed.
Print Assumptions C89_lighter.
(** ... but not within a parabola: with a fuel flow of 0, 0 and 12 kg/s the minimal aircraft weighs more at the second node than at the first. *)
Definition dipping : env := fun x i =>
  match assoc x
    [("throttle", if Nat.eqb i 2 then 12 else 0); ("thrust", if Nat.eqb i 2 then 12 else 0); ("fuel_flow_calc.fuel_flow", if Nat.eqb i 2 then 12 else 0);
     ("fuel_integrator.fuel_burned", if Nat.eqb i 1 then - (1) else if Nat.eqb i 2 then 4 else 0); ("fuel_integrator.fuel_burned_final", 4);
     ("fuel_integrator.duration", 2); ("ac|propulsion|TSFC", 1); ("ac|propulsion|max_thrust", 1); ("ac|weights|TOW", 5000); ("simple_aircraft.weight", 5000); ("ac|aero|L_over_D", 1);
     ("weight", if Nat.eqb i 1 then 5001 else if Nat.eqb i 2 then 4996 else 5000)] with Some v => v | None => 0 end.
Theorem C89_heavier_within_a_parabola X p : is_inverse 2 simpson_a X ->
  exists U, solution (ac_model (minimal_integrator (method_tri Simpson 3 X)) 3 p) U /\
    (forall i, 0 <= U "fuel_flow_calc.fuel_flow" i) /\ 0 <= U "fuel_integrator.duration" 0%nat /\ U "weight" 0%nat < U "weight" 1%nat.
Proof.
  intro HX. exists dipping. assert (MS : method_size Simpson 3) by (split; [reflexivity|lia]). split; [|split; [|split]].
  - assert (FU : forall i, (i < 3)%nat -> dipping "fuel_integrator.fuel_burned" i = 0 + 2 / INR (3 - 1) * area (dipping "fuel_flow_calc.fuel_flow") i).
    { assert (K : INR (3 - 1) = 2) by (cbn; lra). assert (S0 : strip (dipping "fuel_flow_calc.fuel_flow") 0 = (5 * 0 + 8 * 0 - 12) / 12) by reflexivity.
      assert (S1 : strip (dipping "fuel_flow_calc.fuel_flow") 1 = (- 0 + 8 * 0 + 5 * 12) / 12) by reflexivity.
      intros [|[|[|i]]] Hi; [| | |lia]; rewrite K; cbn [area]; rewrite ?S0, ?S1; cbn [dipping assoc]; cbn; lra. }
    intros s' [<-|[<-|[<-|[<-|[]]]]].
    + intros o k g i A' Hi. by_out A'; cbn; lra.
    + intros o k g i A' Hi. by_out A'; cbn; lra.
    + intros sp [<-|[]]. split; [intros i Hi; rewrite integ_area by auto; exact (FU i Hi)|]. rewrite integ_final_area by auto. exact (FU 2%nat ltac:(lia)).
    + intros o k g i A' Hi. by_out A'. change (i < 3)%nat in Hi. destruct i as [|[|[|i]]]; [| | |lia]; cbn; lra.
  - intro i. cbn. destruct i as [|[|[|i]]]; cbn; lra.
  - cbn. lra.
  - cbn. lra.
Qed.
Print Assumptions C89_heavier_within_a_parabola.

(** ** Battery *)
(** In every phase the battery's charge falls by the energy drawn from it. *)
Theorem C89_charge kt kp M n X A C p k W : method_size Simpson n -> is_inverse (n - 1) simpson_a X ->
  In (A, C) (battery_fliers M (method_tri Simpson n X)) -> solution (phase_group kt kp (method_tri Simpson n X) n A p k) W -> charges n C W.
Proof. apply (fleet_charges kt kp M {| dk_thrust := fun _ _ _ => 0; dk_fuel := fun _ _ _ => 0; dk_T4 := fun _ _ _ => 0 |}). Qed.
Print Assumptions C89_charge.
Lemma charge_state M tri A C : In (A, C) (battery_fliers M tri) ->
  exists u, In u (ac_states A) /\ is_start (ps_prom u) = "propmodel.batt1.SOC_initial" /\ is_end (ps_prom u) = "propmodel.batt1.SOC_final".
Proof.
  intro I. assert (H : forallb (fun c => existsb (fun u => String.eqb (is_start (ps_prom u)) "propmodel.batt1.SOC_initial" && String.eqb (is_end (ps_prom u)) "propmodel.batt1.SOC_final") (ac_states (fst c))) (battery_fliers M tri) = true) by reflexivity.
  rewrite forallb_forall in H. specialize (H _ I). apply existsb_exists in H. destruct H as (u & Hu & E). apply andb_prop in E. destruct E as [E1 E2].
  apply String.eqb_eq in E1, E2. eauto.
Qed.
(** The charge goes on from phase to phase, and the battery gives in all phases what the motors draw. *)
Theorem C89_mission_charge kt kp M X n A C o V W E : method_size Simpson n -> is_inverse (n - 1) simpson_a X ->
  In (A, C) (battery_fliers M (method_tri Simpson n X)) -> one_flight kt kp (method_tri Simpson n X) n A o V W ->
  E <> 0 -> (forall p k, In (p, k) (profile_phases o) -> capacity C (W p) = E) ->
  let soc p i := W p "propmodel.batt1.SOC" i in
  (forall p q, In (p, q) (flown_after o) -> soc q 0%nat = soc p (n - 1)%nat) /\
  E * (soc (first_phase o) 0%nat - soc "descent" (n - 1)%nat) = legs (fun p => drawn n C (W p)) (main_legs o) /\
  (pf_reserve o = true -> E * (soc "descent" (n - 1)%nat - soc "loiter" (n - 1)%nat) = legs (fun p => drawn n C (W p)) (reserve_legs o ++ ["loiter"])).
Proof.
  intros MS HX I F HE HC soc. assert (Hn : (1 <= n)%nat) by (destruct MS; lia). assert (N1 : (n - 1 < n)%nat) by lia. assert (N0 : (0 < n)%nat) by lia.
  destruct (charge_state _ _ _ _ I) as (u & Hu & Us & Ue).
  assert (CH : forall p, (exists k, In (p, k) (profile_phases o)) -> charges n C (W p) /\ capacity C (W p) = E).
  { intros p [k Hp]. split; [exact (C89_charge kt kp M n X A C p k (W p) MS HX I (fl_phases _ _ _ _ _ _ _ _ F p k Hp))|eauto]. }
  assert (S0 : forall p, (exists k, In (p, k) (profile_phases o)) -> soc p 0%nat = W p "propmodel.batt1.SOC_initial" 0%nat /\
     drawn n C (W p) = E * soc p 0%nat - E * soc p (n - 1)%nat).
  { intros p Hp. destruct (CH p Hp) as [[C1 C2] EC]. rewrite EC in C1. pose proof (C1 HE 0%nat N0) as K0. pose proof (C1 HE _ N1) as K1. cbn [area] in K0.
    assert (Z : soc p 0%nat = W p "propmodel.batt1.SOC_initial" 0%nat) by (unfold soc; apply (Rmult_eq_reg_l E); [rewrite K0; ring|exact HE]).
    split; [exact Z|]. rewrite Z. unfold drawn, soc. rewrite K1. ring. }
  assert (CN : forall p q, In (p, q) (flown_after o) -> soc q 0%nat = soc p (n - 1)%nat).
  { intros p q Hpq. destruct (after_flown o p q Hpq) as [Hp Hq]. rewrite (proj1 (S0 q Hq)). rewrite <- Us, (fl_states _ _ _ _ _ _ _ _ F p q u Hpq Hu), Ue. apply (ch_end _ _ _ (proj1 (CH p Hp))). }
  assert (CE : forall p q, In (p, q) (flown_after o) -> - (E * soc q 0%nat) = - (E * soc p (n - 1)%nat)) by (intros p q Hpq; now rewrite (CN p q Hpq)).
  split; [exact CN|]. split.
  - rewrite (legs_total _ (fun p => - (E * soc p 0%nat)) (fun p => - (E * soc p (n - 1)%nat))).
    + rewrite (main_chain o _ _ CE). ring.
    + intros p Hp. rewrite (proj2 (S0 p (main_flown o p Hp))). ring.
  - intro R. rewrite (legs_total _ (fun p => - (E * soc p 0%nat)) (fun p => - (E * soc p (n - 1)%nat))).
    + rewrite (reserve_chain o _ _ R CE). ring.
    + intros p Hp. rewrite (proj2 (S0 p (reserve_legs_flown o p R Hp))). ring.
Qed.
Print Assumptions C89_mission_charge.
(** The hybrids fly every phase with the battery of the mission. *)
Theorem C89_hybrid_battery kt kp M X n A C o V W : In (A, C) (battery_fliers M (method_tri Simpson n X)) -> C = hybrid_charge ->
  one_flight kt kp (method_tri Simpson n X) n A o V W -> forall p k, In (p, k) (profile_phases o) -> capacity C (W p) = capacity C V.
Proof.
  intros I EC F p k Hp. subst C. set (tri := method_tri Simpson n X) in *.
  assert (T : takes "ac|weights|W_battery" A kt kp tri n = true /\ takes "ac|propulsion|battery|specific_energy" A kt kp tri n = true).
  { destruct I as [E|[E|[E|[E|[]]]]]; injection E as <-; try discriminate; split; vm_compute; reflexivity. }
  destruct T as [T1 T2]. unfold capacity, hybrid_charge. cbn [cb_energy].
  rewrite (fl_aircraft _ _ _ _ _ _ _ _ F p k "ac|weights|W_battery" 0%nat Hp (takes_ok _ _ _ _ _ _ _ _ _ T1 Hp) eq_refl),
    (fl_aircraft _ _ _ _ _ _ _ _ F p k "ac|propulsion|battery|specific_energy" 0%nat Hp (takes_ok _ _ _ _ _ _ _ _ _ T2 Hp) eq_refl). reflexivity.
Qed.
Print Assumptions C89_hybrid_battery.

(** ** A flight: climb to 3000 m at 5 m/s, an hour of cruise, descent at 5 m/s, burning fuel at three nodes per phase *)
Section Example.
Variables (kt kp : coeffs) (X : mat).
Definition all_pulls : list R := flat_map (fun f => map (fun i => Rabs (pull kt kp 3 f i)) [0; 1; 2]%nat) [leg_climb; leg_cruise kt kp 3; leg_descent kt kp 3].
Definition tsfc : R := 1 / (100 * 3600 * (1 + fold_right Rplus 0 all_pulls)).
Definition parts (f : Proofs_Fly.flight) (i : nat) : R := f_T f / 24 * (tsfc * pull kt kp 3 f i).
Definition m_climb : nat -> R := mass3 5000 (parts leg_climb).
Definition m_cruise : nat -> R := mass3 (m_climb 2%nat) (parts (leg_cruise kt kp 3)).
Definition m_descent : nat -> R := mass3 (m_cruise 2%nat) (parts (leg_descent kt kp 3)).
Definition haul_phase (p : string) : env :=
  if String.eqb p "climb" then burning kt kp 3 leg_climb m_climb 5000 tsfc
  else if String.eqb p "cruise" then burning kt kp 3 (leg_cruise kt kp 3) m_cruise 5000 tsfc else burning kt kp 3 (leg_descent kt kp 3) m_descent 5000 tsfc.
Definition haul : env := fun x i =>
  match split_dot x with
  | Some (p, y) => haul_phase p y i
  | None => match assoc x [("takeoff|h", 0); ("cruise|h0", 3000); ("mission_range", r_mission kt kp 3);
      ("ac|geom|wing|S_ref", 30); ("ac|weights|TOW", 5000); ("ac|propulsion|max_thrust", 10000); ("ac|aero|L_over_D", 15); ("ac|propulsion|TSFC", tsfc)] with Some v => v | None => 0 end
  end.
Lemma sum_bounds (l : list R) x : (forall y, In y l -> 0 <= y) -> In x l -> 0 <= x <= fold_right Rplus 0 l.
Proof.
  intros H I. split; [auto|]. induction l as [|y l IH]; [destruct I|]. cbn [fold_right].
  assert (0 <= fold_right Rplus 0 l) by (clear -H; induction l as [|z l IH]; cbn [fold_right]; [lra|]; assert (0 <= z) by (apply H; right; left; reflexivity); assert (0 <= fold_right Rplus 0 l) by (apply IH; intros w [->|Hw]; apply H; [left; reflexivity|right; right; exact Hw]); lra).
  assert (0 <= y) by (apply H; left; reflexivity). destruct I as [->|I]; [lra|]. assert (x <= fold_right Rplus 0 l) by (apply IH; [intros; apply H; now right|exact I]). lra.
Qed.
Lemma parts_small f i : f = leg_climb \/ f = leg_cruise kt kp 3 \/ f = leg_descent kt kp 3 -> (i < 3)%nat -> Rabs (parts f i) <= 1 / 100.
Proof.
  intros Hf Hi. assert (P : 0 <= Rabs (pull kt kp 3 f i) <= fold_right Rplus 0 all_pulls).
  { apply sum_bounds.
    - intros y Hy. unfold all_pulls in Hy. apply in_flat_map in Hy. destruct Hy as (g & _ & Hy). apply in_map_iff in Hy. destruct Hy as (j & <- & _). apply Rabs_pos.
    - unfold all_pulls. apply in_flat_map. exists f. split; [cbn [In]; intuition|]. apply in_map_iff. exists i. split; [reflexivity|]. cbn [In]. lia. }
  unfold parts, tsfc. set (S := fold_right Rplus 0 all_pulls) in *. set (z := pull kt kp 3 f i) in *.
  assert (T : 0 <= f_T f <= 3600) by (destruct Hf as [->|[->| ->]]; cbn; lra).
  replace (f_T f / 24 * (1 / (100 * 3600 * (1 + S)) * z)) with (f_T f / 3600 * / 2400 * (z / (1 + S))) by (field; lra).
  rewrite !Rabs_mult. rewrite (Rabs_pos_eq (f_T f / 3600)) by lra. rewrite (Rabs_pos_eq (/ 2400)) by lra.
  assert (Q : Rabs (z / (1 + S)) <= 1).
  { unfold Rdiv. rewrite Rabs_mult. rewrite (Rabs_pos_eq (/ (1 + S))) by (apply Rlt_le, Rinv_0_lt_compat; lra).
    apply (Rmult_le_reg_r (1 + S)); [lra|]. rewrite Rmult_assoc, Rinv_l by lra. lra. }
  pose proof (Rabs_pos (z / (1 + S))). assert (0 <= f_T f / 3600 <= 1) by lra. nra.
Qed.
Lemma haul_masses : (forall i, (i < 3)%nat -> 0 < m_climb i) /\ (forall i, (i < 3)%nat -> 0 < m_cruise i) /\ (forall i, (i < 3)%nat -> 0 < m_descent i).
Proof.
  assert (H1 : forall i, (i < 3)%nat -> 0 < m_climb i) by (intros i Hi; apply mass3_pos; [lra|intros; apply parts_small; auto|exact Hi]).
  assert (H2 : forall i, (i < 3)%nat -> 0 < m_cruise i) by (intros i Hi; apply mass3_pos; [apply H1; lia|intros; apply parts_small; auto|exact Hi]).
  split; [exact H1|split; [exact H2|]]. intros i Hi; apply mass3_pos; [apply H2; lia|intros; apply parts_small; auto|exact Hi].
Qed.
Lemma haul_phases p : pressure_coeffs kp -> is_inverse 2 simpson_a X -> In p ["climb"; "cruise"; "descent"] ->
  solution (phase_group kt kp (method_tri Simpson 3 X) 3 (minimal_integrator (method_tri Simpson 3 X)) p SteadyP) (haul_phase p).
Proof.
  intros Hp HX Ip. destruct haul_masses as (H1 & H2 & H3). assert (MS : method_size Simpson 3) by (split; [reflexivity|lia]).
  assert (K : INR (3 - 1) = 2) by (cbn; lra).
  assert (PR : forall f i, (i < 3)%nat -> f = leg_climb \/ f = leg_cruise kt kp 3 \/ f = leg_descent kt kp 3 ->
    exists q, compute_pressure kp (fly_h 3 f i) (get_masks (fly_h 3 f i)) = Some q).
  { intros f i Hi Hf. assert (fly_h 3 f i < h_max).
    { unfold fly_h, h_max. rewrite K. assert (0 <= INR i <= 2) by (split; [apply pos_INR|apply (le_INR i 2); lia]).
      destruct Hf as [->|[->| ->]]; cbn [leg leg_climb leg_cruise leg_descent f_h f_T f_vs]; lra. }
    destruct (press_positive kp _ Hp H) as (q & E & _). eauto. }
  assert (SM : forall f m0, f = leg_climb \/ f = leg_cruise kt kp 3 \/ f = leg_descent kt kp 3 -> 0 < m0 -> forall i, (i < 3)%nat ->
     mass3 m0 (parts f) i = mass3 m0 (parts f) 0%nat - f_T f / INR (3 - 1) * area (fun j => tsfc * (pull kt kp 3 f j * mass3 m0 (parts f) j)) i).
  { intros f m0 Hf H0 i Hi. rewrite (mass3_solves m0 (parts f) (f_T f) (fun j => tsfc * pull kt kp 3 f j)) at 1; auto.
    - f_equal. f_equal. f_equal. apply FunctionalExtensionality.functional_extensionality. intro j. ring.
    - apply Rgt_not_eq. apply (mass3_pos m0); auto. intros; apply parts_small; auto. }
  assert (BS : forall f m0, f = leg_climb \/ f = leg_cruise kt kp 3 \/ f = leg_descent kt kp 3 -> 0 < m0 ->
    solution (phase_group kt kp (method_tri Simpson 3 X) 3 (minimal_integrator (method_tri Simpson 3 X)) p SteadyP) (burning kt kp 3 f (mass3 m0 (parts f)) 5000 tsfc)).
  { intros f m0 Hf H0. apply burn_steady; [exact Ip|exact MS|exact HX| | | |].
    - intros i Hi. apply Rgt_not_eq. apply mass3_pos; [exact H0|intros; apply parts_small; auto|exact Hi].
    - destruct Hf as [->|[->| ->]]; cbn; lra.
    - intros i Hi. apply PR; auto.
    - apply SM; auto. }
  destruct Ip as [<-|[<-|[<-|[]]]].
  - apply (BS leg_climb 5000); auto; lra.
  - apply (BS (leg_cruise kt kp 3) (m_climb 2%nat)); auto; apply H1; lia.
  - apply (BS (leg_descent kt kp 3) (m_cruise 2%nat)); auto; apply H2; lia.
Qed.
Example C89_met : temp_coeffs kt -> pressure_coeffs kp -> is_inverse 2 simpson_a X ->
  exists G, mission_group kt kp (method_tri Simpson 3 X) 3 (minimal_integrator (method_tri Simpson 3 X)) basic = Ok G /\ solution G haul /\
    (forall p i, In p ["climb"; "cruise"; "descent"] -> (i < 3)%nat -> 0 < haul (sub p "weight") i).
Proof.
  intros Ht Hp HX. set (tri := method_tri Simpson 3 X) in *.
  assert (M : mission_sets_up kt kp tri 3 (minimal_integrator tri) basic = true) by (vm_compute; reflexivity).
  destruct (mission_sets_up_ok _ _ _ _ _ _ M ltac:(discriminate)) as (cs & Hm & HG). rewrite HG. eexists. split; [reflexivity|].
  vm_compute in Hm. injection Hm as <-. cbn [some_pairs flat_map app].
  assert (K1 : fly_h 3 leg_climb 2 = 3000) by (unfold fly_h; cbn [leg leg_climb f_h f_T f_vs]; cbn; field).
  assert (K2 : fly_h 3 (leg_cruise kt kp 3) 2 = 3000) by (unfold fly_h; cbn [leg leg_cruise f_h f_T f_vs]; cbn; field).
  assert (K3 : fly_h 3 (leg_descent kt kp 3) 2 = 0) by (unfold fly_h; cbn [leg leg_descent f_h f_T f_vs]; cbn; field).
  assert (OU : forall p y i, In p ["climb"; "cruise"; "descent"] -> haul_phase p y i = haul (sub p y) i).
  { intros p y i Ip. unfold haul. rewrite split_sub; [reflexivity|]. apply all_dotless. cbn in Ip |- *. tauto. }
  split.
  2:{ intros p i Ip Hi. rewrite <- OU by exact Ip. destruct haul_masses as (H1 & H2 & H3). destruct Ip as [<-|[<-|[<-|[]]]]; [exact (H1 i Hi)|exact (H2 i Hi)|exact (H3 i Hi)]. }
  intros s Hs. cbn [g_subs mission_subs profile_phases basic pf_takeoff pf_reserve pf_ground_roll pf_basic app map negb andb] in Hs.
  set (free := ["fltcond|vs"; "ode_integ_phase.fltcond|h_initial"; "ode_integ_phase.range_initial"; "fltcond|TempIncrement"; "fltcond|Ueas"; "fltcond|vs"; "ac|geom|wing|S_ref";
    "ac|weights|TOW"; "ac|propulsion|max_thrust"; "ac|aero|L_over_D"; "ac|propulsion|TSFC"; "fuel_integrator.fuel_burned_initial"; "ac|weights|TOW"; "ac|geom|wing|S_ref";
    "ac|geom|wing|S_ref"; "braking"; "zero_accel"]).
  assert (FI : forall p l, free_ins (phase_group kt kp tri 3 (minimal_integrator tri) p SteadyP) = free ++ l -> free_ins (phase_group kt kp tri 3 (minimal_integrator tri) p SteadyP) = free ++ l) by auto.
  assert (Z : burn_used m_climb 5000 0 = 0) by (unfold burn_used; cbn; ring).
  destruct Hs as [<-|[<-|[<-|[<-|[]]]]].
  - exact I.
  - exists (haul_phase "climb"). split; [apply haul_phases; auto; inlist|split].
    + intros x i Hx. change (In x (free_ins (phase_group kt kp tri 3 (minimal_integrator tri) "climb" SteadyP))) in Hx. rewrite (FI "climb" ["climbdt.cruise|h0"] eq_refl) in Hx. cbn [free app In] in Hx.
      repeat (destruct Hx as [<-|Hx]; [first [exact K1 | reflexivity | exact Z]|]). contradiction.
    + intros y i Hy. apply (OU "climb"). inlist.
  - exists (haul_phase "cruise"). split; [apply haul_phases; auto; inlist|split].
    + intros x i Hx. change (In x (free_ins (phase_group kt kp tri 3 (minimal_integrator tri) "cruise" SteadyP))) in Hx. rewrite (FI "cruise" ["cruisedt.range_final"; "cruisedt.mission_range"] eq_refl) in Hx. cbn [free app In] in Hx.
      repeat (destruct Hx as [<-|Hx]; [first [reflexivity | symmetry; exact K1]|]). contradiction.
    + intros y i Hy. apply (OU "cruise"). inlist.
  - exists (haul_phase "descent"). split; [apply haul_phases; auto; inlist|split].
    + intros x i Hx. change (In x (free_ins (phase_group kt kp tri 3 (minimal_integrator tri) "descent" SteadyP))) in Hx. rewrite (FI "descent" ["descentdt.takeoff|h"] eq_refl) in Hx. cbn [free app In] in Hx.
      repeat (destruct Hx as [<-|Hx]; [first [exact K3 | reflexivity | symmetry; exact K2]|]). contradiction.
    + intros y i Hy. apply (OU "descent"). inlist.
Qed.
End Example.
Print Assumptions C89_met.
