(** Steady flight in closed form of the sized airliner, with engines whose thrust follows the throttle and whose fuel flow is constant. *)
From Coq Require Import Reals List Bool PeanoNat String Lia Lra.
From Verif Require Import Base Py RSum Model_Algebra Model_Vectors Model_Integrals Spec_Integrals Proofs_Integrals Proofs_IntegMore
  Model_Atmos Proofs_Atmos Model_Aero Model_Phases Model_Mission Spec_Mission Proofs_Profiles Model_Net Proofs_Net Model_Thermal Model_HX Model_Ducts Model_HeatPipe
  Model_Systems Model_Propulsion Model_Flight Spec_Flight Proofs_Flight Proofs_Trip Proofs_Fly Model_Drag Spec_Drag Props_Drag Model_Fleet Proofs_Fleet Model_Sizing Spec_Airliner Proofs_Airliner.
Import ListNotations.
Open Scope R_scope.
Open Scope string_scope.
Open Scope list_scope.

Definition steady_phases : list string := ["climb"; "cruise"; "descent"; "reserve_climb"; "reserve_cruise"; "reserve_descent"; "loiter"].
Fixpoint drop (k : nat) (x : string) : string := match k, x with S k, String _ r => drop k r | _, _ => x end.
Fixpoint starts (p x : string) {struct p} : bool := match p, x with EmptyString, _ => true | String a p, String b x => Ascii.eqb a b && starts p x | _, _ => false end.
Lemma reads_same G s V l : forallb (fun x => String.eqb (source G (gname (gs_name s) (gs_pin s) x)) x) l = true -> forall x, mem x l = true -> reads G s V x = V x.
Proof. intros F x Hx. rewrite forallb_forall in F. apply mem_In in Hx. specialize (F x Hx). apply String.eqb_eq in F. unfold reads. now rewrite F. Qed.
Ltac by_one A := cbn in A; repeat match type of A with (if ?c then _ else _) = _ => let E := fresh "E" in destruct c eqn:E;
  [apply String.eqb_eq in E; rewrite E; clear E; injection A as <- <- | ] end; try (discriminate A).
(** Read the names of a component first, then compute. *)
Ltac by_names := let o := fresh "o" in let k := fresh "k" in let g := fresh "g" in let i := fresh "i" in let A' := fresh "A'" in let Hi := fresh "Hi" in
  intros o k g i A' Hi; by_one A';
  match goal with |- writes ?s ?V ?o ?i = vcompute ?C (reads ?G ?s ?V) ?o ?i =>
    let y := eval vm_compute in (gname (gs_name s) (gs_pout s) o) in change (writes s V o i) with (V y i);
    let E := fresh "E" in let HE := fresh "HE" in
    pose proof (reads_same G s V (map fst (pc_ins C)) ltac:(vm_compute; reflexivity)) as HE; set (E := reads G s V) in *; clearbody E;
    let t := eval hnf in C in change C with t; cbn [vcompute nval node assoc pc_outs pc_ins String.eqb Ascii.eqb Bool.eqb map fst]; unfold gs_fixed, gs_inside; cbn [node assoc pc_ins String.eqb Ascii.eqb Bool.eqb]; rewrite ?HE by reflexivity
  end.
Section Sized.
(** [ac]: the aircraft's data; [Z]: the drag build-up; thrust [Fmax] of the deck at full throttle, fuel flow [f0]. *)
Variables (kt kp : coeffs) (n : nat) (ac : string -> R) (Z : env) (f : flight) (m0 Fmax f0 : R).
Definition sized_deck : deck := {| dk_thrust := fun t _ _ => Fmax * t; dk_fuel := fun _ _ _ => f0; dk_T4 := fun _ _ _ => 0 |}.
Definition s_orig : R := 27300 * lbf.
Definition s_N : R := ac "ac|propulsion|num_engines".
Definition s_rating : R := ac "ac|propulsion|engine|rating".
Definition s_S : R := ac "ac|geom|wing|S_ref".
Definition s_K : R := s_N * (s_rating / s_orig).
Definition s_m (i : nat) : R := m0 - s_K * f0 * f_T f * (INR i / INR (n - 1)).
Definition s_CL (i : nat) : R := fly_cos kt kp n f i * GRAV * s_m i / fly_q kt kp n f i / s_S.
Definition s_lift (i : nat) : R := fly_q kt kp n f i * s_S * s_CL i.
Definition s_drag (i : nat) : R := fly_q kt kp n f i * s_S * (Z "CD0" i + s_CL i ^ 2 / PI / ac "ac|aero|polar|e" / ac "ac|geom|wing|AR").
Definition s_thrust (i : nat) : R := s_drag i + s_m i * GRAV * fly_sin kt kp n f i.
Definition s_thr (i : nat) : R := s_thrust i / (s_K * Fmax).
Definition s_MTOW : R := ac "ac|weights|MTOW".
(** What the build-up reads. *)
Definition s_base : env := fun x i => if glob "ac|*" x then ac x else fly kt kp n f x i.
Definition sjet : env := fun x i =>
  match assoc x
    [("weight", s_m i); ("fltcond|CL", s_CL i); ("lift", s_lift i); ("drag", s_drag i); ("thrust", s_thrust i); ("throttle", s_thr i);
     ("CFM56.engine_deck.thrust", Fmax * s_thr i); ("CFM56.engine_deck.fuel_flow", f0); ("CFM56.thrust", Fmax * s_thr i * s_rating / s_orig); ("CFM56.fuel_flow", f0 * s_rating / s_orig);
     ("CFM56.scale_engine.orig_rating_thrust", s_orig); ("CFM56.scale_engine.orig_rating_fuel_flow", s_orig);
     ("num_engine_calc.one", 1); ("num_engine_calc.num_active_engines", s_N + 1 - 1); ("propulsion_multiplier.fuel_flow", f0 * s_rating / s_orig * (s_N + 1 - 1));
     ("fuel_burn_integ.duration", f_T f); ("fuel_burn_integ.fuel_burn_initial", s_MTOW - m0); ("fuel_burn_integ.fuel_burn_final", s_MTOW - s_m (n - 1)); ("fuel_burn_integ.fuel_burn", s_MTOW - s_m i);
     ("reserve_climbdt.reserve|h0", fly_h n f (n - 1)); ("reserve_descentdt.takeoff|h", fly_h n f (n - 1)); ("reserve_cruisedt.range_final", f_rf f); ("reserve_cruisedt.reserve_range", f_rf f);
     ("duration_in", f_T f)] with Some v => v | None => if starts "zero_lift_drag." x then Z (drop 15 x) i else s_base x i end.
Lemma sjet_atmosphere : (forall i, (i < n)%nat -> exists p, compute_pressure kp (fly_h n f i) (get_masks (fly_h n f i)) = Some p) -> solution (atmosphere kt kp n false) sjet.
Proof.
  intros Hp s Hs. cbn [atmosphere g_subs app] in Hs.
  destruct Hs as [<-|[<-|[<-|[<-|[<-|[<-|[<-|[]]]]]]]].
  - intros i Hi. reflexivity.
  - intros i Hi. destruct (Hp i Hi) as [p E].
    change (compute_pressure kp (fly_h n f i) (get_masks (fly_h n f i)) = Some (fly_p kp n f i)). unfold fly_p. now rewrite E.
  - intros o k g i A Hi. by_out A. reflexivity.
  - intros o k g i A Hi. by_out A. reflexivity.
  - intros o k g i A Hi. by_out A. reflexivity.
  - intros o k g i A Hi. by_out A. reflexivity.
  - intros o k g i A Hi. by_out A. reflexivity.
Qed.
Hypothesis Zsol : solution (ParasiteDragCoefficient_JetTransport (configured drag_defaults false) n) Z.
Hypothesis Zin : forall x i, In x (flight_inputs ++ jet_scalars true) -> Z x i = s_base x i.
Definition engine_env : env := fun x => if mem x ["throttle"; "fltcond|h"; "fltcond|M"; "ac|propulsion|engine|rating"] then sjet x else sjet (sub "CFM56" x).
Lemma sized_model X : method_size Simpson n -> is_inverse (n - 1) simpson_a X -> s_K * Fmax <> 0 ->
  solution (body sized_deck (method_tri Simpson n X) n false) sjet.
Proof.
  intros MS HX HK. assert (Hn : INR (n - 1) <> 0) by (destruct MS; apply not_0_INR; lia). assert (N1 : (n - 1 < n)%nat) by (destruct MS; lia).
  assert (HN : s_N <> 0 /\ s_rating / s_orig <> 0 /\ Fmax <> 0) by (unfold s_K in HK; repeat split; intro E; apply HK; rewrite E; ring). destruct HN as (HN & HR & HF).
  assert (FU : forall i, (i < n)%nat -> s_MTOW - s_m i = s_MTOW - m0 + f_T f / INR (n - 1) * area (fun _ => f0 * s_rating / s_orig * (s_N + 1 - 1)) i).
  { intros i Hi. rewrite area_const. unfold s_m, s_K, Rdiv. ring. }
  intros s Hs. set (G := body _ _ _ _) in *. cbn [G body g_subs SizedModel tl] in Hs. destruct Hs as [<-|[<-|[<-|[<-|[<-|[<-|[<-|[]]]]]]]].
  - exists Z. split; [exact Zsol|split].
    + intros x i Hx. change (In x (free_ins (ParasiteDragCoefficient_JetTransport (configured drag_defaults false) n))) in Hx.
      assert (F : forallb (fun x => mem x (flight_inputs ++ jet_scalars true) && String.eqb (source G (gname "zero_lift_drag" (buildup_promotes ++ []) x)) x)
         (free_ins (ParasiteDragCoefficient_JetTransport (configured drag_defaults false) n)) = true) by (vm_compute; reflexivity).
      rewrite forallb_forall in F. specialize (F x Hx). apply andb_prop in F. destruct F as [F1 F2].
      apply mem_In in F1. apply String.eqb_eq in F2. rewrite (Zin x i F1). unfold reads. change (s_base x i = sjet (source G (gname "zero_lift_drag" (buildup_promotes ++ []) x)) i). rewrite F2.
      cbn in F1. repeat (destruct F1 as [<-|F1]; [reflexivity|]). contradiction.
    + intros y i Hy. unfold writes. cbn [subgroup nested gs_name gs_pout zero_lift_drag]. change (Z y i = sjet (sub "zero_lift_drag" y) i). reflexivity.
  - intros o k g i A' Hi. by_out A'. reflexivity.
  - exists engine_env. split.
    + intros s' Hs'. cbn [RubberizedTurbofan g_subs] in Hs'. destruct Hs' as [<-|[<-|[]]].
      * intros i Hi. repeat split; reflexivity.
      * intros s'' [<-|[<-|[]]] i Hi; assert (Hi' : (i < n)%nat) by (change (i < Nat.max n (Nat.max 1 (Nat.max 1 0)))%nat in Hi; destruct MS; lia).
        -- etransitivity; [exact (thrust_value n _ i Hi')|]. reflexivity.
        -- etransitivity; [exact (fuel_value n _ i Hi')|]. reflexivity.
    + split.
      * intros x i Hx. change (In x (free_ins (RubberizedTurbofan sized_deck n))) in Hx. cbn in Hx. repeat (destruct Hx as [<-|Hx]; [reflexivity|]). contradiction.
      * intros y i Hy. cbn in Hy. repeat (destruct Hy as [<-|Hy]; [reflexivity|]). contradiction.
  - intros i Hi. etransitivity; [exact (engines_value n _ i Hi)|]. reflexivity.
  - intros s'' [<-|[<-|[]]] i Hi; change (i < n)%nat in Hi; (etransitivity; [exact (times_value n _ _ _ _ _ i Hi)|]); [|reflexivity].
    f_equal. change (Fmax * s_thr i * s_rating / s_orig * (s_N + 1 - 1) = s_thrust i). unfold s_thr. replace (Fmax * (s_thrust i / (s_K * Fmax)) * s_rating / s_orig * (s_N + 1 - 1)) with (s_thrust i * ((s_K * Fmax) / (s_K * Fmax))).
    + unfold Rdiv. rewrite Rinv_r by exact HK. ring.
    + unfold s_K, Rdiv. ring.
  - intros sp [<-|[]]. split; [intros i Hi; rewrite integ_area by auto; exact (FU i Hi)|]. rewrite integ_final_area by auto. exact (FU _ N1).
  - intros i Hi. etransitivity; [exact (burn_value n _ i Hi)|]. f_equal. change (s_MTOW - (s_MTOW - s_m i) = s_m i). ring.
Qed.
Lemma sized_steady p X : In p steady_phases -> method_size Simpson n -> is_inverse (n - 1) simpson_a X ->
  (forall i, (i < n)%nat -> s_m i <> 0) -> s_K * Fmax <> 0 ->
  (forall i, (i < n)%nat -> exists p, compute_pressure kp (fly_h n f i) (get_masks (fly_h n f i)) = Some p) ->
  solution (phase_group kt kp (method_tri Simpson n X) n (SizedB738 sized_deck (method_tri Simpson n X)) p SteadyP) sjet.
Proof.
  intros Ip MS HX Hm HK Hp.
  assert (Hn : INR (n - 1) <> 0) by (destruct MS; apply not_0_INR; lia).
  assert (AI : forall i, (i < n)%nat -> fly_h n f i = f_h f + f_T f / INR (n - 1) * area (fun _ => f_vs f) i).
  { intros i Hi. rewrite area_const. unfold fly_h. field. exact Hn. }
  assert (ZA : forall i, (i < n)%nat -> s_thrust i / s_m i - s_drag i / s_m i - floor_vec (fun x => sjet x i) * 0 * (GRAV - s_lift i / s_m i) - GRAV * fly_sin kt kp n f i = 0)
    by (intros i Hi; unfold s_thrust; field; auto).
  assert (N1 : (n - 1 < n)%nat) by (destruct MS; lia).
  assert (At := sjet_atmosphere Hp). assert (AM := sized_model X MS HX HK).
  assert (RP : rolls p = false) by (cbn in Ip; repeat (destruct Ip as [<-|Ip]; [reflexivity|]); contradiction).
  intros s Hs. set (A := SizedB738 _ _) in *. set (G := phase_group _ _ _ _ _ _ _) in *.
  assert (AE : ac_model A n p = body sized_deck (method_tri Simpson n X) n false) by (rewrite <- RP; apply body_is).
  rewrite <- AE in AM.
  assert (ISTEP : gs_rel (integrators n (method_tri Simpson n X) "ode_integ_phase"
       [integ_std "fltcond|h" "fltcond|vs" false; integ_std "range" "fltcond|groundspeed" false]
       [P "fltcond|vs"; P "fltcond|groundspeed"] [P "fltcond|h"; P "range"])
     (fun x => if String.eqb x "duration" then sjet "duration" else if String.eqb x "fltcond|h_initial" then sjet "ode_integ_phase.fltcond|h_initial"
               else if String.eqb x "range_initial" then sjet "ode_integ_phase.range_initial" else sjet x)
     (fun x => if String.eqb x "fltcond|h_final" then sjet "ode_integ_phase.fltcond|h_final" else if String.eqb x "range_final" then sjet "ode_integ_phase.range_final" else sjet x)).
  { intros sp [<-|[<-|[]]]; (split; [intros i Hi; rewrite integ_area by auto | rewrite integ_final_area by auto]).
    - apply AI, Hi.
    - apply AI, N1.
    - reflexivity.
    - reflexivity. }
  assert (FA : free_ins (atmosphere kt kp n false) = ["fltcond|h"; "fltcond|TempIncrement"; "fltcond|h"; "fltcond|Ueas"]) by reflexivity.
  assert (FM : forall x i, In x (free_ins (ac_model A n p)) -> sjet x i = sjet (source G x) i).
  { intros x i Hx. rewrite AE in Hx. vm_compute in Hx. cbn in Ip. repeat (destruct Ip as [<-|Ip]; [repeat (destruct Hx as [<-|Hx]; [reflexivity|]); contradiction|]). contradiction. }
  cbn in Ip. repeat (destruct Ip as [<-|Ip]; [cbn [G phase_group SteadyFlightPhase setter_of fst snd g_subs app] in Hs|]); try contradiction.
  all: (destruct Hs as [<-|[<-|[<-|[<-|[<-|[<-|[<-|[<-|[<-|[<-|[]]]]]]]]]]];
    [ exact I
    | intros sp Hsp; pose proof (ISTEP sp Hsp) as K; destruct Hsp as [<-|[<-|[]]]; exact K
    | exists sjet; split; [exact At|split]; [tie FA x | intros; unfold writes; cbn [subgroup nested gs_name gs_pout]; now rewrite gname_star]
    | by_names; reflexivity
    | exists sjet; split; [exact AM|split]; [intros x i Hx; unfold reads; cbn [subgroup nested gs_name gs_pin]; rewrite gname_star; now apply FM | intros; unfold writes; cbn [subgroup nested gs_name gs_pout]; now rewrite gname_star]
    | by_names; reflexivity
    | by_names; reflexivity
    | intros o k g i A' Hi; by_one A'; symmetry; exact (ZA i Hi)
    | intros i Hi; reflexivity
    | ]).
  all: try (intros i Hi; assert (i = 0)%nat as -> by lia; reflexivity).
  intros a b [E|[]]; injection E as <- <-; intros; reflexivity.
Qed.
End Sized.
