(** A converged sizing analysis in closed form, for any design variables. *)
From Coq Require Import Reals List Bool PeanoNat String Lia Lra.
From Verif Require Import Base Py RSum Model_Algebra Proofs_Algebra Model_Vectors Proofs_Vectors Model_Integrals Spec_Integrals Proofs_Integrals Proofs_IntegMore
  Model_Atmos Proofs_Atmos Model_Aero Model_Phases Model_Mission Spec_Mission Proofs_Profiles Props_Targets Model_Net Proofs_Net Model_Thermal Model_HX Model_Ducts Proofs_Ducts Model_HeatPipe
  Model_Systems Proofs_Systems Model_Weights Spec_Weights Props_Weights Model_Propulsion Model_Flight Spec_Flight Proofs_Flight Proofs_Trip Props_Trip Proofs_Fly Model_Drag Spec_Drag Proofs_Drag Props_Drag
  Model_Fleet Spec_Fleet Proofs_Fleet Proofs_FleetBody Proofs_FleetSetup Props_Fleet Model_Sizing Spec_Airliner Proofs_Airliner Proofs_Sized Proofs_FlySized.
Import ListNotations.
Open Scope R_scope.
Open Scope string_scope.
Open Scope list_scope.

(** A mission with a reserve that starts in the climb. *)
Definition reserved : profile := {| pf_takeoff := false; pf_reserve := true; pf_ground_roll := false; pf_transition := Ode |}.
Lemma tied (Q : string -> string -> Prop) (g : string -> string) l : (forall c, In c (map (fun x => (x, g x)) l) -> Q (fst c) (snd c)) -> forall x, In x l -> Q x (g x).
Proof. intros H x Hx. apply (H (x, g x)). now apply (in_map (fun x => (x, g x))). Qed.
Section Sizing.
Variables (kt kp : coeffs) (n : nat) (dv : string -> R) (MTOW Fmax f0 : R) (T : env) (Z : string -> env).
(** ** The aircraft *)
Definition z_of (C : pcomp) (o : string) (l : list (string * R)) : R := nval C o (fun x => match assoc x l with Some v => v | None => 0 end).
Definition z_K : R := dv "ac|propulsion|num_engines" * (dv "ac|propulsion|engine|rating" / s_orig).
Definition z_flow : R := z_K * f0.
Definition z_arm : R := dv "ac|geom|fuselage|length" / 2.
Definition z_MAC : R := z_of WingMACTrapezoidal "MAC" [("S_ref", dv "ac|geom|wing|S_ref"); ("AR", dv "ac|geom|wing|AR"); ("taper", dv "ac|geom|wing|taper")].
Definition z_hS : R := foot ^ 2 * z_of (HStabSizing C_ht_default) "ac|geom|hstab|S_ref"
  [("ac|geom|wing|S_ref", dv "ac|geom|wing|S_ref" / foot ^ 2); ("ac|geom|wing|MAC", z_MAC / foot); ("ac|geom|hstab|c4_to_wing_c4", z_arm / foot)].
Definition z_vS : R := foot ^ 2 * z_of (VStabSizing C_vt_default) "ac|geom|vstab|S_ref"
  [("ac|geom|wing|S_ref", dv "ac|geom|wing|S_ref" / foot ^ 2); ("ac|geom|wing|AR", dv "ac|geom|wing|AR" / 1); ("ac|geom|vstab|c4_to_wing_c4", z_arm / foot)].
Definition z_nS : R := z_of CylinderSurfaceArea "A" [("L", dv "ac|geom|nacelle|length"); ("D", dv "ac|geom|nacelle|diameter")].
Definition z_fS : R := z_of CylinderSurfaceArea "A" [("L", dv "ac|geom|fuselage|length"); ("D", dv "ac|geom|fuselage|height")].
Definition z_CLc : R := z_of (CleanCLmax 1) "CL_max_clean" [("ac|aero|airfoil_Cl_max", dv "ac|aero|airfoil_Cl_max"); ("ac|geom|wing|c4sweep", dv "ac|geom|wing|c4sweep")].
Definition z_CLt : R := z_of (FlapCLmax (2/10) (9/10) (1/10) (8/10) 1) "CL_max_flap"
  [("flap_extension", dv "ac|aero|takeoff_flap_deg"); ("ac|geom|wing|c4sweep", dv "ac|geom|wing|c4sweep"); ("ac|geom|wing|toverc", dv "ac|geom|wing|toverc"); ("CL_max_clean", z_CLc)].
Definition z_ac (x : string) : R :=
  match assoc x [("ac|weights|MTOW", MTOW); ("ac|weights|MLW", 8/10 * MTOW); ("ac|geom|wing|MAC", z_MAC); ("ac|geom|hstab|S_ref", z_hS); ("ac|geom|vstab|S_ref", z_vS);
    ("ac|geom|nacelle|S_wet", z_nS); ("ac|geom|fuselage|S_wet", z_fS); ("ac|aero|CLmax_cruise", z_CLc); ("ac|aero|CLmax_TO", z_CLt)] with Some v => v | None => dv x end.
(** ** The mission: 3000 m for an hour, 1000 m for ten minutes to the alternate, half an hour of loiter at 500 m *)
Definition zleg (h r t vs rf : R) : Proofs_Fly.flight :=
  {| f_h := h; f_r := r; f_T := t; f_vs := vs; f_eas := 150; f_dT := 0; f_m := 0; f_S := 0; f_LD := 0; f_Fmax := 0; f_rf := rf |}.
Definition z_end (h r t vs : R) : R := fly_range kt kp n (zleg h r t vs 0) (n - 1).
Definition z_r1 : R := z_end 0 0 300 10.
Definition z_r2 : R := z_end 3000 z_r1 3600 0.
Definition z_r3 : R := z_end 3000 z_r2 300 (- (10)).
Definition z_r4 : R := z_end 0 z_r3 100 10.
Definition z_r5 : R := z_end 1000 z_r4 600 0.
Definition z_r6 : R := z_end 1000 z_r5 100 (- (10)).
Definition z_leg (p : string) : Proofs_Fly.flight :=
  match assoc p [("climb", zleg 0 0 300 10 0); ("cruise", zleg 3000 z_r1 3600 0 z_r3); ("descent", zleg 3000 z_r2 300 (- (10)) 0);
    ("reserve_climb", zleg 0 z_r3 100 10 0); ("reserve_cruise", zleg 1000 z_r4 600 0 (z_r6 - z_r3)); ("reserve_descent", zleg 1000 z_r5 100 (- (10)) 0)]
  with Some f => f | None => zleg 500 z_r6 1800 0 0 end.
Definition z_flown (p : string) : R :=
  match assoc p [("climb", 0); ("cruise", 300); ("descent", 3900); ("reserve_climb", 4200); ("reserve_cruise", 4300); ("reserve_descent", 4900)] with Some t => t | None => 5000 end.
Definition z_m0 (p : string) : R := MTOW - z_flow * z_flown p.
Definition z_phase (p : string) : env := sjet kt kp n z_ac (Z p) (z_leg p) (z_m0 p) Fmax f0.
Definition z_trip : env := fun x i =>
  if glob "ac|*" x then z_ac x else
  match assoc x [("takeoff|h", 0); ("cruise|h0", 3000); ("mission_range", z_r3); ("reserve|h0", 1000); ("reserve_range", z_r6 - z_r3); ("loiter|h0", 500); ("loiter_duration", 1800);
    ("resrange.reserverange", z_r6 - z_r3)] with Some v => v | None =>
  match split_dot x with Some (p, y) => z_phase p y i | None => 0 end end.
Definition z_fuel : R := MTOW - (z_m0 "loiter" - z_K * f0 * 1800 * (INR (n - 1) / INR (n - 1))).
(** ** The analysis *)
Definition z_all : env := fun x i =>
  if String.eqb x "ac|weights|OEW" then T "OEW" i * pound else if String.eqb x "ac|weights|W_payload" then MTOW - T "OEW" 0%nat * pound - z_fuel
  else if starts "mission." x then z_trip (drop 8 x) i else if starts "empty_weight." x then T (drop 13 x) i * jet_units (drop 13 x)
  else if String.eqb x "tail_lever_arm_estimate.c4_to_wing_c4" then z_arm else z_ac x.
(** What the empty weight is estimated from. *)
Definition z_weigh : env := fun x _ =>
  (if String.eqb x "ac|weights|W_fuel_max" then z_fuel else if mem x ["ac|geom|hstab|c4_to_wing_c4"; "ac|geom|vstab|c4_to_wing_c4"] then z_arm else z_ac x) / jet_units x.

Hypothesis Tsol : solution (JetTransportEmptyWeight jet_defaults) T.
Hypothesis Tin : forall x i, ~ In x (group_outs (JetTransportEmptyWeight jet_defaults)) -> T x i = z_weigh x i.
Hypothesis Zsol : forall p, In p steady_phases -> solution (ParasiteDragCoefficient_JetTransport (configured drag_defaults false) n) (Z p) /\
  forall x i, In x (flight_inputs ++ jet_scalars true) -> Z p x i = s_base kt kp n z_ac (z_leg p) x i.
Variables (X : mat).
Hypothesis (MS : method_size Simpson n) (HX : is_inverse (n - 1) simpson_a X) (Hp : pressure_coeffs kp).
Hypothesis (HK : z_K * Fmax <> 0) (H0 : 0 <= z_flow) (H1 : z_flow * 6800 < MTOW).
Let tri := method_tri Simpson n X.
Let A := SizedB738 (sized_deck Fmax f0) tri.
Lemma z_last p m : s_m n z_ac (z_leg p) m f0 (n - 1) = m - z_flow * f_T (z_leg p).
Proof.
  assert (0 < INR (n - 1)) by (destruct MS; apply lt_0_INR; lia). unfold s_m. change (s_K z_ac) with z_K. unfold z_flow. field. lra.
Qed.
Lemma z_flies p : In p steady_phases -> solution (phase_group kt kp tri n A p SteadyP) (z_phase p).
Proof.
  intro Ip. assert (Hn : 0 < INR (n - 1)) by (destruct MS; apply lt_0_INR; lia).
  assert (FR : forall i, (i < n)%nat -> 0 <= INR i / INR (n - 1) <= 1).
  { intros i Hi. assert (0 <= INR i <= INR (n - 1)) by (split; [apply pos_INR | apply le_INR; lia]).
    split; [apply Rdiv_le_0_compat; lra|]. apply (Rmult_le_reg_r (INR (n - 1))); auto. unfold Rdiv. rewrite Rmult_assoc, Rinv_l by lra. lra. }
  assert (B : 0 <= f_T (z_leg p) /\ 0 <= z_flown p /\ z_flown p + f_T (z_leg p) <= 6800 /\ (forall a, 0 <= a <= 1 -> f_h (z_leg p) + f_T (z_leg p) * f_vs (z_leg p) * a <= 3000)).
  { cbn in Ip. repeat (destruct Ip as [<-|Ip]; [cbn; repeat split; intros; lra|]). contradiction. }
  destruct B as (B1 & B2 & B3 & B4). destruct (Zsol p Ip) as [Z1 Z2]. unfold z_phase, A, tri. apply sized_steady; auto.
  - intros i Hi. specialize (FR i Hi). unfold s_m. change (s_K z_ac * f0) with z_flow. unfold z_m0.
    assert (z_flow * f_T (z_leg p) * (INR i / INR (n - 1)) <= z_flow * f_T (z_leg p)) by (assert (0 <= z_flow * f_T (z_leg p)) by nra; nra). nra.
  - intros i Hi. assert (fly_h n (z_leg p) i < h_max) by (unfold fly_h, h_max; specialize (B4 _ (FR i Hi)); lra).
    destruct (press_positive kp _ Hp H) as (q & E & _). eauto.
Qed.
Lemma z_mission : exists G, mission_group kt kp tri n A reserved = Ok G /\ solution G z_trip.
Proof.
  pose (M0 := {| eta_map := fun _ _ => 0; static_map := fun _ => 0 |}).
  assert (FI : In A (fleet M0 (sized_deck Fmax f0) tri)) by (unfold fleet; cbn [In]; tauto).
  destruct (fleet_missions M0 (sized_deck Fmax f0) kt kp tri n A reserved FI ltac:(discriminate)) as [M _].
  destruct (mission_sets_up_ok _ _ _ _ _ _ M ltac:(discriminate)) as (cs & Hm & HG). rewrite HG. eexists. split; [reflexivity|].
  vm_compute in Hm. injection Hm as <-. set (G := {| g_subs := _; g_conns := _ |}).
  assert (Hn : 0 < INR (n - 1)) by (destruct MS; apply lt_0_INR; lia).
  assert (OU : forall p y i, In p steady_phases -> z_phase p y i = z_trip (sub p y) i).
  { intros p y i Ip. unfold z_trip. rewrite split_sub by (apply all_dotless; cbn in Ip |- *; tauto). cbn in Ip. repeat (destruct Ip as [<-|Ip]; [reflexivity|]). contradiction. }
  assert (HL : forall p, fly_h n (z_leg p) (n - 1) = f_h (z_leg p) + f_T (z_leg p) * f_vs (z_leg p)) by (intro p; unfold fly_h; field; lra).
  assert (FL : forall p, s_MTOW z_ac - s_m n z_ac (z_leg p) (z_m0 p) f0 (n - 1) = z_flow * (z_flown p + f_T (z_leg p))) by (intro p; rewrite z_last; change (s_MTOW z_ac) with MTOW; unfold z_m0; ring).
  assert (FS : forall p, s_MTOW z_ac - z_m0 p = z_flow * z_flown p) by (intro p; change (s_MTOW z_ac) with MTOW; unfold z_m0; ring).
  assert (PH : forall p, In p steady_phases ->
    (forall c, In c (map (fun x => (x, source G (gname p [P "ac|*"] x))) (free_ins (phase_group kt kp tri n A p SteadyP))) -> forall i, z_phase p (fst c) i = z_trip (snd c) i) ->
    gs_rel (phase_sub kt kp tri n A (p, SteadyP)) (reads G (phase_sub kt kp tri n A (p, SteadyP)) z_trip) (writes (phase_sub kt kp tri n A (p, SteadyP)) z_trip)).
  { intros p Ip C. exists (z_phase p). split; [now apply z_flies|split].
    - intros x i Hx. unfold reads. cbn [phase_sub subgroup nested gs_name gs_pin fst snd].
      assert (PP : phase_promotes p = [P "ac|*"]) by (cbn in Ip; repeat (destruct Ip as [<-|Ip]; [reflexivity|]); contradiction). rewrite PP.
      exact (tied (fun a b => z_phase p a i = z_trip b i) _ _ (fun c Hc => C c Hc i) x Hx).
    - intros y i Hy. apply (OU p y i Ip). }
  intros s Hs. change (g_subs G) with (mission_subs kt kp tri n A reserved) in Hs. cbn [mission_subs profile_phases reserved pf_takeoff pf_reserve pf_ground_roll app map negb andb pf_basic] in Hs.
  assert (h0 : fly_h n (z_leg "climb") (n - 1) = 3000) by (rewrite HL; cbn; ring).
  assert (h1 : fly_h n (z_leg "cruise") (n - 1) = 3000) by (rewrite HL; cbn; ring).
  assert (h2 : fly_h n (z_leg "descent") (n - 1) = 0) by (rewrite HL; cbn; ring).
  assert (h3 : fly_h n (z_leg "reserve_climb") (n - 1) = 1000) by (rewrite HL; cbn; ring).
  assert (h4 : fly_h n (z_leg "reserve_cruise") (n - 1) = 1000) by (rewrite HL; cbn; ring).
  assert (h5 : fly_h n (z_leg "reserve_descent") (n - 1) = 0) by (rewrite HL; cbn; ring).
  assert (g0 : s_MTOW z_ac - z_m0 "cruise" = s_MTOW z_ac - s_m n z_ac (z_leg "climb") (z_m0 "climb") f0 (n - 1)) by (rewrite FL, FS; cbn; ring).
  assert (g1 : s_MTOW z_ac - z_m0 "descent" = s_MTOW z_ac - s_m n z_ac (z_leg "cruise") (z_m0 "cruise") f0 (n - 1)) by (rewrite FL, FS; cbn; ring).
  assert (g2 : s_MTOW z_ac - z_m0 "reserve_climb" = s_MTOW z_ac - s_m n z_ac (z_leg "descent") (z_m0 "descent") f0 (n - 1)) by (rewrite FL, FS; cbn; ring).
  assert (g3 : s_MTOW z_ac - z_m0 "reserve_cruise" = s_MTOW z_ac - s_m n z_ac (z_leg "reserve_climb") (z_m0 "reserve_climb") f0 (n - 1)) by (rewrite FL, FS; cbn; ring).
  assert (g4 : s_MTOW z_ac - z_m0 "reserve_descent" = s_MTOW z_ac - s_m n z_ac (z_leg "reserve_cruise") (z_m0 "reserve_cruise") f0 (n - 1)) by (rewrite FL, FS; cbn; ring).
  assert (g5 : s_MTOW z_ac - z_m0 "loiter" = s_MTOW z_ac - s_m n z_ac (z_leg "reserve_descent") (z_m0 "reserve_descent") f0 (n - 1)) by (rewrite FL, FS; cbn; ring).
  assert (g : s_MTOW z_ac - z_m0 "climb" = 0) by (rewrite FS; cbn; ring).
  assert (LK : forall p, In p steady_phases -> forall c, In c (map (fun x => (x, source G (gname p [P "ac|*"] x))) (free_ins (phase_group kt kp tri n A p SteadyP))) -> forall i, z_phase p (fst c) i = z_trip (snd c) i).
  { intros p Ip c Hc i. cbn in Ip.
    repeat (destruct Ip as [<-|Ip]; [vm_compute in Hc; repeat (destruct Hc as [<-|Hc]; [cbn [fst snd]; (lazymatch goal with
    | |- z_phase "cruise" "fuel_burn_integ.fuel_burn_initial" _ = _ => exact g0
    | |- z_phase "descent" "fuel_burn_integ.fuel_burn_initial" _ = _ => exact g1
    | |- z_phase "reserve_climb" "fuel_burn_integ.fuel_burn_initial" _ = _ => exact g2
    | |- z_phase "reserve_cruise" "fuel_burn_integ.fuel_burn_initial" _ = _ => exact g3
    | |- z_phase "reserve_descent" "fuel_burn_integ.fuel_burn_initial" _ = _ => exact g4
    | |- z_phase "loiter" "fuel_burn_integ.fuel_burn_initial" _ = _ => exact g5
    | |- z_phase "cruise" "ode_integ_phase.fltcond|h_initial" _ = _ => exact (eq_sym h0)
    | |- z_phase "descent" "ode_integ_phase.fltcond|h_initial" _ = _ => exact (eq_sym h1)
    | |- z_phase "reserve_cruise" "ode_integ_phase.fltcond|h_initial" _ = _ => exact (eq_sym h3)
    | |- z_phase "reserve_descent" "ode_integ_phase.fltcond|h_initial" _ = _ => exact (eq_sym h4)
    | |- z_phase "climb" "climbdt.cruise|h0" _ = _ => exact h0
    | |- z_phase "descent" "descentdt.takeoff|h" _ = _ => exact h2
    | |- z_phase "reserve_climb" "reserve_climbdt.reserve|h0" _ = _ => exact h3
    | |- z_phase "reserve_descent" "reserve_descentdt.takeoff|h" _ = _ => exact h5
    | _ => reflexivity end)|]); contradiction|]). contradiction. }
  repeat (destruct Hs as [<-|Hs]; [first [exact I | apply PH; [cbn; tauto|apply LK; cbn; tauto]]|]). 
  destruct Hs as [<-|[]]. reflexivity.
Qed.
Ltac single A := cbn in A; match type of A with (if ?c then _ else _) = _ => let E := fresh "E" in destruct c eqn:E;
  [apply String.eqb_eq in E; rewrite E; clear E; injection A as <- <- | discriminate A] end.
Lemma z_solves : exists G, mission_group kt kp tri n A reserved = Ok G /\ solution (SizingMissionAnalysis G) z_all.
Proof.
  destruct z_mission as (G & EG & SG). exists G. split; [exact EG|].
  pose (M0 := {| eta_map := fun _ _ => 0; static_map := fun _ => 0 |}).
  assert (FI : In A (fleet M0 (sized_deck Fmax f0) tri)) by (unfold fleet; cbn [In]; tauto).
  destruct (fleet_missions M0 (sized_deck Fmax f0) kt kp tri n A reserved FI ltac:(discriminate)) as [M _].
  destruct (mission_sets_up_ok _ _ _ _ _ _ M ltac:(discriminate)) as (cs & Hm & HG). rewrite EG in HG. injection HG as HG. vm_compute in Hm. injection Hm as <-.
  assert (IN : (let H := SizingMissionAnalysis G in forallb (fun x => if glob "ac|*" x
      then String.eqb (source H x) x && negb (mem x ["ac|weights|OEW"; "ac|weights|W_payload"; "tail_lever_arm_estimate.c4_to_wing_c4"] || starts "mission." x || starts "empty_weight." x)
      else String.eqb (source H (sub "mission" x)) (sub "mission" x)) (free_ins G)) = true) by (rewrite HG; vm_compute; reflexivity).
  cbv zeta in IN. rewrite forallb_forall in IN. clear HG EG M FI M0.
  assert (FT : 0 < foot) by (unfold foot; lra).
  intros s Hs. set (H := SizingMissionAnalysis G) in *. cbn [H SizingMissionAnalysis g_subs] in Hs.
  destruct Hs as [<-|[<-|[<-|[<-|[<-|[<-|[<-|[<-|[<-|[<-|[<-|[<-|[<-|[]]]]]]]]]]]]]].
  - exact I.
  - intros i Hi. assert (i = 0)%nat as -> by lia. etransitivity; [exact (lever_value _)|]. reflexivity.
  - intros o k g i A' Hi. single A'. reflexivity.
  - intros o k g i A' Hi. single A'. change (z_vS / foot ^ 2 = z_of (VStabSizing C_vt_default) "ac|geom|vstab|S_ref"
      [("ac|geom|wing|S_ref", dv "ac|geom|wing|S_ref" / foot ^ 2); ("ac|geom|wing|AR", dv "ac|geom|wing|AR" / 1); ("ac|geom|vstab|c4_to_wing_c4", z_arm / foot)]).
    unfold z_vS. field. lra.
  - intros o k g i A' Hi. single A'. change (z_hS / foot ^ 2 = z_of (HStabSizing C_ht_default) "ac|geom|hstab|S_ref"
      [("ac|geom|wing|S_ref", dv "ac|geom|wing|S_ref" / foot ^ 2); ("ac|geom|wing|MAC", z_MAC / foot); ("ac|geom|hstab|c4_to_wing_c4", z_arm / foot)]).
    unfold z_hS. field. lra.
  - intros o k g i A' Hi. single A'. reflexivity.
  - intros o k g i A' Hi. single A'. reflexivity.
  - intros i Hi. assert (i = 0)%nat as -> by lia. etransitivity; [exact (landing_value _)|]. reflexivity.
  - exists T. split; [exact Tsol|split].
    + intros x i Hx. change (In x (free_ins (JetTransportEmptyWeight jet_defaults))) in Hx.
      assert (NO : ~ In x (group_outs (JetTransportEmptyWeight jet_defaults))).
      { assert (F : forallb (fun x => negb (mem x (group_outs (JetTransportEmptyWeight jet_defaults)))) (free_ins (JetTransportEmptyWeight jet_defaults)) = true) by (vm_compute; reflexivity).
        rewrite forallb_forall in F. specialize (F x Hx). intro K. apply mem_In in K. now rewrite K in F. }
      rewrite (Tin x i NO). unfold reads. cbn [converted subgroup nested gs_name gs_pin]. unfold z_weigh. f_equal.
      vm_compute in Hx. repeat (destruct Hx as [<-|Hx]; [reflexivity|]). contradiction.
    + intros y i Hy. unfold writes. cbn [converted subgroup nested gs_name gs_pout].
      assert (N : gname "empty_weight" [As "OEW" "ac|weights|OEW"] y = if String.eqb "OEW" y then "ac|weights|OEW" else sub "empty_weight" y).
      { unfold gname, promoted. cbn [find existsb promo_match]. destruct (String.eqb "OEW" y); reflexivity. }
      rewrite N. pose proof (unit_pos y) as UP. destruct (String.eqb "OEW" y) eqn:EO.
      * apply String.eqb_eq in EO. subst y. change (T "OEW" i = T "OEW" i * pound / pound). unfold pound. field.
      * change (z_all (sub "empty_weight" y) i) with (T y i * jet_units y). field. lra.
  - intros o k g i A' Hi. single A'. reflexivity.
  - intros o k g i A' Hi. single A'. reflexivity.
  - intros i Hi. assert (i = 0)%nat as -> by lia. etransitivity; [exact (takeoff_value _)|]. f_equal.
    change (T "OEW" 0%nat * pound + (MTOW - T "OEW" 0%nat * pound - z_fuel) + z_fuel = MTOW). ring.
  - exists z_trip. split; [exact SG|split].
    + intros x i Hx. specialize (IN x Hx). unfold reads. cbn [subgroup nested gs_name gs_pin].
      assert (N : gname "mission" [P "ac|*"] x = if glob "ac|*" x then x else sub "mission" x).
      { unfold gname, promoted. cbn [find existsb promo_match]. destruct (glob "ac|*" x); reflexivity. }
      rewrite N. destruct (glob "ac|*" x) eqn:EG.
      * apply andb_prop in IN. destruct IN as [I1 I2]. apply String.eqb_eq in I1. rewrite I1. unfold z_trip. rewrite EG.
        apply negb_true_iff in I2. apply orb_false_iff in I2. destruct I2 as [I2 I4]. apply orb_false_iff in I2. destruct I2 as [I2 I3].
        unfold mem in I2. cbn [existsb] in I2. apply orb_false_iff in I2. destruct I2 as [J1 I2]. apply orb_false_iff in I2. destruct I2 as [J2 I2]. apply orb_false_iff in I2. destruct I2 as [J3 _].
        unfold z_all. now rewrite J1, J2, I3, I4, J3.
      * apply String.eqb_eq in IN. rewrite IN. change (z_trip x i = z_trip x i). reflexivity.
    + intros y i Hy. reflexivity.
Qed.
End Sizing.
