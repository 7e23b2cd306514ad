(** Steady flight in closed form of the airliner with engines whose thrust follows the throttle and whose fuel flow is constant. *)
From Coq Require Import Reals List Bool PeanoNat String Lia Lra.
From Verif Require Import Base Py RSum Model_Algebra Model_Vectors Model_Integrals Spec_Integrals Proofs_Integrals Proofs_IntegMore
  Model_Atmos Proofs_Atmos Model_Aero Model_Phases Model_Mission Model_Net Proofs_Net Model_Thermal Model_HX Model_Ducts Model_HeatPipe
  Model_Systems Model_Flight Spec_Flight Proofs_Flight Proofs_Fly Model_Fleet Proofs_Fleet.
Import ListNotations.
Open Scope R_scope.
Open Scope string_scope.
Open Scope list_scope.

Section Jet.
Variables (kt kp : coeffs) (n : nat) (f : flight) (m0 MTOW f0 CD0 e AR OEW : R).
Definition even_deck : deck := {| dk_thrust := fun t _ _ => f_Fmax f * t; dk_fuel := fun _ _ _ => f0; dk_T4 := fun _ _ _ => 0 |}.
Definition jet_m (i : nat) : R := m0 - 2 * f0 * f_T f * (INR i / INR (n - 1)).
Definition jet_CL (i : nat) : R := fly_cos kt kp n f i * GRAV * jet_m i / fly_q kt kp n f i / f_S f.
Definition jet_lift (i : nat) : R := fly_q kt kp n f i * f_S f * jet_CL i.
Definition jet_drag (i : nat) : R := fly_q kt kp n f i * f_S f * (CD0 + jet_CL i ^ 2 / PI / e / AR).
Definition jet_thrust (i : nat) : R := jet_drag i + jet_m i * GRAV * fly_sin kt kp n f i.
Definition jet : env := fun x i =>
  match assoc x
    [("weight", jet_m i); ("fltcond|CL", jet_CL i); ("lift", jet_lift i); ("drag", jet_drag i); ("thrust", jet_thrust i); ("throttle", jet_thrust i / 2 / f_Fmax f);
     ("ac|weights|MTOW", MTOW); ("ac|weights|OEW", OEW); ("OEW", OEW); ("ac|aero|polar|CD0_cruise", CD0); ("ac|aero|polar|e", e); ("ac|geom|wing|AR", AR);
     ("propmodel.thrust", jet_thrust i / 2); ("propmodel.fuel_flow", f0); ("fuel_flow", 2 * f0); ("ode_integ.duration", f_T f);
     ("fuel_used_initial", MTOW - m0); ("fuel_used_final", MTOW - jet_m (n - 1)); ("fuel_used", MTOW - jet_m i)] with Some v => v | None => fly kt kp n f x i end.
Lemma jet_atmosphere : (forall i, (i < n)%nat -> exists p, compute_pressure kp (fly_h n f i) (get_masks (fly_h n f i)) = Some p) -> solution (atmosphere kt kp n false) jet.
Proof.
  intros Hp s Hs. cbn [atmosphere g_subs app] in Hs.
  destruct Hs as [<-|[<-|[<-|[<-|[<-|[<-|[<-|[]]]]]]]].
  - intros i Hi. reflexivity.
  - intros i Hi. destruct (Hp i Hi) as [p E].
    change (compute_pressure kp (fly_h n f i) (get_masks (fly_h n f i)) = Some (fly_p kp n f i)). unfold fly_p. now rewrite E.
  - intros o k g i A Hi. by_out A. reflexivity.
  - intros o k g i A Hi. by_out A. reflexivity.
  - intros o k g i A Hi. by_out A. reflexivity.
  - intros o k g i A Hi. by_out A. reflexivity.
  - intros o k g i A Hi. by_out A. reflexivity.
Qed.
Lemma jet_steady p X : In p ["climb"; "cruise"; "descent"] -> method_size Simpson n -> is_inverse (n - 1) simpson_a X ->
  (forall i, (i < n)%nat -> jet_m i <> 0) -> f_Fmax f <> 0 ->
  (forall i, (i < n)%nat -> exists p, compute_pressure kp (fly_h n f i) (get_masks (fly_h n f i)) = Some p) ->
  solution (phase_group kt kp (method_tri Simpson n X) n (B738 even_deck (method_tri Simpson n X)) p SteadyP) jet.
Proof.
  intros Ip MS HX Hm HF Hp.
  assert (Hn : INR (n - 1) <> 0) by (destruct MS; apply not_0_INR; lia).
  assert (AI : forall i, (i < n)%nat -> fly_h n f i = f_h f + f_T f / INR (n - 1) * area (fun _ => f_vs f) i).
  { intros i Hi. rewrite area_const. unfold fly_h. field. exact Hn. }
  assert (ZA : forall i, (i < n)%nat -> jet_thrust i / jet_m i - jet_drag i / jet_m i - floor_vec (fun x => jet x i) * 0 * (GRAV - jet_lift i / jet_m i) - GRAV * fly_sin kt kp n f i = 0)
    by (intros i Hi; unfold jet_thrust; field; auto).
  assert (N1 : (n - 1 < n)%nat) by (destruct MS; lia).
  assert (FU : forall i, (i < n)%nat -> MTOW - jet_m i = MTOW - m0 + f_T f / INR (n - 1) * area (fun _ => 2 * f0) i).
  { intros i Hi. rewrite area_const. unfold jet_m. field. exact Hn. }
  assert (At := jet_atmosphere Hp).
  intros s Hs. set (A := B738 _ _) in *. set (G := phase_group _ _ _ _ _ _ _) in *.
  assert (ISTEP : gs_rel (integrators n (method_tri Simpson n X) "ode_integ_phase"
       [integ_std "fltcond|h" "fltcond|vs" false; integ_std "range" "fltcond|groundspeed" false]
       [P "fltcond|vs"; P "fltcond|groundspeed"] [P "fltcond|h"; P "range"])
     (fun x => if String.eqb x "duration" then jet "duration" else if String.eqb x "fltcond|h_initial" then jet "ode_integ_phase.fltcond|h_initial"
               else if String.eqb x "range_initial" then jet "ode_integ_phase.range_initial" else jet x)
     (fun x => if String.eqb x "fltcond|h_final" then jet "ode_integ_phase.fltcond|h_final" else if String.eqb x "range_final" then jet "ode_integ_phase.range_final" else jet x)).
  { intros sp [<-|[<-|[]]]; (split; [intros i Hi; rewrite integ_area by auto | rewrite integ_final_area by auto]).
    - apply AI, Hi.
    - apply AI, N1.
    - reflexivity.
    - reflexivity. }
  assert (FA : free_ins (atmosphere kt kp n false) = ["fltcond|h"; "fltcond|TempIncrement"; "fltcond|h"; "fltcond|Ueas"]) by reflexivity.
  assert (FM : free_ins (ac_model A n p) = ["ode_integ.duration"; "fuel_used_initial"; "throttle"; "fltcond|h"; "fltcond|M"; "fltcond|CL"; "fltcond|q"; "ac|geom|wing|S_ref";
      "ac|aero|polar|CD0_cruise"; "ac|aero|polar|e"; "ac|geom|wing|AR"; "ac|weights|OEW"; "ac|weights|MTOW"]) by (destruct Ip as [<-|[<-|[<-|[]]]]; reflexivity).
  assert (PD : cd0_source p = "ac|aero|polar|CD0_cruise") by (destruct Ip as [<-|[<-|[<-|[]]]]; reflexivity).
  assert (AM : solution (ac_model A n p) jet).
  { cbn [A B738 ac_model]. intros s' Hs'. cbn [B738Model g_subs] in Hs'. destruct Hs' as [<-|[<-|[<-|[<-|[<-|[<-|[]]]]]]].
    - intros sp [<-|[]]. split; [intros i Hi; rewrite integ_area by auto; exact (FU i Hi)|]. rewrite integ_final_area by auto. exact (FU _ N1).
    - intros i Hi. split; [|split; reflexivity]. change (jet_thrust i / 2 = f_Fmax f * (jet_thrust i / 2 / f_Fmax f)). field. exact HF.
    - intros o k g i A' Hi. by_out A'; [change (jet_thrust i = 2 * (jet_thrust i / 2)); field|reflexivity].
    - unfold polar. rewrite PD. intros o k g i A' Hi. by_out A'. reflexivity.
    - intros o k g i A' Hi. by_out A'; reflexivity.
    - intros i Hi. etransitivity; [exact (weight_value n _ i Hi)|]. f_equal. change (MTOW - (MTOW - jet_m i) = jet_m i). ring. }
  destruct Ip as [<-|[<-|[<-|[]]]]; cbn [G phase_group SteadyFlightPhase setter_of fst snd g_subs app] in Hs.
  all: (destruct Hs as [<-|[<-|[<-|[<-|[<-|[<-|[<-|[<-|[<-|[<-|[]]]]]]]]]]];
    [ exact I
    | intros sp Hsp; pose proof (ISTEP sp Hsp) as K; destruct Hsp as [<-|[<-|[]]]; exact K
    | exists jet; split; [exact At|split]; [tie FA x | intros; unfold writes; cbn [subgroup nested gs_name gs_pout]; now rewrite gname_star]
    | intros o k g i A' Hi; by_out A'; reflexivity
    | exists jet; split; [exact AM|split]; [tie FM x | intros; unfold writes; cbn [subgroup nested gs_name gs_pout]; now rewrite gname_star]
    | intros o k g i A' Hi; by_out A'; reflexivity
    | intros o k g i A' Hi; by_out A'; reflexivity
    | intros o k g i A' Hi; by_out A'; symmetry; exact (ZA i Hi)
    | intros i Hi; reflexivity
    | intros i Hi; assert (i = 0)%nat as -> by lia; reflexivity]).
Qed.
End Jet.
