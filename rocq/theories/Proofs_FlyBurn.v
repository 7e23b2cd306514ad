(** Steady flight in closed form of the minimal aircraft that burns fuel: the masses at the nodes are given. *)
From Coq Require Import Reals List Bool PeanoNat String Lia Lra.
From Verif Require Import Base Py RSum Model_Algebra Model_Vectors Model_Integrals Spec_Integrals Proofs_Integrals Proofs_IntegMore
  Model_Atmos Proofs_Atmos Model_Aero Model_Phases Model_Mission Model_Net Proofs_Net Model_Thermal Model_HX Model_Ducts Model_HeatPipe
  Model_Systems Model_Flight Spec_Flight Proofs_Flight Proofs_Fly.
Import ListNotations.
Open Scope R_scope.
Open Scope string_scope.
Open Scope list_scope.

Section Burn.
Variables (kt kp : coeffs) (n : nat) (f : flight) (m : nat -> R) (TOW TSFC : R).
(** Thrust per mass: against the drag of the wing that carries it and against gravity. *)
Definition pull (i : nat) : R := fly_q kt kp n f i * (fly_cos kt kp n f i * GRAV / fly_q kt kp n f i / f_S f) * f_S f / f_LD f + GRAV * fly_sin kt kp n f i.
Definition burn_CL (i : nat) : R := fly_cos kt kp n f i * GRAV * m i / fly_q kt kp n f i / f_S f.
Definition burn_lift (i : nat) : R := fly_q kt kp n f i * f_S f * burn_CL i.
Definition burn_drag (i : nat) : R := fly_q kt kp n f i * burn_CL i * f_S f / f_LD f.
Definition burn_thrust (i : nat) : R := burn_drag i + m i * GRAV * fly_sin kt kp n f i.
Definition burn_used (i : nat) : R := TOW - m i.
Lemma burn_pull i : burn_thrust i = pull i * m i.
Proof. unfold burn_thrust, burn_drag, burn_CL, pull, Rdiv. ring. Qed.
Definition burning : env := fun x i =>
  match assoc x
    [("weight", m i); ("fltcond|CL", burn_CL i); ("lift", burn_lift i); ("drag", burn_drag i); ("thrust", burn_thrust i); ("throttle", burn_thrust i / f_Fmax f);
     ("ac|weights|TOW", TOW); ("simple_aircraft.weight", TOW); ("ac|propulsion|TSFC", TSFC); ("fuel_flow_calc.fuel_flow", TSFC * burn_thrust i);
     ("fuel_integrator.duration", f_T f); ("fuel_integrator.fuel_burned_initial", burn_used 0); ("fuel_integrator.fuel_burned_final", burn_used (n - 1));
     ("fuel_integrator.fuel_burned", burn_used i)] with Some v => v | None => fly kt kp n f x i end.
Lemma burn_atmosphere : (forall i, (i < n)%nat -> exists p, compute_pressure kp (fly_h n f i) (get_masks (fly_h n f i)) = Some p) -> solution (atmosphere kt kp n false) burning.
Proof.
  intros Hp s Hs. cbn [atmosphere g_subs app] in Hs.
  destruct Hs as [<-|[<-|[<-|[<-|[<-|[<-|[<-|[]]]]]]]].
  - intros i Hi. reflexivity.
  - intros i Hi. destruct (Hp i Hi) as [p E].
    change (compute_pressure kp (fly_h n f i) (get_masks (fly_h n f i)) = Some (fly_p kp n f i)). unfold fly_p. now rewrite E.
  - intros o k g i A Hi. by_out A. reflexivity.
  - intros o k g i A Hi. by_out A. reflexivity.
  - intros o k g i A Hi. by_out A. reflexivity.
  - intros o k g i A Hi. by_out A. reflexivity.
  - intros o k g i A Hi. by_out A. reflexivity.
Qed.
Lemma burn_steady p X : In p ["climb"; "cruise"; "descent"] -> method_size Simpson n -> is_inverse (n - 1) simpson_a X ->
  (forall i, (i < n)%nat -> m i <> 0) -> f_Fmax f <> 0 ->
  (forall i, (i < n)%nat -> exists p, compute_pressure kp (fly_h n f i) (get_masks (fly_h n f i)) = Some p) ->
  (forall i, (i < n)%nat -> m i = m 0%nat - f_T f / INR (n - 1) * area (fun j => TSFC * (pull j * m j)) i) ->
  solution (phase_group kt kp (method_tri Simpson n X) n (minimal_integrator (method_tri Simpson n X)) p SteadyP) burning.
Proof.
  intros Ip MS HX Hm HF Hp HM.
  assert (Hn : INR (n - 1) <> 0) by (destruct MS; apply not_0_INR; lia).
  assert (AI : forall i, (i < n)%nat -> fly_h n f i = f_h f + f_T f / INR (n - 1) * area (fun _ => f_vs f) i).
  { intros i Hi. rewrite area_const. unfold fly_h. field. exact Hn. }
  assert (ZA : forall i, (i < n)%nat -> burn_thrust i / m i - burn_drag i / m i - floor_vec (fun x => burning x i) * 0 * (GRAV - burn_lift i / m i) - GRAV * fly_sin kt kp n f i = 0)
    by (intros i Hi; unfold burn_thrust; field; auto).
  assert (N1 : (n - 1 < n)%nat) by (destruct MS; lia).
  assert (FU : forall i, (i < n)%nat -> burn_used i = burn_used 0 + f_T f / INR (n - 1) * area (fun j => TSFC * burn_thrust j) i).
  { intros i Hi. unfold burn_used. rewrite (HM i Hi) at 1. replace (fun j => TSFC * burn_thrust j) with (fun j => TSFC * (pull j * m j)); [ring|].
    apply FunctionalExtensionality.functional_extensionality. intro j. now rewrite burn_pull. }
  assert (At := burn_atmosphere Hp).
  intros s Hs. set (A := minimal_integrator _) in *. set (G := phase_group _ _ _ _ _ _ _) in *.
  assert (ISTEP : gs_rel (integrators n (method_tri Simpson n X) "ode_integ_phase"
       [integ_std "fltcond|h" "fltcond|vs" false; integ_std "range" "fltcond|groundspeed" false]
       [P "fltcond|vs"; P "fltcond|groundspeed"] [P "fltcond|h"; P "range"])
     (fun x => if String.eqb x "duration" then burning "duration" else if String.eqb x "fltcond|h_initial" then burning "ode_integ_phase.fltcond|h_initial"
               else if String.eqb x "range_initial" then burning "ode_integ_phase.range_initial" else burning x)
     (fun x => if String.eqb x "fltcond|h_final" then burning "ode_integ_phase.fltcond|h_final" else if String.eqb x "range_final" then burning "ode_integ_phase.range_final" else burning x)).
  { intros sp [<-|[<-|[]]]; (split; [intros i Hi; rewrite integ_area by auto | rewrite integ_final_area by auto]).
    - apply AI, Hi.
    - apply AI, N1.
    - reflexivity.
    - reflexivity. }
  assert (FA : free_ins (atmosphere kt kp n false) = ["fltcond|h"; "fltcond|TempIncrement"; "fltcond|h"; "fltcond|Ueas"]) by reflexivity.
  assert (FM : free_ins (ac_model A n p) = ["fltcond|CL"; "throttle"; "fltcond|q"; "ac|geom|wing|S_ref"; "ac|weights|TOW"; "ac|propulsion|max_thrust"; "ac|aero|L_over_D";
     "ac|propulsion|TSFC"; "fuel_integrator.duration"; "fuel_integrator.fuel_burned_initial"; "ac|weights|TOW"]) by reflexivity.
  assert (AM : solution (ac_model A n p) burning).
  { intros s' [<-|[<-|[<-|[<-|[]]]]].
    - intros o k g i A' Hi. by_out A'; try reflexivity. change (burn_thrust i = burn_thrust i / f_Fmax f * f_Fmax f). field. exact HF.
    - intros o k g i A' Hi. by_out A'; reflexivity.
    - intros sp [<-|[]]. split; [intros i Hi; rewrite integ_area by auto; exact (FU i Hi)|]. rewrite integ_final_area by auto. exact (FU _ N1).
    - intros o k g i A' Hi. by_out A'. change (m i = TOW - (TOW - m i)). ring. }
  destruct Ip as [<-|[<-|[<-|[]]]]; cbn [G phase_group SteadyFlightPhase setter_of fst snd g_subs app] in Hs.
  all: (destruct Hs as [<-|[<-|[<-|[<-|[<-|[<-|[<-|[<-|[<-|[<-|[]]]]]]]]]]];
    [ exact I
    | intros sp Hsp; pose proof (ISTEP sp Hsp) as K; destruct Hsp as [<-|[<-|[]]]; exact K
    | exists burning; split; [exact At|split]; [tie FA x | intros; unfold writes; cbn [subgroup nested gs_name gs_pout]; now rewrite gname_star]
    | intros o k g i A' Hi; by_out A'; reflexivity
    | exists burning; split; [exact AM|split]; [tie FM x | intros; unfold writes; cbn [subgroup nested gs_name gs_pout]; now rewrite gname_star]
    | intros o k g i A' Hi; by_out A'; reflexivity
    | intros o k g i A' Hi; by_out A'; reflexivity
    | intros o k g i A' Hi; by_out A'; symmetry; exact (ZA i Hi)
    | intros i Hi; reflexivity
    | intros i Hi; assert (i = 0)%nat as -> by lia; reflexivity]).
Qed.
End Burn.

(** The masses at three nodes when the fuel flow is a given part [u 0], [u 1], [u 2] of the mass, per 1/24 of the phase. *)
Definition det3 (u : nat -> R) : R := (1 + 8 * u 1%nat) * (1 + 4 * u 2%nat) + 16 * u 1%nat * u 2%nat.
Definition mass3 (m0 : R) (u : nat -> R) (i : nat) : R :=
  match i with
  | O => m0
  | 1%nat => m0 * ((1 - 5 * u 0%nat) * (1 + 4 * u 2%nat) + u 2%nat * (1 - 4 * u 0%nat)) / det3 u
  | _ => m0 * ((1 + 8 * u 1%nat) * (1 - 4 * u 0%nat) - 16 * u 1%nat * (1 - 5 * u 0%nat)) / det3 u
  end.
Lemma mass3_solves m0 u T g : det3 u <> 0 -> (forall i, u i = T / 24 * g i) ->
  forall i, (i < 3)%nat -> mass3 m0 u i = mass3 m0 u 0%nat - T / INR (3 - 1) * area (fun j => g j * mass3 m0 u j) i.
Proof.
  intros D E i Hi. assert (K : INR (3 - 1) = 2) by (cbn; lra).
  assert (S0 : strip (fun j => g j * mass3 m0 u j) 0 = (5 * (g 0%nat * mass3 m0 u 0%nat) + 8 * (g 1%nat * mass3 m0 u 1%nat) - g 2%nat * mass3 m0 u 2%nat) / 12) by reflexivity.
  assert (S1 : strip (fun j => g j * mass3 m0 u j) 1 = (- (g 0%nat * mass3 m0 u 0%nat) + 8 * (g 1%nat * mass3 m0 u 1%nat) + 5 * (g 2%nat * mass3 m0 u 2%nat)) / 12) by reflexivity.
  rewrite K. destruct i as [|[|[|i]]]; [cbn [area]; lra| | |lia].
  - cbn [area]. rewrite S0.
    replace (T / 2 * (0 + (5 * (g 0%nat * mass3 m0 u 0%nat) + 8 * (g 1%nat * mass3 m0 u 1%nat) - g 2%nat * mass3 m0 u 2%nat) / 12))
      with (5 * u 0%nat * mass3 m0 u 0%nat + 8 * u 1%nat * mass3 m0 u 1%nat - u 2%nat * mass3 m0 u 2%nat) by (rewrite !E; field).
    cbn [mass3]. unfold det3 in *. field. exact D.
  - cbn [area]. rewrite S0, S1.
    replace (T / 2 * (0 + (5 * (g 0%nat * mass3 m0 u 0%nat) + 8 * (g 1%nat * mass3 m0 u 1%nat) - g 2%nat * mass3 m0 u 2%nat) / 12 +
        (- (g 0%nat * mass3 m0 u 0%nat) + 8 * (g 1%nat * mass3 m0 u 1%nat) + 5 * (g 2%nat * mass3 m0 u 2%nat)) / 12))
      with (4 * u 0%nat * mass3 m0 u 0%nat + 16 * u 1%nat * mass3 m0 u 1%nat + 4 * u 2%nat * mass3 m0 u 2%nat) by (rewrite !E; field).
    cbn [mass3]. unfold det3 in *. field. exact D.
Qed.
Lemma mass3_pos m0 u : 0 < m0 -> (forall i, (i < 3)%nat -> Rabs (u i) <= 1 / 100) -> 0 < det3 u /\ forall i, (i < 3)%nat -> 0 < mass3 m0 u i.
Proof.
  intros H0 Hu. assert (Hi : forall i, (i < 3)%nat -> - (1 / 100) <= u i <= 1 / 100) by (intros i Hi; specialize (Hu i Hi); apply Rabs_le_between in Hu; exact Hu).
  pose proof (Hi 0%nat ltac:(lia)). pose proof (Hi 1%nat ltac:(lia)). pose proof (Hi 2%nat ltac:(lia)). assert (D : 0 < det3 u) by (unfold det3; nra).
  split; [exact D|]. intros [|[|[|i]]] Hl; try lia; cbn [mass3]; [exact H0| |]; (apply Rdiv_lt_0_compat; [apply Rmult_lt_0_compat; [exact H0|nra]|exact D]).
Qed.
