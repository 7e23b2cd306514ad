(** Steady flight of the minimal aircraft in closed form: climbs and descents at a constant
    vertical speed, cruises at a constant altitude, all at a constant equivalent airspeed. *)
From Coq Require Import Reals List Bool PeanoNat String Lia Lra.
From Verif Require Import Base Py RSum Model_Algebra Model_Vectors Model_Integrals Spec_Integrals Proofs_Integrals Proofs_IntegMore
  Model_Atmos Proofs_Atmos Model_Aero Model_Phases Model_Mission Model_Net Proofs_Net Model_Thermal Model_HX Model_Ducts Model_HeatPipe
  Model_Systems Model_Flight Spec_Flight Proofs_Flight.
Import ListNotations.
Open Scope R_scope.
Open Scope string_scope.
Open Scope list_scope.

Lemma strip_const c j : strip (fun _ => c) j = c.
Proof. unfold strip. destruct (Nat.even j); field. Qed.
Lemma area_const c k : area (fun _ => c) k = c * INR k.
Proof. induction k as [|k IH]; [cbn; ring|]. cbn [area]. rewrite IH, strip_const, S_INR. ring. Qed.

Record flight := { f_h : R; f_r : R; f_T : R; f_vs : R; f_eas : R; f_dT : R; f_m : R; f_S : R; f_LD : R; f_Fmax : R; f_rf : R }.
Ltac by_out A := cbn in A; repeat match type of A with (if ?c then _ else _) = _ => let E := fresh "E" in destruct c eqn:E;
  [apply String.eqb_eq in E; subst; injection A as <- <- | ] end; try discriminate.
Ltac tie FA x := rewrite FA; intros x i H; cbn [In] in H; repeat (destruct H as [<-|H]; [reflexivity|]); contradiction.
Section Fly.
Variables (kt kp : coeffs) (n : nat) (f : flight).
Definition fly_h (i : nat) : R := f_h f + f_T f * f_vs f * (INR i / INR (n - 1)).
Definition fly_temp (i : nat) : R := compute_temp kt (fly_h i) (get_masks (fly_h i)) + f_dT f.
Definition fly_p (i : nat) : R := match compute_pressure kp (fly_h i) (get_masks (fly_h i)) with Some p => p | None => 0 end.
Definition fly_rho (i : nat) : R := fly_p i / Rgas / fly_temp i.
Definition fly_a (i : nat) : R := sqrt (14/10 * Rgas * fly_temp i).
Definition fly_U (i : nat) : R := f_eas f * sqrt (rho_isa / fly_rho i).
Definition fly_in (i : nat) : R := fly_U i ^ 2 - f_vs f ^ 2.
Definition fly_gs (i : nat) : R := sqrt (if Rlt_dec (fly_in i) 0 then 1/100 else fly_in i).
Definition fly_sin (i : nat) : R := if Rlt_dec (fly_in i) 0 then 1 else f_vs f / fly_U i.
Definition fly_cos (i : nat) : R := fly_gs i / fly_U i.
Definition fly_q (i : nat) : R := 5/10 * fly_rho i * fly_U i ^ 2.
Definition fly_CL (i : nat) : R := fly_cos i * GRAV * f_m f / fly_q i / f_S f.
Definition fly_lift (i : nat) : R := fly_q i * f_S f * fly_CL i.
Definition fly_drag (i : nat) : R := fly_q i * fly_CL i * f_S f / f_LD f.
Definition fly_thrust (i : nat) : R := fly_drag i + f_m f * GRAV * fly_sin i.
Definition fly_range (i : nat) : R := f_r f + f_T f / INR (n - 1) * area fly_gs i.
Definition fly : env := fun x i =>
  match assoc x
    [("fltcond|h", fly_h i); ("fltcond|vs", f_vs f); ("fltcond|groundspeed", fly_gs i); ("fltcond|Utrue", fly_U i); ("fltcond|Ueas", f_eas f);
     ("fltcond|TempIncrement", f_dT f); ("fltcond|T", fly_temp i); ("fltcond|p", fly_p i); ("fltcond|rho", fly_rho i); ("fltcond|a", fly_a i);
     ("fltcond|q", fly_q i); ("fltcond|M", fly_U i / fly_a i); ("fltcond|CL", fly_CL i); ("fltcond|singamma", fly_sin i); ("fltcond|cosgamma", fly_cos i);
     ("range", fly_range i); ("weight", f_m f); ("lift", fly_lift i); ("drag", fly_drag i); ("thrust", fly_thrust i);
     ("throttle", fly_thrust i / f_Fmax f); ("duration", f_T f);
     ("ode_integ_phase.fltcond|h_initial", f_h f); ("ode_integ_phase.range_initial", f_r f);
     ("ode_integ_phase.fltcond|h_final", fly_h (n - 1)); ("ode_integ_phase.range_final", fly_range (n - 1));
     ("climbdt.cruise|h0", fly_h (n - 1)); ("descentdt.takeoff|h", fly_h (n - 1)); ("cruisedt.range_final", f_rf f); ("cruisedt.mission_range", f_rf f);
     ("ac|geom|wing|S_ref", f_S f); ("ac|weights|TOW", f_m f); ("ac|propulsion|max_thrust", f_Fmax f); ("ac|aero|L_over_D", f_LD f);
     ("propulsor_active", 1)] with Some v => v | None => 0 end.
Lemma fly_atmosphere : (forall i, (i < n)%nat -> exists p, compute_pressure kp (fly_h i) (get_masks (fly_h i)) = Some p) -> solution (atmosphere kt kp n false) fly.
Proof.
  intros Hp s Hs. cbn [atmosphere g_subs app] in Hs.
  destruct Hs as [<-|[<-|[<-|[<-|[<-|[<-|[<-|[]]]]]]]].
  - intros i Hi. reflexivity.
  - intros i Hi. destruct (Hp i Hi) as [p E].
    change (compute_pressure kp (fly_h i) (get_masks (fly_h i)) = Some (fly_p i)). unfold fly_p. now rewrite E.
  - intros o k g i A Hi. by_out A. reflexivity.
  - intros o k g i A Hi. by_out A. reflexivity.
  - intros o k g i A Hi. by_out A. reflexivity.
  - intros o k g i A Hi. by_out A. reflexivity.
  - intros o k g i A Hi. by_out A. reflexivity.
Qed.
Lemma fly_steady p X : In p ["climb"; "cruise"; "descent"] -> method_size Simpson n -> is_inverse (n - 1) simpson_a X ->
  f_m f <> 0 -> f_Fmax f <> 0 ->
  (forall i, (i < n)%nat -> exists p, compute_pressure kp (fly_h i) (get_masks (fly_h i)) = Some p) ->
  solution (phase_group kt kp (method_tri Simpson n X) n minimal p SteadyP) fly.
Proof.
  intros Ip MS HX Hm HF Hp.
  assert (Hn : INR (n - 1) <> 0) by (destruct MS; apply not_0_INR; lia).
  assert (AI : forall i, (i < n)%nat -> fly_h i = f_h f + f_T f / INR (n - 1) * area (fun _ => f_vs f) i).
  { intros i Hi. rewrite area_const. unfold fly_h. field. exact Hn. }
  assert (ZA : forall i, fly_thrust i / f_m f - fly_drag i / f_m f - floor_vec (fun x => fly x i) * 0 * (GRAV - fly_lift i / f_m f) - GRAV * fly_sin i = 0)
    by (intro i; unfold fly_thrust; field; exact Hm).
  assert (N1 : (n - 1 < n)%nat) by (destruct MS; lia).
  assert (At := fly_atmosphere Hp).
  intros s Hs. set (G := phase_group _ _ _ _ _ _ _) in *.
  assert (ISTEP : gs_rel (integrators n (method_tri Simpson n X) "ode_integ_phase"
       [integ_std "fltcond|h" "fltcond|vs" false; integ_std "range" "fltcond|groundspeed" false]
       [P "fltcond|vs"; P "fltcond|groundspeed"] [P "fltcond|h"; P "range"])
     (fun x => if String.eqb x "duration" then fly "duration" else if String.eqb x "fltcond|h_initial" then fly "ode_integ_phase.fltcond|h_initial"
               else if String.eqb x "range_initial" then fly "ode_integ_phase.range_initial" else fly x)
     (fun x => if String.eqb x "fltcond|h_final" then fly "ode_integ_phase.fltcond|h_final" else if String.eqb x "range_final" then fly "ode_integ_phase.range_final" else fly x)).
  { intros sp [<-|[<-|[]]]; (split; [intros i Hi; rewrite integ_area by auto | rewrite integ_final_area by auto]).
    - apply AI, Hi.
    - apply AI, N1.
    - reflexivity.
    - reflexivity. }
  assert (FA : free_ins (atmosphere kt kp n false) = ["fltcond|h"; "fltcond|TempIncrement"; "fltcond|h"; "fltcond|Ueas"]) by reflexivity.
  assert (FM : free_ins (ac_model minimal n p) = ["fltcond|CL"; "throttle"; "fltcond|q"; "ac|geom|wing|S_ref"; "ac|weights|TOW"; "ac|propulsion|max_thrust"; "ac|aero|L_over_D"]) by reflexivity.
  assert (AM : solution (ac_model minimal n p) fly).
  { intros s' [<-|[]] o k g i A Hi. by_out A; try reflexivity.
    change (fly_thrust i = fly_thrust i / f_Fmax f * f_Fmax f). field. exact HF. }
  destruct Ip as [<-|[<-|[<-|[]]]]; cbn [G phase_group SteadyFlightPhase setter_of fst snd g_subs app] in Hs.
  all: (destruct Hs as [<-|[<-|[<-|[<-|[<-|[<-|[<-|[<-|[<-|[<-|[]]]]]]]]]]];
    [ exact I
    | intros sp Hsp; pose proof (ISTEP sp Hsp) as K; destruct Hsp as [<-|[<-|[]]]; exact K
    | exists fly; split; [exact At|split]; [tie FA x | intros; unfold writes; cbn [subgroup nested gs_name gs_pout]; now rewrite gname_star]
    | intros o k g i A Hi; by_out A; reflexivity
    | exists fly; split; [exact AM|split]; [tie FM x | intros; unfold writes; cbn [subgroup nested gs_name gs_pout]; now rewrite gname_star]
    | intros o k g i A Hi; by_out A; reflexivity
    | intros o k g i A Hi; by_out A; reflexivity
    | intros o k g i A Hi; by_out A; symmetry; exact (ZA i)
    | intros i Hi; reflexivity
    | intros i Hi; assert (i = 0)%nat as -> by lia; reflexivity]).
Qed.
End Fly.
