(** Takeoff phases of the minimal aircraft in closed form: rolls without lift and drag at
    a constant acceleration, a rotation in which lift and weight, thrust and drag balance,
    and the rotation along the arc. *)
From Coq Require Import Reals List Bool PeanoNat String Lia Lra.
From Verif Require Import Base Py RSum Model_Algebra Model_Vectors Model_Integrals Spec_Integrals Proofs_Integrals Proofs_IntegMore
  Model_Atmos Proofs_Atmos Model_Aero Model_Phases Model_Mission Model_Net Proofs_Net Model_Thermal Model_HX Model_Ducts Model_HeatPipe
  Model_Systems Proofs_Systems Proofs_Drag Model_Flight Spec_Flight Proofs_Flight Proofs_Takeoff Proofs_Fly.
Import ListNotations.
Open Scope R_scope.
Open Scope string_scope.
Open Scope list_scope.

Record roll := { g_h : R; g_U0 : R; g_a : R; g_T : R; g_r : R; g_mu : R; g_thr : R; g_m : R; g_S : R; g_LD : R; g_Fmax : R; g_CLmax : R; g_mult : R }.
Section Roll.
Variables (kt kp : coeffs) (n : nat) (f : roll) (p : string).
Definition roll_temp : R := compute_temp kt (g_h f) (get_masks (g_h f)) + 0.
Definition roll_p : R := match compute_pressure kp (g_h f) (get_masks (g_h f)) with Some p => p | None => 0 end.
Definition roll_rho : R := roll_p / Rgas / roll_temp.
Definition roll_snd : R := sqrt (14/10 * Rgas * roll_temp).
Definition roll_U (i : nat) : R := g_U0 f + g_T f / INR (n - 1) * (g_a f * INR i).
Definition roll_gs (i : nat) : R := sqrt (if Rlt_dec (roll_U i ^ 2 - 0 ^ 2) 0 then 1/100 else roll_U i ^ 2 - 0 ^ 2).
Definition roll_r0 : R := if String.eqb p "v0v1" then 0 else g_r f.
Definition roll_range (i : nat) : R := roll_r0 + g_T f / INR (n - 1) * area roll_gs i.
Definition roll_Vs : R := sqrt (2 * g_m f * GRAV / (1225/1000) / g_S f / g_CLmax f).
Definition rolls : env := fun x i =>
  match assoc x
    [("fltcond|h", g_h f); ("fltcond|vs", 0); ("fltcond|groundspeed", roll_gs i); ("fltcond|Utrue", roll_U i); ("fltcond|Ueas", roll_U i * sqrt (roll_rho / rho_isa));
     ("fltcond|TempIncrement", 0); ("fltcond|T", roll_temp); ("fltcond|p", roll_p); ("fltcond|rho", roll_rho); ("fltcond|a", sqrt (14/10 * Rgas * roll_temp));
     ("fltcond|q", 5/10 * roll_rho * roll_U i ^ 2); ("fltcond|M", roll_U i / sqrt (14/10 * Rgas * roll_temp)); ("fltcond|CL", 0);
     ("fltcond|singamma", if Rlt_dec (roll_U i ^ 2 - 0 ^ 2) 0 then 1 else 0 / roll_U i); ("fltcond|cosgamma", roll_gs i / roll_U i);
     ("range", roll_range i); ("weight", g_m f); ("lift", 5/10 * roll_rho * roll_U i ^ 2 * g_S f * 0);
     ("drag", 5/10 * roll_rho * roll_U i ^ 2 * 0 * g_S f / g_LD f); ("thrust", g_thr f * g_Fmax f);
     ("throttle", g_thr f); ("duration", g_T f); ("braking", g_mu f); ("accel_horiz", g_a f);
     ("range_initial", g_r f); ("range_final", roll_range (n - 1)); ("fltcond|Utrue_final", roll_U (n - 1));
     ("Vstall_eas", roll_Vs); ("vr_vstall_mult", g_mult f); ("takeoff|vr", roll_Vs * g_mult f);
     ("takeoff|v1", if String.eqb p "v1v0" then g_U0 f else roll_U (n - 1)); ("fltcond|Utrue_initial", g_U0 f);
     ("zero_speed", if String.eqb p "v1v0" then roll_U (n - 1) else g_U0 f);
     ("vel_q", roll_U (n - 1 - i)); ("flipaccel.vec_out", - g_a f);
     ("ac|geom|wing|S_ref", g_S f); ("ac|weights|TOW", g_m f); ("ac|weights|MTOW", g_m f); ("ac|aero|CLmax_TO", g_CLmax f); ("ac|propulsion|max_thrust", g_Fmax f); ("ac|aero|L_over_D", g_LD f);
     ("propulsor_active", 1)] with Some v => v | None => 0 end.
Lemma roll_atmosphere : (exists q, compute_pressure kp (g_h f) (get_masks (g_h f)) = Some q) ->
  solution (atmosphere kt kp n true) rolls.
Proof.
  intros Hp s Hs. cbn [atmosphere g_subs app] in Hs.
  destruct Hs as [<-|[<-|[<-|[<-|[<-|[<-|[<-|[]]]]]]]].
  - intros i Hi. reflexivity.
  - intros i Hi. destruct Hp as [q E].
    change (compute_pressure kp (g_h f) (get_masks (g_h f)) = Some roll_p). unfold roll_p. now rewrite E.
  - intros o k g i A Hi. by_out A. reflexivity.
  - intros o k g i A Hi. by_out A. reflexivity.
  - intros o k g i A Hi. by_out A. reflexivity.
  - intros o k g i A Hi. by_out A. reflexivity.
  - intros o k g i A Hi. by_out A. reflexivity.
Qed.
End Roll.
Lemma rolls_ground kt kp n f p X : In p ["v0v1"; "v1vr"; "v1v0"] -> method_size Simpson n -> is_inverse (n - 1) simpson_a X ->
  g_m f <> 0 -> (p = "v1vr" -> (roll_Vs f) * g_mult f = (roll_U n f) (n - 1)) ->
  (forall i, (i < n)%nat -> 0 < (roll_U n f) i) -> g_m f * g_a f = g_thr f * g_Fmax f - g_mu f * (g_m f * GRAV) ->
  (exists q, compute_pressure kp (g_h f) (get_masks (g_h f)) = Some q) ->
  solution (GroundRollPhase kt kp (method_tri Simpson n X) n minimal p) (rolls kt kp n f p).
Proof.
  intros Ip MS HX Hm Hvr HU Ha Hp.
  assert (Hn : INR (n - 1) <> 0) by (destruct MS; apply not_0_INR; lia).
  assert (ZA : forall i, (i < n)%nat -> g_a f = g_thr f * g_Fmax f / g_m f - 5/10 * (roll_rho kt kp f) * (roll_U n f) i ^ 2 * 0 * g_S f / g_LD f / g_m f
      - floor_vec (fun x => (rolls kt kp n f p) x i) * g_mu f * (GRAV - 5/10 * (roll_rho kt kp f) * (roll_U n f) i ^ 2 * g_S f * 0 / g_m f)
      - GRAV * (if Rlt_dec ((roll_U n f) i ^ 2 - 0 ^ 2) 0 then 1 else 0 / (roll_U n f) i)).
  { intros i Hi. specialize (HU i Hi). unfold floor_vec.
    change ((rolls kt kp n f p) "lift" i) with (5/10 * (roll_rho kt kp f) * (roll_U n f) i ^ 2 * g_S f * 0). change ((rolls kt kp n f p) "weight" i) with (g_m f).
    replace (5 / 10 * (roll_rho kt kp f) * (roll_U n f) i ^ 2 * g_S f * 0 / g_m f) with 0 by (unfold Rdiv; ring).
    destruct (Rlt_dec ((roll_U n f) i ^ 2 - 0 ^ 2) 0) as [N|_]; [exfalso; nra|].
    destruct (Rlt_dec (GRAV - 0) 0) as [N|_]; [exfalso; unfold GRAV in N; lra|].
    apply (Rmult_eq_reg_l (g_m f)); auto. rewrite Ha. unfold Rdiv. rewrite !Rmult_0_l, !Rmult_0_r, !Rmult_0_l. field. exact Hm. }
  assert (Hu0 : (roll_U n f) 0 = g_U0 f) by (unfold roll_U; cbn [INR]; field; exact Hn).
  assert (N1 : (n - 1 < n)%nat) by (destruct MS; lia).
  assert (EV : Nat.even (n - 1) = true).
  { destruct MS as [Ho H3]. destruct n as [|m]; [lia|]. cbn [Nat.sub]. rewrite Nat.sub_0_r. rewrite Nat.odd_succ in Ho. exact Ho. }
  assert (At := roll_atmosphere kt kp n f p Hp).
  intros s Hs. set (G := GroundRollPhase _ _ _ _ _ _) in *.
  assert (FA : free_ins (atmosphere kt kp n true) = ["fltcond|h"; "fltcond|TempIncrement"; "fltcond|h"; "fltcond|Utrue"; "fltcond|Utrue"; "fltcond|Utrue"]) by reflexivity.
  assert (FM : free_ins (ac_model minimal n p) = ["fltcond|CL"; "throttle"; "fltcond|q"; "ac|geom|wing|S_ref"; "ac|weights|TOW"; "ac|propulsion|max_thrust"; "ac|aero|L_over_D"]) by reflexivity.
  assert (AM : solution (ac_model minimal n p) (rolls kt kp n f p)).
  { intros s' [<-|[]] o k g i A Hi. by_out A; reflexivity. }
  assert (RSTEP : forall i, (i < n)%nat -> (roll_range n f p) i = start_value (String.eqb p "v0v1") (g_r f) + g_T f / INR (n - 1) * area (roll_gs n f) i) by (intros i Hi; reflexivity).
  destruct Ip as [Ep|[Ep|[Ep|[]]]]; subst p; cbn [G GroundRollPhase ground_shooting String.eqb g_subs app] in Hs.
  - destruct Hs as [<-|[<-|[<-|[<-|[<-|[<-|[<-|[<-|[<-|[<-|[]]]]]]]]]]].
    + exact I.
    + exists (rolls kt kp n f "v0v1"); split; [exact At|split]; [tie FA x | intros; unfold writes; cbn [subgroup nested gs_name gs_pout]; now rewrite gname_star].
    + intros o k g i A Hi; by_out A; reflexivity.
    + exists (rolls kt kp n f "v0v1"); split; [exact AM|split]; [tie FM x | intros; unfold writes; cbn [subgroup nested gs_name gs_pout]; now rewrite gname_star].
    + intros o k g i A Hi; by_out A; reflexivity.
    + intros o k g i A Hi; by_out A; reflexivity.
    + intros i Hi. assert (i = 0)%nat as -> by lia. unfold mul_compute. cbn. f_equal.
      match goal with |- ?a = ?b => change (1 * (roll_Vs f) * g_mult f * 1 = (roll_Vs f) * g_mult f) end. ring.
    + intros o k g i A Hi; by_out A; exact (ZA i Hi).
    + intros sp [<-|[<-|[]]]; (split; [intros i Hi; rewrite integ_area by auto | rewrite integ_final_area by auto]).
      * change ((roll_U n f) i = g_U0 f + g_T f / INR (n - 1) * area (fun _ => g_a f) i). now rewrite area_const.
      * change ((roll_U n f) (n - 1)%nat = g_U0 f + g_T f / INR (n - 1) * area (fun _ => g_a f) (n - 1)). now rewrite area_const.
      * reflexivity.
      * reflexivity.
    + intros i Hi; assert (i = 0)%nat as -> by lia; reflexivity.
  - destruct Hs as [<-|[<-|[<-|[<-|[<-|[<-|[<-|[<-|[<-|[<-|[]]]]]]]]]]].
    + exact I.
    + exists (rolls kt kp n f "v1vr"); split; [exact At|split]; [tie FA x | intros; unfold writes; cbn [subgroup nested gs_name gs_pout]; now rewrite gname_star].
    + intros o k g i A Hi; by_out A; reflexivity.
    + exists (rolls kt kp n f "v1vr"); split; [exact AM|split]; [tie FM x | intros; unfold writes; cbn [subgroup nested gs_name gs_pout]; now rewrite gname_star].
    + intros o k g i A Hi; by_out A; reflexivity.
    + intros o k g i A Hi; by_out A; reflexivity.
    + intros i Hi. assert (i = 0)%nat as -> by lia. unfold mul_compute. cbn. f_equal.
      match goal with |- ?a = ?b => change (1 * (roll_Vs f) * g_mult f * 1 = (roll_Vs f) * g_mult f) end. ring.
    + intros o k g i A Hi; by_out A; exact (ZA i Hi).
    + intros sp [<-|[<-|[]]]; (split; [intros i Hi; rewrite integ_area by auto | rewrite integ_final_area by auto]).
      * change ((roll_U n f) i = g_U0 f + g_T f / INR (n - 1) * area (fun _ => g_a f) i). now rewrite area_const.
      * change ((roll_U n f) (n - 1)%nat = g_U0 f + g_T f / INR (n - 1) * area (fun _ => g_a f) (n - 1)). now rewrite area_const.
      * reflexivity.
      * reflexivity.
    + intros i Hi; assert (i = 0)%nat as -> by lia. exact (Hvr eq_refl).
  - destruct Hs as [<-|[<-|[<-|[<-|[<-|[<-|[<-|[<-|[<-|[<-|[<-|[<-|[]]]]]]]]]]]]].
    + exact I.
    + exists (rolls kt kp n f "v1v0"); split; [exact At|split]; [tie FA x | intros; unfold writes; cbn [subgroup nested gs_name gs_pout]; now rewrite gname_star].
    + intros o k g i A Hi; by_out A; reflexivity.
    + exists (rolls kt kp n f "v1v0"); split; [exact AM|split]; [tie FM x | intros; unfold writes; cbn [subgroup nested gs_name gs_pout]; now rewrite gname_star].
    + intros o k g i A Hi; by_out A; reflexivity.
    + intros o k g i A Hi; by_out A; reflexivity.
    + intros i Hi. assert (i = 0)%nat as -> by lia. unfold mul_compute. cbn. f_equal.
      match goal with |- ?a = ?b => change (1 * (roll_Vs f) * g_mult f * 1 = (roll_Vs f) * g_mult f) end. ring.
    + intros o k g i A Hi; by_out A; exact (ZA i Hi).
    + intros i Hi. change (- g_a f = -1 * g_a f). ring.
    + intros sp [<-|[<-|[]]]; (split; [intros i Hi; rewrite integ_area by auto | rewrite integ_final_area by auto]).
      * change ((roll_U n f) (n - 1 - i)%nat = roll_U n f (n - 1)%nat + g_T f / INR (n - 1) * area (fun _ => - g_a f) i). rewrite area_const.
        unfold roll_U. rewrite (minus_INR (n - 1) i) by lia. field. exact Hn.
      * change (g_U0 f = roll_U n f (n - 1)%nat + g_T f / INR (n - 1) * area (fun _ => - g_a f) (n - 1)). rewrite area_const.
        unfold roll_U. field. exact Hn.
      * reflexivity.
      * reflexivity.
    + intros i Hi. change (roll_U n f i = 1 * roll_U n f (n - 1 - (n - 1 - i))%nat). rewrite Rmult_1_l. f_equal. lia.
    + intros i Hi; assert (i = 0)%nat as -> by lia; reflexivity.
Qed.

(** ** The rotation along the arc *)
Record arcing := { a_h0 : R; a_h1 : R; a_dT : R; a_r : R; a_thr : R; a_m : R; a_S : R; a_LD : R; a_Fmax : R; a_CLmax : R; a_vr : R; a_v2 : R }.
Section Arc.
Variables (kt kp : coeffs) (n : nat) (f : arcing).
Definition arc_h (i : nat) : R := lin_compute n (a_h0 f) (a_h1 f) i.
Definition arc_Vs : R := sqrt (2 * a_m f * GRAV / (1225/1000) / a_S f / a_CLmax f).
Definition arc_eas (i : nat) : R := lin_compute n (arc_Vs * a_vr f) (arc_Vs * a_v2 f) i.
Definition arc_T (i : nat) : R := compute_temp kt (arc_h i) (get_masks (arc_h i)) + a_dT f.
Definition arc_p (i : nat) : R := match compute_pressure kp (arc_h i) (get_masks (arc_h i)) with Some p => p | None => 0 end.
Definition arc_rho (i : nat) : R := arc_p i / Rgas / arc_T i.
Definition arc_U (i : nat) : R := arc_eas i * sqrt (rho_isa / arc_rho i).
Definition arc_q (i : nat) : R := 5/10 * arc_rho i * arc_U i ^ 2.
Definition arc_CL (i : nat) : R := 1 * GRAV * a_m f / arc_q i / a_S f.
Definition arc_drag (i : nat) : R := arc_q i * arc_CL i * a_S f / a_LD f.
Definition arc_g (i : nat) : R := asin ((a_thr f * a_Fmax f - arc_drag i) / a_m f / GRAV).
Definition arc_e : nenv := fun x => if String.eqb x "fltcond|Utrue" then arc_U 0 else if String.eqb x "gamma" then arc_g 0 else 0.
Definition arc_s : R := tt_st (1066/100) (12/10) arc_e.
Definition arc_ht : R := if Rgt_dec (tt_ht (12/10) arc_e) (1066/100) then 1066/100 else tt_ht (12/10) arc_e.
Definition arc_sc : R := (1066/100 - arc_ht) / tan (arc_g (n - 1)).
Definition arc_rf : R := a_r f + arc_s + arc_sc.
Definition arcs : env := fun x i =>
  match assoc x
    [("fltcond|h", arc_h i); ("fltcond|vs", 0); ("fltcond|Utrue", arc_U i); ("fltcond|Ueas", arc_eas i);
     ("fltcond|TempIncrement", a_dT f); ("fltcond|T", arc_T i); ("fltcond|p", arc_p i); ("fltcond|rho", arc_rho i); ("fltcond|a", sqrt (14/10 * Rgas * arc_T i));
     ("fltcond|q", arc_q i); ("fltcond|M", arc_U i / sqrt (14/10 * Rgas * arc_T i)); ("fltcond|CL", arc_CL i); ("fltcond|cosgamma", 1);
     ("range", lin_compute n (a_r f) arc_rf i); ("weight", a_m f); ("drag", arc_drag i); ("thrust", a_thr f * a_Fmax f);
     ("throttle", a_thr f); ("braking", 0); ("gamma", arc_g i); ("h_obstacle", a_h1 f); ("h_initial", a_h0 f); ("fltcond|h_final", a_h1 f);
     ("s_transition", arc_s); ("h_transition", arc_ht); ("t_transition", arc_s / arc_U 0); ("s_climb", arc_sc); ("t_climb", arc_sc / arc_U (n - 1));
     ("range_initial", a_r f); ("range_final", arc_rf); ("duration", arc_s / arc_U 0 + arc_sc / arc_U (n - 1));
     ("Vstall_eas", arc_Vs); ("vr_vstall_mult", a_vr f); ("v2_vstall_mult", a_v2 f); ("takeoff|vr", arc_Vs * a_vr f); ("takeoff|v2", arc_Vs * a_v2 f);
     ("ac|geom|wing|S_ref", a_S f); ("ac|weights|TOW", a_m f); ("ac|weights|MTOW", a_m f); ("ac|aero|CLmax_TO", a_CLmax f);
     ("ac|propulsion|max_thrust", a_Fmax f); ("ac|aero|L_over_D", a_LD f); ("propulsor_active", 1)] with Some v => v | None => 0 end.
Lemma arc_atmosphere : (forall i, (i < n)%nat -> exists q, compute_pressure kp (arc_h i) (get_masks (arc_h i)) = Some q) ->
  solution (atmosphere kt kp n false) arcs.
Proof.
  intros Hp s Hs. cbn [atmosphere g_subs app] in Hs.
  destruct Hs as [<-|[<-|[<-|[<-|[<-|[<-|[<-|[]]]]]]]].
  - intros i Hi. reflexivity.
  - intros i Hi. destruct (Hp i Hi) as [q E].
    change (compute_pressure kp (arc_h i) (get_masks (arc_h i)) = Some (arc_p i)). unfold arc_p. now rewrite E.
  - intros o k g i A Hi. by_out A. reflexivity.
  - intros o k g i A Hi. by_out A. reflexivity.
  - intros o k g i A Hi. by_out A. reflexivity.
  - intros o k g i A Hi. by_out A. reflexivity.
  - intros o k g i A Hi. by_out A. reflexivity.
Qed.
Lemma arcs_rotation p : (0 < n)%nat -> (forall i, (i < n)%nat -> exists q, compute_pressure kp (arc_h i) (get_masks (arc_h i)) = Some q) ->
  solution (RobustRotationPhase kt kp n minimal p) arcs.
Proof.
  intros Hn Hp. assert (At := arc_atmosphere Hp). intros s Hs. set (G := RobustRotationPhase _ _ _ _ _) in *.
  assert (FA : free_ins (atmosphere kt kp n false) = ["fltcond|h"; "fltcond|TempIncrement"; "fltcond|h"; "fltcond|Ueas"]) by reflexivity.
  assert (FM : free_ins (ac_model minimal n p) = ["fltcond|CL"; "throttle"; "fltcond|q"; "ac|geom|wing|S_ref"; "ac|weights|TOW"; "ac|propulsion|max_thrust"; "ac|aero|L_over_D"]) by reflexivity.
  assert (AM : solution (ac_model minimal n p) arcs).
  { intros s' [<-|[]] o k g i A Hi. by_out A; reflexivity. }
  cbn [G RobustRotationPhase g_subs] in Hs.
  destruct Hs as [<-|[<-|[<-|[<-|[<-|[<-|[<-|[<-|[<-|[<-|[<-|[<-|[<-|[<-|[<-|[<-|[]]]]]]]]]]]]]]]]].
  - exact I.
  - intros i Hi. reflexivity.
  - intros o k g i A Hi; by_out A; reflexivity.
  - intros i Hi. assert (i = 0)%nat as -> by lia. unfold mul_compute. cbn. f_equal.
    match goal with |- ?a = ?b => change (1 * arc_Vs * a_vr f * 1 = arc_Vs * a_vr f) end. ring.
  - intros i Hi. assert (i = 0)%nat as -> by lia. unfold mul_compute. cbn. f_equal.
    match goal with |- ?a = ?b => change (1 * arc_Vs * a_v2 f * 1 = arc_Vs * a_v2 f) end. ring.
  - intros i Hi. reflexivity.
  - exists arcs; split; [exact At|split]; [tie FA x | intros; unfold writes; cbn [subgroup nested gs_name gs_pout]; now rewrite gname_star].
  - intros o k g i A Hi; by_out A; reflexivity.
  - exists arcs; split; [exact AM|split]; [tie FM x | intros; unfold writes; cbn [subgroup nested gs_name gs_pout]; now rewrite gname_star].
  - intros o k g i A Hi; by_out A; reflexivity.
  - intros o Ho. cbn in Ho. destruct Ho as [<-|[<-|[<-|[]]]]; reflexivity.
  - intros o Ho. cbn in Ho. destruct Ho as [<-|[<-|[]]]; reflexivity.
  - intros i Hi. rewrite add3 by lia. reflexivity.
  - intros i Hi. rewrite add2 by lia. reflexivity.
  - intros i Hi. rewrite add1 by lia. reflexivity.
  - intros i Hi. reflexivity.
Qed.
End Arc.

(** The climb on one engine: the arc's values with one node, at the takeoff safety speed. *)
Lemma arcs_engine_out kt kp f p : a_vr f = a_v2 f -> (exists q, compute_pressure kp (arc_h 1 f 0) (get_masks (arc_h 1 f 0)) = Some q) ->
  solution (ClimbAnglePhase kt kp 1 minimal p) (arcs kt kp 1 f).
Proof.
  intros Hv Hp. assert (At := arc_atmosphere kt kp 1 f ltac:(intros i Hi; assert (i = 0)%nat as -> by lia; exact Hp)).
  intros s Hs. set (G := ClimbAnglePhase _ _ _ _ _) in *.
  assert (FA : free_ins (atmosphere kt kp 1 false) = ["fltcond|h"; "fltcond|TempIncrement"; "fltcond|h"; "fltcond|Ueas"]) by reflexivity.
  assert (FM : free_ins (ac_model minimal 1 p) = ["fltcond|CL"; "throttle"; "fltcond|q"; "ac|geom|wing|S_ref"; "ac|weights|TOW"; "ac|propulsion|max_thrust"; "ac|aero|L_over_D"]) by reflexivity.
  assert (AM : solution (ac_model minimal 1 p) (arcs kt kp 1 f)).
  { intros s' [<-|[]] o k g i A Hi. by_out A; reflexivity. }
  cbn [G ClimbAnglePhase g_subs] in Hs.
  destruct Hs as [<-|[<-|[<-|[<-|[<-|[<-|[<-|[]]]]]]]].
  - exact I.
  - intros o k g i A Hi; by_out A; reflexivity.
  - intros i Hi. assert (i = 0)%nat as -> by lia. unfold mul_compute. cbn. f_equal.
    match goal with |- ?a = ?b => change (1 * arc_Vs f * a_v2 f * 1 = arc_Vs f * a_v2 f) end. ring.
  - exists (arcs kt kp 1 f); split; [exact At|split]; [|intros; unfold writes; cbn [subgroup nested gs_name gs_pout]; now rewrite gname_star].
    rewrite FA. intros x i H. cbn [In] in H. destruct H as [<-|[<-|[<-|[<-|[]]]]]; try reflexivity.
    change (lin_compute 1 (arc_Vs f * a_vr f) (arc_Vs f * a_v2 f) i = arc_Vs f * a_v2 f). rewrite Hv. reflexivity.
  - intros o k g i A Hi; by_out A; reflexivity.
  - exists (arcs kt kp 1 f); split; [exact AM|split]; [tie FM x | intros; unfold writes; cbn [subgroup nested gs_name gs_pout]; now rewrite gname_star].
  - intros o k g i A Hi; by_out A; reflexivity.
Qed.

(** ** A level rotation: lift equals weight and thrust equals drag *)
Record leveling := { l_U : R; l_T : R; l_r : R; l_mu : R; l_thr : R; l_m : R; l_S : R; l_LD : R; l_Fmax : R; l_CLmax : R; l_mult : R }.
Section Level.
Variables (kt kp : coeffs) (n : nat) (f : leveling).
Definition lev_T : R := compute_temp kt 0 (get_masks 0) + 0.
Definition lev_p : R := match compute_pressure kp 0 (get_masks 0) with Some p => p | None => 0 end.
Definition lev_rho : R := lev_p / Rgas / lev_T.
Definition lev_q : R := 5/10 * lev_rho * l_U f ^ 2.
Definition lev_CL : R := l_mult f * l_CLmax f.
Definition lev_lift : R := lev_q * l_S f * lev_CL.
Definition lev_drag : R := lev_q * lev_CL * l_S f / l_LD f.
Definition levels : env := fun x i =>
  match assoc x
    [("fltcond|h", 0); ("fltcond|vs", 0); ("fltcond|groundspeed", l_U f); ("fltcond|Utrue", l_U f); ("fltcond|Ueas", l_U f * sqrt (lev_rho / rho_isa));
     ("fltcond|TempIncrement", 0); ("fltcond|T", lev_T); ("fltcond|p", lev_p); ("fltcond|rho", lev_rho); ("fltcond|a", sqrt (14/10 * Rgas * lev_T));
     ("fltcond|q", lev_q); ("fltcond|M", l_U f / sqrt (14/10 * Rgas * lev_T)); ("fltcond|CL", lev_CL); ("fltcond|singamma", 0); ("fltcond|cosgamma", 1);
     ("range", l_r f + l_T f / INR (n - 1) * (l_U f * INR i)); ("weight", l_m f); ("lift", lev_lift); ("drag", lev_drag); ("thrust", l_thr f * l_Fmax f);
     ("throttle", l_thr f); ("duration", l_T f); ("braking", l_mu f); ("accel_horiz", 0); ("accel_vert", 0); ("h_obs", 0); ("CL_rotate_mult", l_mult f);
     ("range_initial", l_r f); ("range_final", l_r f + l_T f / INR (n - 1) * (l_U f * INR (n - 1))); ("fltcond|Utrue_initial", l_U f); ("fltcond|Utrue_final", l_U f);
     ("ac|geom|wing|S_ref", l_S f); ("ac|weights|TOW", l_m f); ("ac|weights|MTOW", l_m f); ("ac|aero|CLmax_TO", l_CLmax f);
     ("ac|propulsion|max_thrust", l_Fmax f); ("ac|aero|L_over_D", l_LD f); ("propulsor_active", 1)] with Some v => v | None => 0 end.
Lemma level_atmosphere : (exists q, compute_pressure kp 0 (get_masks 0) = Some q) -> solution (atmosphere kt kp n true) levels.
Proof.
  intros Hp s Hs. cbn [atmosphere g_subs app] in Hs.
  destruct Hs as [<-|[<-|[<-|[<-|[<-|[<-|[<-|[]]]]]]]].
  - intros i Hi. reflexivity.
  - intros i Hi. destruct Hp as [q E].
    change (compute_pressure kp 0 (get_masks 0) = Some lev_p). unfold lev_p. now rewrite E.
  - intros o k g i A Hi. by_out A. reflexivity.
  - intros o k g i A Hi. by_out A. reflexivity.
  - intros o k g i A Hi. by_out A. reflexivity.
  - intros o k g i A Hi. by_out A. reflexivity.
  - intros o k g i A Hi. by_out A. reflexivity.
Qed.
Lemma levels_rotation p X : method_size Simpson n -> is_inverse (n - 1) simpson_a X -> 0 < l_U f -> l_m f <> 0 ->
  lev_lift = l_m f * GRAV -> l_thr f * l_Fmax f = lev_drag -> (exists q, compute_pressure kp 0 (get_masks 0) = Some q) ->
  solution (RotationPhase kt kp (method_tri Simpson n X) n minimal p) levels.
Proof.
  intros MS HX HU Hm HL HT Hp. assert (At := level_atmosphere Hp).
  assert (Hn : INR (n - 1) <> 0) by (destruct MS; apply not_0_INR; lia).
  assert (N1 : (n - 1 < n)%nat) by (destruct MS; lia).
  assert (EV : Nat.even (n - 1) = true).
  { destruct MS as [Ho H3]. destruct n as [|m]; [lia|]. cbn [Nat.sub]. rewrite Nat.sub_0_r. rewrite Nat.odd_succ in Ho. exact Ho. }
  intros s Hs. set (G := RotationPhase _ _ _ _ _ _) in *.
  assert (FA : free_ins (atmosphere kt kp n true) = ["fltcond|h"; "fltcond|TempIncrement"; "fltcond|h"; "fltcond|Utrue"; "fltcond|Utrue"; "fltcond|Utrue"]) by reflexivity.
  assert (FM : free_ins (ac_model minimal n p) = ["fltcond|CL"; "throttle"; "fltcond|q"; "ac|geom|wing|S_ref"; "ac|weights|TOW"; "ac|propulsion|max_thrust"; "ac|aero|L_over_D"]) by reflexivity.
  assert (AM : solution (ac_model minimal n p) levels).
  { intros s' [<-|[]] o k g i A Hi. by_out A; reflexivity. }
  assert (LV : GRAV - lev_lift / l_m f = 0) by (rewrite HL; field; exact Hm).
  assert (SQ : sqrt (l_U f ^ 2 - 0 ^ 2) = l_U f) by (replace (l_U f ^ 2 - 0 ^ 2) with (l_U f ^ 2) by ring; apply sqrt_pow2; lra).
  cbn [G RotationPhase g_subs] in Hs.
  destruct Hs as [<-|[<-|[<-|[<-|[<-|[<-|[<-|[<-|[<-|[<-|[<-|[<-|[<-|[]]]]]]]]]]]]]].
  - exact I.
  - exists levels; split; [exact At|split]; [tie FA x | intros; unfold writes; cbn [subgroup nested gs_name gs_pout]; now rewrite gname_star].
  - intros o k g i A Hi; by_out A;
      unfold vcompute; cbn -[Rlt_dec pow sqrt]; unfold gs_fixed, gs_inside;
      [ change (l_U f = sqrt (if Rlt_dec (l_U f ^ 2 - 0 ^ 2) 0 then 1/100 else l_U f ^ 2 - 0 ^ 2))
      | change (0 = if Rlt_dec (l_U f ^ 2 - 0 ^ 2) 0 then 1 else 0 / l_U f)
      | change (1 = sqrt (if Rlt_dec (l_U f ^ 2 - 0 ^ 2) 0 then 1/100 else l_U f ^ 2 - 0 ^ 2) / l_U f) ];
      (destruct (Rlt_dec (l_U f ^ 2 - 0 ^ 2) 0) as [N|_]; [exfalso; nra|]); rewrite ?SQ; try field; lra.
  - intros i Hi. change (mul_compute {| ms_out := "fltcond|CL"; ms_ins := ["CL_rotate_mult"; "ac|aero|CLmax_TO"]; ms_vec := VList [n; 1%nat]; ms_len := 1;
          ms_sf := 1; ms_div := None; ms_units := None |} (fun x => levels (source G (gname "clcomp" [P "*"] x))) i = Ok (l_mult f * l_CLmax f)).
    mul_value. replace (list_max [n; 1]%nat) with n by (destruct MS; cbn [list_max fold_right]; lia). mul_value2. rewrite bidx_row by auto. f_equal.
    change (1 * l_mult f * l_CLmax f * 1 = l_mult f * l_CLmax f). ring.
  - exists levels; split; [exact AM|split]; [tie FM x | intros; unfold writes; cbn [subgroup nested gs_name gs_pout]; now rewrite gname_star].
  - intros o k g i A Hi; by_out A; reflexivity.
  - intros o k g i A Hi; by_out A.
    change (0 = l_thr f * l_Fmax f / l_m f - lev_drag / l_m f - floor_vec (fun x => levels x i) * l_mu f * (GRAV - lev_lift / l_m f) - GRAV * 0).
    rewrite LV, HT. ring.
  - intros o k g i A Hi; by_out A.
    change (0 = clip ((lev_lift * 1 + (l_thr f * l_Fmax f - lev_drag) * 0 - GRAV * l_m f) / l_m f) (- GRAV) (25/10 * GRAV)).
    replace ((lev_lift * 1 + (l_thr f * l_Fmax f - lev_drag) * 0 - GRAV * l_m f) / l_m f) with 0 by (rewrite HL; field; exact Hm).
    unfold clip, GRAV. rewrite Rmax_left by lra. rewrite Rmin_left; lra.
  - intros i Hi; assert (i = 0)%nat as -> by lia; reflexivity.
  - intros sp [<-|[]]; (split; [intros i Hi; rewrite integ_area by auto | rewrite integ_final_area by auto]).
    + change (l_U f = l_U f + l_T f / INR (n - 1) * area (fun _ => 0) i). rewrite area_const. ring.
    + change (l_U f = l_U f + l_T f / INR (n - 1) * area (fun _ => 0) (n - 1)). rewrite area_const. ring.
  - intros sp [<-|[]]; (split; [intros i Hi; rewrite integ_area by auto | rewrite integ_final_area by auto]).
    + change (l_r f + l_T f / INR (n - 1) * (l_U f * INR i) = l_r f + l_T f / INR (n - 1) * area (fun _ => l_U f) i). now rewrite area_const.
    + change (l_r f + l_T f / INR (n - 1) * (l_U f * INR (n - 1)) = l_r f + l_T f / INR (n - 1) * area (fun _ => l_U f) (n - 1)). now rewrite area_const.
  - intros sp [<-|[]]; (split; [intros i Hi; rewrite integ_area by auto | rewrite integ_final_area by auto]).
    + change (0 = 0 + l_T f / INR (n - 1) * area (fun _ => 0) i). rewrite area_const. ring.
    + change (0 = 0 + l_T f / INR (n - 1) * area (fun _ => 0) (n - 1)). rewrite area_const. ring.
  - intros sp [<-|[]]; (split; [intros i Hi; rewrite integ_area by auto | rewrite integ_final_area by auto]).
    + change (0 = 0 + l_T f / INR (n - 1) * area (fun _ => 0) i). rewrite area_const. ring.
    + change (0 = 0 + l_T f / INR (n - 1) * area (fun _ => 0) (n - 1)). rewrite area_const. ring.
Qed.
End Level.
