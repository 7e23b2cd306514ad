(** The values at the nodes of the phases of a mission, for any aircraft model. *)
From Coq Require Import Reals List Bool PeanoNat String Ascii Lia Lra.
From Verif Require Import Base Py RSum Model_Algebra Model_Vectors Proofs_Vectors Model_Integrals Spec_Integrals Model_Atmos Model_Phases Model_Mission Spec_Mission
  Proofs_Mission Proofs_Profiles Props_Mission Model_Targets Props_Targets Model_Net Proofs_Net Model_Thermal Model_HX Model_Ducts Model_HeatPipe Model_Systems Proofs_Systems
  Model_Flight Spec_Flight Proofs_Flight Proofs_Takeoff Props_Flight Proofs_Trip.
Import ListNotations.
Open Scope R_scope.
Open Scope string_scope.
Open Scope list_scope.

Section Flight.
Variables (kt kp : coeffs) (X : mat) (n : nat) (A : aircraft) (o : profile) (G : group) (V : env).
Let tri := method_tri Simpson n X.
Hypotheses (MS : method_size Simpson n) (HX : is_inverse (n - 1) simpson_a X) (HG : mission_group kt kp tri n A o = Ok G) (HV : solution G V)
  (HD : own_durations A) (HO : plain_outputs A) (Hv : valid_profile o)
  (Hu : users_ok o (fun _ => ac_states A)) (Hpr : proms_ok o (fun _ => ac_states A) "" (tableO A o) (tableI A o)).
Variable W : string -> env.
Hypothesis HW : forall p, In p (map fst (profile_phases o)) ->
  solution (phase_of kt kp tri n A o p) (W p) /\
  (forall x i, In x (free_ins (phase_of kt kp tri n A o p)) -> W p x i = V (source G (gname p (phase_promotes p) x)) i) /\
  (forall y i, In y (group_outs (phase_of kt kp tri n A o p)) -> W p y i = V (sub p y) i).
Let val := val kt kp tri n A o G V W.
Let Hn : (1 <= n)%nat. Proof. destruct MS. lia. Qed.
Let Hn2 : (2 <= n)%nat. Proof. destruct MS. lia. Qed.
Let phases := map fst (profile_phases o).

Let steady_list := ["climb"; "cruise"; "descent"; "reserve_climb"; "reserve_cruise"; "reserve_descent"; "loiter"].
Lemma steady_ends p : In p steady_list -> In p phases ->
  val (range_start p) = W p "range" 0%nat /\ val (range_end p) = W p "range" (n - 1)%nat /\
  val (altitude_start p) = W p "fltcond|h" 0%nat /\ val (altitude_end p) = W p "fltcond|h" (n - 1)%nat.
Proof.
  intros HS Hp. pose proof (steady_phase kt kp tri n A o p HS) as EP. destruct (HW p Hp) as (S & _). rewrite EP in S.
  destruct (C86_path kt kp X n A p (W p) HD MS HX S) as (E1 & E2 & E3 & E4).
  rewrite <- E3, <- E4, (evolves_first _ _ _ _ _ Hn E1), (evolves_first _ _ _ _ _ Hn E2).
  assert (ST : steady p = true) by (unfold steady_list in HS; cbn in HS; repeat (destruct HS as [<-|HS]; [reflexivity|]); contradiction).
  unfold range_start, range_end, altitude_start, altitude_end, val. rewrite ST.
  assert (SO : forall x, In x own_names -> x <> "ode_integ_phase.duration" -> source (phase_of kt kp tri n A o p) x = x)
    by (intros x Hx N; rewrite EP; now apply steady_source).
  repeat split; [apply val_own | apply val_out | apply val_own | apply val_out]; auto.
  - apply SO; [inlist|discriminate].
  - rewrite EP. unfold group_outs. apply in_flat_map. eexists. split; [right; left; reflexivity|]. inlist.
  - apply SO; [inlist|discriminate].
  - rewrite EP. unfold group_outs. apply in_flat_map. eexists. split; [right; left; reflexivity|]. inlist.
Qed.
Lemma ground_ends p q : phase_of kt kp tri n A o p = GroundRollPhase kt kp tri n A q -> steady p = false -> In p phases ->
  val (range_end p) = W p "range" (n - 1)%nat /\ (if String.eqb q "v0v1" then W p "range" 0%nat = 0 else val (range_start p) = W p "range" 0%nat).
Proof.
  intros EP ST Hp. destruct (HW p Hp) as (S & _). rewrite EP in S. pose proof (ground_shared kt kp tri n A q HD) as Hs.
  destruct (ground_range kt kp X n A q (W p) HD MS HX S) as (E1 & E2). pose proof (evolves_first _ _ _ _ _ Hn E1) as E3.
  unfold range_start, range_end, val. rewrite ST, <- E2. split; [apply val_own; auto; rewrite EP; apply Hs; inlist|].
  destruct (String.eqb q "v0v1"); [exact E3|]. rewrite E3. apply val_own; auto. rewrite EP. apply Hs. inlist.
Qed.
Lemma rotate_ends : pf_takeoff o = true ->
  val (range_start "rotate") = W "rotate" "range" 0%nat /\ val (range_end "rotate") = W "rotate" "range" (n - 1)%nat /\
  val (altitude_end "rotate") = W "rotate" "fltcond|h" (n - 1)%nat.
Proof.
  intro T. assert (Hp : In "rotate" phases) by (apply takeoff_flown; auto; inlist). destruct (kind_takeoff o T) as (_ & _ & _ & K).
  destruct (HW "rotate" Hp) as (S & _). unfold range_start, range_end, altitude_end, val. change (steady "rotate") with false. cbv iota.
  destruct (pf_transition o) eqn:TR.
  - assert (EP : phase_of kt kp tri n A o "rotate" = RobustRotationPhase kt kp n A "rotate") by (unfold phase_of; now rewrite K).
    rewrite EP in S. pose proof (robust_shared kt kp n A "rotate" HD) as Hs. assert (Hn0 : (0 < n)%nat) by lia.
    destruct (robust_values _ _ _ _ _ _ HD Hn0 S) as (E1 & _ & _ & E2 & E3 & E4).
    rewrite !val_own by (auto; rewrite EP; apply Hs; inlist).
    destruct (E1 0%nat ltac:(lia)) as (_ & _ & R0 & _). destruct (E1 (n - 1)%nat ltac:(lia)) as (H1 & _ & R1 & _).
    rewrite R0, R1, H1, !lin_value by (auto; lia). rewrite E4.
    assert (P : 0 < INR (n - 1)) by (apply lt_0_INR; lia). cbn [INR]. repeat split; try (field; lra).
  - assert (EP : phase_of kt kp tri n A o "rotate" = RotationPhase kt kp tri n A "rotate") by (unfold phase_of; now rewrite K).
    rewrite EP in S. pose proof (rotation_shared kt kp tri n A "rotate" HD) as Hs.
    destruct (rotation_motion kt kp X n A "rotate" (W "rotate") HD MS HX S) as (_ & E2 & _ & _ & E5 & E6 & E7).
    rewrite !val_own by (auto; rewrite EP; apply Hs; inlist). rewrite E7, E6, E5, (evolves_first _ _ _ _ _ Hn E2). auto.
  - exfalso. now apply (Hv T).
Qed.
Lemma top_value x : In x (gs_outs (mission_params o)) -> val x = V x 0%nat.
Proof.
  intro H. apply (val_source kt kp tri n A o G HG V W HW Hv Hu Hpr). unfold group_outs. apply in_flat_map. exists (mission_params o).
  split; [destruct (mission_ok kt kp tri n A o G HG) as (cs & _ & -> & _); now left|].
  apply in_map_iff. exists x. split; [|exact H]. cbn [mission_params indep gs_name gs_pout]. apply gname_star.
Qed.
Lemma decision_value : pf_takeoff o = true -> val "takeoff|v1" = V "takeoff|v1" 0%nat.
Proof.
  intro T. apply (val_source kt kp tri n A o G HG V W HW Hv Hu Hpr). unfold group_outs. apply in_flat_map. exists bfl.
  split; [destruct (mission_ok kt kp tri n A o G HG) as (cs & _ & -> & _); unfold mission_subs; rewrite T; right; now left|now left].
Qed.
Lemma range_first p q : In (p, q) (flown_after o) -> val (range_start q) = W q "range" 0%nat.
Proof.
  intro H. destruct (C33_flight_order_is_a_tree o) as (_ & TQ & _ & TP).
  assert (Hq : In q phases) by (apply TQ; right; now apply (in_map snd) in H).
  assert (C : In q steady_list \/ (pf_takeoff o = true /\ In q ["v1vr"; "rotate"; "v1v0"])).
  { unfold flown_after in H. apply in_app_or in H. destruct H as [H|H].
    - destruct (pf_takeoff o); [|destruct (negb (pf_reserve o) && pf_ground_roll o)%bool]; cbn in H;
        repeat (destruct H as [H|H]; [injection H as <- <-; first [left; inlist | right; split; [reflexivity|inlist]]|]); contradiction.
    - left. apply in_app_or in H. destruct H as [H|H]; [|destruct (pf_reserve o)]; cbn in H;
        repeat (destruct H as [H|H]; [injection H as <- <-; inlist|]); contradiction. }
  destruct C as [C|(T & C)]; [now apply steady_ends|]. destruct C as [<-|[<-|[<-|[]]]].
  - apply (ground_ends "v1vr" "v1vr"); auto. apply ground_phase; auto; inlist.
  - now apply rotate_ends.
  - apply (ground_ends "v1v0" "v1v0"); auto. apply ground_phase; auto; inlist.
Qed.
Lemma range_last p q : In (p, q) (flown_after o) -> val (range_end p) = W p "range" (n - 1)%nat.
Proof.
  intro H. destruct (C33_flight_order_is_a_tree o) as (_ & _ & _ & TP). assert (Hp : In p phases) by exact (TP p q H).
  assert (C : In p steady_list \/ (pf_takeoff o = true /\ In p ["v0v1"; "v1vr"; "rotate"]) \/ (pf_takeoff o = false /\ pf_basic o = true /\ pf_ground_roll o = true /\ p = "groundroll")).
  { unfold flown_after in H. apply in_app_or in H. destruct H as [H|H].
    - unfold pf_basic. destruct (pf_takeoff o); [|destruct (negb (pf_reserve o) && pf_ground_roll o)%bool eqn:B]; cbn in H;
        repeat (destruct H as [H|H]; [injection H as <- <-; first [left; inlist | right; left; split; [reflexivity|inlist] | right; right; apply andb_prop in B; cbn [negb andb]; tauto]|]); contradiction.
    - left. apply in_app_or in H. destruct H as [H|H]; [|destruct (pf_reserve o)]; cbn in H;
        repeat (destruct H as [H|H]; [injection H as <- <-; inlist|]); contradiction. }
  destruct C as [C|[(T & C)|(T & B & R & ->)]]; [now apply steady_ends| |]. 
  - destruct C as [<-|[<-|[<-|[]]]].
    + apply (ground_ends "v0v1" "v0v1"); auto. apply ground_phase; auto; inlist.
    + apply (ground_ends "v1vr" "v1vr"); auto. apply ground_phase; auto; inlist.
    + now apply rotate_ends.
  - apply (ground_ends "groundroll" "v0v1"); auto. destruct (kind_roll o T B R) as [K _]. unfold phase_of. now rewrite K.
Qed.
Lemma is_one_flight : one_flight kt kp tri n A o V W.
Proof.
  destruct (mission_ok kt kp tri n A o G HG) as (cs & Hm & SU & CO & HC & ND).
  pose proof (mission_converged kt kp tri n A o G HG V HV W HW HD HO Hn Hv Hu Hpr cs Hm) as CV. fold val in CV.
  destruct (C33_profiles_form_one_trajectory o _ "" _ _ Hv Hu Hpr) as (cs' & E & _ & F & FR). unfold tableO, tableI in Hm. unfold tableO, tableI in E. rewrite Hm in E. injection E as <-.
  pose proof (C61_targets o _ "" _ _ cs Hv Hu Hpr Hm val CV) as (T1 & T2 & T3 & T4 & T5 & T6 & T7).
  assert (KO : forall p k, In (p, k) (profile_phases o) -> In p phases /\ phase_group kt kp tri n A p k = phase_of kt kp tri n A o p).
  { intros p k H. split; [now apply (in_map fst) in H|]. unfold phase_of. now rewrite (kind_of_in o p k H). }
  assert (Q : forall x y, pair_in (x, y) (own_conns o) = true -> val y = val x) by (intros x y H; exact (own o _ "" _ _ cs Hv Hu Hpr Hm val CV x y H)).
  constructor.
  - intros p k H. destruct (KO p k H) as (Hp & ->). now destruct (HW p Hp).
  - intros p k y i H Hy. destruct (KO p k H) as (Hp & E). rewrite E in Hy. destruct (HW p Hp) as (_ & _ & O). symmetry. now apply O.
  - intros p k x i H Hx Gx. destruct (KO p k H) as (Hp & E). rewrite E in Hx. destruct (HW p Hp) as (_ & I & _). rewrite (I x i Hx).
    assert (GN : gname p (phase_promotes p) x = x).
    { unfold gname, phase_promotes. destruct (_ || _)%bool; unfold promoted; cbn [find existsb promo_match]; rewrite Gx; reflexivity. }
    rewrite GN. f_equal. apply source_no_target. intro K. apply in_map_iff in K. destruct K as ([a x'] & Ex & K). cbn [snd] in Ex. subst x'.
    destruct (targets_cases kt kp tri n A o G HG Hv Hu Hpr a x K) as [(q & z & Hq & ->)|L].
    + destruct (not_promoted q z (phases_all o q Hq)). congruence.
    + repeat (destruct L as [<-|L]; [discriminate|]). contradiction.
  - intros p q H. rewrite <- (range_first p q H), <- (range_last p q H). apply (cv_conns _ _ _ CV). now apply FR.
  - intros p q u H Hu'. destruct (C33_flight_order_is_a_tree o) as (_ & TQ & _ & TP).
    assert (Hq : In q phases) by (apply TQ; right; now apply (in_map snd) in H). assert (Hp : In p phases) by exact (TP p q H).
    apply (conn_phases kt kp tri n A o G HG V W HW); [|now apply (phases_all o)|now apply (phases_all o)].
    rewrite CO. apply some_pairs_in. apply F; auto. exists p, u. auto.
  - destruct (steady_ends "climb" ltac:(inlist) ltac:(apply always_flown; inlist)) as (_ & _ & _ & C1).
    destruct (steady_ends "cruise" ltac:(inlist) ltac:(apply always_flown; inlist)) as (_ & _ & D0 & D1).
    destruct (steady_ends "descent" ltac:(inlist) ltac:(apply always_flown; inlist)) as (_ & _ & E0 & E1).
    rewrite <- C1, <- D0, <- D1, <- E0. split; apply Q; clear; revert o; apply by_profiles; vm_compute; reflexivity.
  - intro B. destruct (steady_ends "climb" ltac:(inlist) ltac:(apply always_flown; inlist)) as (_ & _ & C0 & _).
    rewrite <- C0, <- (top_value "takeoff|h") by (now left). apply Q. clear - B.
    assert (K : forall o, negb (pf_basic o) || pair_in ("takeoff|h", altitude_start "climb") (own_conns o) = true) by (apply by_profiles; vm_compute; reflexivity).
    specialize (K o). rewrite B in K. exact K.
  - destruct (steady_ends "climb" ltac:(inlist) ltac:(apply always_flown; inlist)) as (_ & _ & _ & C1).
    destruct (steady_ends "descent" ltac:(inlist) ltac:(apply always_flown; inlist)) as (_ & E2 & _ & E1).
    rewrite <- C1, <- E1, <- E2, <- !top_value by (cbn; tauto). auto.
  - intro R. destruct (T4 R) as (A1 & A2 & A3 & A4 & A5).
    assert (FL : forall p, In p ["reserve_climb"; "reserve_cruise"; "reserve_descent"; "loiter"] -> In p phases) by (intros p Hp; now apply reserve_flown).
    destruct (steady_ends "descent" ltac:(inlist) ltac:(apply always_flown; inlist)) as (_ & E2 & _ & _).
    destruct (steady_ends "reserve_climb" ltac:(inlist) ltac:(apply FL; inlist)) as (_ & _ & _ & C1).
    destruct (steady_ends "reserve_cruise" ltac:(inlist) ltac:(apply FL; inlist)) as (_ & _ & D0 & D1).
    destruct (steady_ends "reserve_descent" ltac:(inlist) ltac:(apply FL; inlist)) as (_ & R2 & R0 & R1).
    destruct (steady_ends "loiter" ltac:(inlist) ltac:(apply FL; inlist)) as (_ & _ & L0 & _).
    assert (MP : forall x, In x ["takeoff|h"; "reserve_range"; "reserve|h0"; "loiter|h0"; "loiter_duration"] -> V x 0%nat = val x).
    { intros x Hx. symmetry. apply top_value. cbn [mission_params indep gs_outs]. rewrite R. rewrite !in_app_iff. cbn in Hx |- *. tauto. }
    assert (QR : forall x y, (negb (pf_reserve o) || pair_in (x, y) (own_conns o))%bool = true -> val y = val x) by (intros x y H; apply Q; now rewrite R in H).
    rewrite <- C1, <- D0, <- D1, <- R0, <- R1, <- R2, <- E2, <- L0, !MP by inlist.
    split; [exact A1|]. split; [apply QR; clear; revert o; apply by_profiles; vm_compute; reflexivity|].
    split; [apply QR; clear; revert o; apply by_profiles; vm_compute; reflexivity|]. split; [exact A2|]. split; [exact A3|]. split; [exact A4|].
    rewrite <- A5. symmetry. change "loiter.duration" with (sub "loiter" "duration"). apply val_out; [apply FL; inlist|].
    rewrite steady_phase by inlist. unfold group_outs. apply in_flat_map. eexists. split; [do 9 right; left; reflexivity|]. inlist.
  - intro T. destruct (T5 T) as (A1 & A2 & A3 & A4 & A5).
    assert (FL : forall p, In p ["v0v1"; "v1vr"; "rotate"; "v1v0"] -> In p phases) by (intros p Hp; now apply takeoff_flown).
    assert (P1 := ground_phase kt kp tri n A o "v0v1" T ltac:(inlist)). assert (P2 := ground_phase kt kp tri n A o "v1vr" T ltac:(inlist)).
    assert (P3 := ground_phase kt kp tri n A o "v1v0" T ltac:(inlist)).
    destruct (ground_ends "v0v1" "v0v1" P1 eq_refl ltac:(apply FL; inlist)) as (_ & S1). cbn in S1.
    destruct (ground_ends "v1v0" "v1v0" P3 eq_refl ltac:(apply FL; inlist)) as (S3 & _).
    destruct (rotate_ends T) as (_ & S4 & S5).
    destruct (HW "v0v1" ltac:(apply FL; inlist)) as (V1 & _). rewrite P1 in V1.
    destruct (HW "v1vr" ltac:(apply FL; inlist)) as (V2 & _). rewrite P2 in V2.
    destruct (HW "v1v0" ltac:(apply FL; inlist)) as (V3 & _). rewrite P3 in V3.
    assert (U1 := forward_speed kt kp X n A "v0v1" _ HD MS HX ltac:(discriminate) V1).
    assert (U2 := forward_speed kt kp X n A "v1vr" _ HD MS HX ltac:(discriminate) V2). cbn [String.eqb Ascii.eqb Bool.eqb] in U1, U2.
    assert (U3 := abort_speed kt kp X n A _ HD MS HX V3).
    destruct U1 as (U11 & U12 & U13), U2 as (U21 & U22 & U23), U3 as (U31 & U32). apply evolves_first in U11, U21, U31; try exact Hn.
    assert (D1 := decision kt kp tri n A o G V W HW HD HO "v0v1" T ltac:(auto)). assert (D3 := decision kt kp tri n A o G V W HW HD HO "v1v0" T ltac:(auto)).
    fold val in D1, D3. rewrite (decision_value T) in *.
    assert (O2 : forall x, In x own_names -> val (sub "v1vr" x) = W "v1vr" x 0%nat).
    { intros x Hx. apply val_own; [apply FL; inlist|]. rewrite P2. now apply ground_shared. }
    assert (I2 : val "v1vr.fltcond|Utrue_initial" = W "v1vr" "fltcond|Utrue_initial" 0%nat).
    { apply (val_own kt kp tri n A o G V W "v1vr" "fltcond|Utrue_initial"); [apply FL; inlist|]. rewrite P2. now apply (ground_start kt kp tri n A "v1vr"). }
    split; [exact S1|]. split; [exact U11|]. split; [congruence|]. split; [congruence|]. split; [exact U22|]. split; [congruence|]. split; [exact U32|].
    split; [|split].
    + intro TR. destruct (kind_takeoff o T) as (_ & _ & _ & K). rewrite TR in K.
      assert (EP : phase_of kt kp tri n A o "rotate" = RotationPhase kt kp tri n A "rotate") by (unfold phase_of; now rewrite K).
      destruct (HW "rotate" ltac:(apply FL; inlist)) as (V4 & _). rewrite EP in V4.
      destruct (rotation_motion kt kp X n A "rotate" (W "rotate") HD MS HX V4) as (M1 & _ & _ & M4 & _). apply evolves_first in M1, M4; try exact Hn.
      split; [|exact M4]. rewrite M1, <- U23.
      assert (QT : val "rotate.fltcond|Utrue_initial" = val "v1vr.fltcond|Utrue_final").
      { apply Q. clear - T TR. assert (K : forall o, negb (pf_takeoff o) || (match pf_transition o with Ode => false | _ => true end) || pair_in ("v1vr.fltcond|Utrue_final", "rotate.fltcond|Utrue_initial") (own_conns o) = true) by (apply by_profiles; vm_compute; reflexivity).
        specialize (K o). rewrite T, TR in K. exact K. }
      change "v1vr.fltcond|Utrue_final" with (sub "v1vr" "fltcond|Utrue_final") in QT. rewrite O2 in QT by inlist. rewrite <- QT.
      symmetry. apply (val_own kt kp tri n A o G V W "rotate" "fltcond|Utrue_initial"); [apply FL; inlist|]. rewrite EP.
      apply source_free. intro K'. apply time_targets in K'. destruct K' as [K' _]. now apply (proj2 (HD _ K')).
    + destruct (steady_ends "climb" ltac:(inlist) ltac:(apply always_flown; inlist)) as (_ & _ & C0 & _).
      rewrite <- C0, <- S5. apply Q. clear - T. assert (K : forall o, negb (pf_takeoff o) || pair_in (altitude_end "rotate", altitude_start "climb") (own_conns o) = true) by (apply by_profiles; vm_compute; reflexivity).
      specialize (K o). rewrite T in K. exact K.
    + rewrite <- S3, <- S4. change "v1vr.takeoff|vr" with (sub "v1vr" "takeoff|vr") in A5. rewrite (O2 "takeoff|vr") in A5 by inlist. exact A5.
  - intros B R. assert (T : pf_takeoff o = false /\ pf_reserve o = false).
    { unfold pf_basic in B. apply andb_prop in B. destruct B as [B1 B2]. now apply negb_true_iff in B1, B2. } destruct T as [T RS].
    destruct (kind_roll o T B R) as [K Hp]. assert (EP : phase_of kt kp tri n A o "groundroll" = GroundRollPhase kt kp tri n A "v0v1") by (unfold phase_of; now rewrite K).
    destruct (ground_ends "groundroll" "v0v1" EP eq_refl Hp) as (_ & S1). cbn in S1.
    destruct (HW "groundroll" Hp) as (V1 & _). rewrite EP in V1.
    assert (U1 := forward_speed kt kp X n A "v0v1" _ HD MS HX ltac:(discriminate) V1). cbn [String.eqb Ascii.eqb Bool.eqb] in U1. destruct U1 as (U11 & U12 & U13).
    apply evolves_first in U11; try exact Hn. split; [exact S1|]. split; [exact U11|].
    rewrite <- (top_value "takeoff|v2"), <- (T7 T RS R), <- U13.
    + change "groundroll.fltcond|Utrue_final" with (sub "groundroll" "fltcond|Utrue_final"). symmetry. apply val_own; auto. rewrite EP. apply ground_shared; auto; inlist.
    + cbn [mission_params indep gs_outs]. rewrite B. rewrite !in_app_iff. cbn. tauto.
Qed.
End Flight.
