(** C61: a converged mission meets the targets the user sets. *)
From Coq Require Import Reals List Bool PeanoNat String Ascii Lia Lra.
From Verif Require Import Base Py Model_Mission Spec_Mission Proofs_Mission Proofs_Profiles Props_Mission
  Model_Phases Proofs_Phases Props_Phases Model_Targets.
Import ListNotations.
Open Scope R_scope.
Open Scope string_scope.
Open Scope list_scope.

(** The phases of the mission proper and of the reserve, in flight order. *)
Definition main_legs (o : profile) : list string :=
  (if pf_takeoff o then ["v0v1"; "v1vr"; "rotate"] else if negb (pf_reserve o) && pf_ground_roll o then ["groundroll"] else []) ++
  ["climb"; "cruise"; "descent"].
Definition reserve_legs (o : profile) : list string :=
  if pf_reserve o then ["reserve_climb"; "reserve_cruise"; "reserve_descent"] else [].
(** What is accumulated over the phases [l] by a quantity with the given start and end values. *)
Fixpoint total (first last : string -> R) (l : list string) : R :=
  match l with [] => 0 | p :: r => last p - first p + total first last r end.

Section Mission.
Variables (o : profile) (users : string -> list pstate) (path : string) (promO promI : string -> option string) (cs : list (option string * option string)).
Hypotheses (Hv : valid_profile o) (Hu : users_ok o users) (Hp : proms_ok o users path promO promI) (Hm : mission promO promI path users o = Ok cs).
Variable V : string -> R.
Hypothesis HV : converged o cs V.

Lemma own x y : pair_in (x, y) (own_conns o) = true -> V y = V x.
Proof. intro H. apply (cv_conns _ _ _ HV). apply (own_in o users path promO promI Hu Hp cs x y Hv Hm). now apply pair_in_iff. Qed.

(** Altitudes, distances, speeds and times. *)
Theorem C61_targets :
  V (altitude_end "climb") = V "cruise|h0" /\ V (altitude_end "descent") = V "takeoff|h" /\
  V (range_end "descent") = V "mission_range" /\
  (pf_reserve o = true ->
     V (altitude_end "reserve_climb") = V "reserve|h0" /\ V (altitude_end "reserve_descent") = V "takeoff|h" /\
     V (range_end "reserve_descent") - V (range_end "descent") = V "reserve_range" /\
     V (altitude_start "loiter") = V "loiter|h0" /\ V "loiter.duration" = V "loiter_duration") /\
  (pf_takeoff o = true ->
     V "v0v1.fltcond|Utrue_final" = V "takeoff|v1" /\ V "v1vr.fltcond|Utrue_initial" = V "takeoff|v1" /\
     V "v1v0.fltcond|Utrue_initial" = V "takeoff|v1" /\ V "v1vr.fltcond|Utrue_final" = V "v1vr.takeoff|vr" /\
     ((1/10 <= V "v1vr.takeoff|vr" - V "takeoff|v1" /\ V (range_end "rotate") = V (range_end "v1v0")) \/
      (V "takeoff|v1" = V "v1vr.takeoff|vr" /\ V (range_end "v1v0") <= V (range_end "rotate")))) /\
  (pf_takeoff o = true -> pf_transition o = Ode -> V (altitude_start "climb") = V "rotate.h_obs") /\
  (pf_takeoff o = false -> pf_reserve o = false -> pf_ground_roll o = true -> V "groundroll.fltcond|Utrue_final" = V "takeoff|v2").
Proof.
  pose proof own as W. pose proof (cv_inner _ _ _ HV) as N. pose proof (cv_balances _ _ _ HV) as B.
  pose proof (cv_resrange _ _ _ HV) as R1. pose proof (cv_loiter _ _ _ HV) as R2. pose proof (cv_bfl _ _ _ HV) as R3.
  clear HV Hm Hp Hu cs promO promI path users. unfold valid_profile in Hv.
  destruct o as [tk rs gr tr]; cbn [pf_takeoff pf_reserve pf_ground_roll pf_transition] in *.
  assert (O : forall x y, pair_in (x, y) (own_conns {| pf_takeoff := tk; pf_reserve := rs; pf_ground_roll := gr; pf_transition := tr |}) = true -> V y = V x) by exact W.
  assert (NI : forall x y, pair_in (x, y) (phase_connects {| pf_takeoff := tk; pf_reserve := rs; pf_ground_roll := gr; pf_transition := tr |}) = true -> V y = V x)
    by (intros x y H; apply N; now apply pair_in_iff).
  assert (BI : forall x y, pair_in (x, y) (balances {| pf_takeoff := tk; pf_reserve := rs; pf_ground_roll := gr; pf_transition := tr |}) = true -> V x = V y)
    by (intros x y H; apply B; now apply pair_in_iff).
  clear W N B. cbn.
  assert (A1 : V "climb.ode_integ_phase.fltcond|h_final" = V "cruise|h0").
  { rewrite <- (NI "climb.ode_integ_phase.fltcond|h_final" "climb.climbdt.fltcond|h_final") by (destruct tk, rs, gr, tr; reflexivity).
    rewrite (BI "climb.climbdt.fltcond|h_final" "climb.climbdt.cruise|h0") by (destruct tk, rs, gr, tr; reflexivity).
    apply O. destruct tk, rs, gr, tr; reflexivity. }
  assert (A2 : V "descent.ode_integ_phase.fltcond|h_final" = V "takeoff|h").
  { rewrite <- (NI "descent.ode_integ_phase.fltcond|h_final" "descent.descentdt.fltcond|h_final") by (destruct tk, rs, gr, tr; reflexivity).
    rewrite (BI "descent.descentdt.fltcond|h_final" "descent.descentdt.takeoff|h") by (destruct tk, rs, gr, tr; reflexivity).
    apply O. destruct tk, rs, gr, tr; reflexivity. }
  assert (A3 : V "descent.ode_integ_phase.range_final" = V "mission_range").
  { rewrite <- (O "descent.ode_integ_phase.range_final" "cruise.cruisedt.range_final") by (destruct tk, rs, gr, tr; reflexivity).
    rewrite (BI "cruise.cruisedt.range_final" "cruise.cruisedt.mission_range") by (destruct tk, rs, gr, tr; reflexivity).
    apply O. destruct tk, rs, gr, tr; reflexivity. }
  split; [exact A1|]. split; [exact A2|]. split; [exact A3|]. split; [|split; [|split]].
  - intro E. subst rs. specialize (R1 eq_refl). specialize (R2 eq_refl).
    split. { rewrite <- (NI "reserve_climb.ode_integ_phase.fltcond|h_final" "reserve_climb.reserve_climbdt.fltcond|h_final") by (destruct tk, gr, tr; reflexivity).
      rewrite (BI "reserve_climb.reserve_climbdt.fltcond|h_final" "reserve_climb.reserve_climbdt.reserve|h0") by (destruct tk, gr, tr; reflexivity).
      apply O. destruct tk, gr, tr; reflexivity. }
    split. { rewrite <- (NI "reserve_descent.ode_integ_phase.fltcond|h_final" "reserve_descent.reserve_descentdt.fltcond|h_final") by (destruct tk, gr, tr; reflexivity).
      rewrite (BI "reserve_descent.reserve_descentdt.fltcond|h_final" "reserve_descent.reserve_descentdt.takeoff|h") by (destruct tk, gr, tr; reflexivity).
      apply O. destruct tk, gr, tr; reflexivity. }
    split. { rewrite <- (O "reserve_descent.ode_integ_phase.range_final" "resrange.rangef") by (destruct tk, gr, tr; reflexivity).
      rewrite <- (O "descent.ode_integ_phase.range_final" "resrange.rangeo") by (destruct tk, gr, tr; reflexivity). rewrite <- R1.
      rewrite <- (O "resrange.reserverange" "reserve_cruise.reserve_cruisedt.range_final") by (destruct tk, gr, tr; reflexivity).
      rewrite (BI "reserve_cruise.reserve_cruisedt.range_final" "reserve_cruise.reserve_cruisedt.reserve_range") by (destruct tk, gr, tr; reflexivity).
      apply O. destruct tk, gr, tr; reflexivity. }
    split; [apply O; destruct tk, gr, tr; reflexivity|]. rewrite R2. apply O. destruct tk, gr, tr; reflexivity.
  - intro E. subst tk. specialize (R3 eq_refl).
    split; [symmetry; apply BI; destruct rs, gr, tr; reflexivity|]. split; [apply O; destruct rs, gr, tr; reflexivity|].
    split; [symmetry; apply BI; destruct rs, gr, tr; reflexivity|]. split; [symmetry; apply BI; destruct rs, gr, tr; reflexivity|].
    rewrite (O "rotate.range_final" "bfl.distance_continue") in R3 by (destruct rs, gr, tr; reflexivity).
    rewrite (O "v1v0.range_final" "bfl.distance_abort") in R3 by (destruct rs, gr, tr; reflexivity).
    rewrite (O "v1vr.takeoff|vr" "bfl.takeoff|vr") in R3 by (destruct rs, gr, tr; reflexivity).
    apply bfl_zero in R3. unfold speedtol in R3. exact R3.
  - intros -> ->. rewrite (O "rotate.fltcond|h_final" "climb.ode_integ_phase.fltcond|h_initial") by (destruct rs, gr; reflexivity).
    symmetry. apply BI. destruct rs, gr; reflexivity.
  - intros -> -> ->. rewrite <- (BI "groundroll.takeoff|v1" "groundroll.fltcond|Utrue_final") by (destruct tr; reflexivity).
    apply O. destruct tr; reflexivity.
Qed.

(** The state handed on: the distance flown, and every state of the aircraft model. *)
Lemma last_default (x : string) l d d' : List.last (x :: l) d = List.last (x :: l) d'.
Proof. revert x. induction l as [|y l IH]; intro x; [reflexivity|]. exact (IH y). Qed.
Lemma total_chain (first last : string -> R) p l :
  (forall a b, In (a, b) (combine (p :: l) l) -> first b = last a) -> total first last (p :: l) = last (List.last (p :: l) p) - first p.
Proof.
  revert p. induction l as [|q l IH]; intros p H; [cbn; ring|].
  change (total first last (p :: q :: l)) with (last p - first p + total first last (q :: l)). rewrite IH.
  - rewrite (H p q) by (left; reflexivity). replace (List.last (p :: q :: l) p) with (List.last (q :: l) q).
    + ring.
    + change (List.last (p :: q :: l) p) with (List.last (q :: l) p). apply last_default.
  - intros a b Hab. apply H. right. exact Hab.
Qed.
Theorem C61_distances :
  total (fun p => V (range_start p)) (fun p => V (range_end p)) (main_legs o) = V "mission_range" - V (range_start (first_phase o)) /\
  total (fun p => V (range_start p)) (fun p => V (range_end p)) (reserve_legs o) = (if pf_reserve o then V "reserve_range" else 0).
Proof.
  destruct C61_targets as (_ & _ & T3 & T4 & _).
  destruct (C33_profiles_form_one_trajectory o users path promO promI Hv Hu Hp) as (cs' & E & _ & _ & F). rewrite Hm in E. injection E as <-.
  assert (L : forall p q, In (p, q) (flown_after o) -> V (range_start q) = V (range_end p)) by (intros p q H; apply (cv_conns _ _ _ HV), F, H).
  assert (LI : forall p q, pair_in (p, q) (flown_after o) = true -> V (range_start q) = V (range_end p)) by (intros p q H; apply L; now apply pair_in_iff).
  clear L F HV Hm Hp Hu. unfold main_legs, reserve_legs, first_phase in *. destruct o as [tk rs gr tr]; cbn [pf_takeoff pf_reserve pf_ground_roll pf_transition] in *. split.
  - rewrite <- T3. destruct tk; [|destruct rs; [|destruct gr]]; cbn [negb andb app];
    refine (total_chain (fun p => V (range_start p)) (fun p => V (range_end p)) _ _ _);
    intros a b Hab; apply LI; cbn in Hab; repeat (destruct Hab as [Hab|Hab]; [injection Hab as <- <-|]); try contradiction; try (destruct rs); try destruct gr; reflexivity.
  - destruct rs; [|reflexivity]. destruct (T4 eq_refl) as (_ & _ & T5 & _). rewrite <- T5.
    rewrite (total_chain (fun p => V (range_start p)) (fun p => V (range_end p)) "reserve_climb" ["reserve_cruise"; "reserve_descent"]).
    + cbn [List.last]. rewrite (LI "descent" "reserve_climb") by (destruct tk, gr; reflexivity). reflexivity.
    + intros a b Hab; apply LI; cbn in Hab; repeat (destruct Hab as [Hab|Hab]; [injection Hab as <- <-|]); try contradiction; destruct tk, gr; reflexivity.
Qed.
(** [u p] is one state of the aircraft model in phase [p], e.g. the fuel burnt. *)
Theorem C61_states_accumulate (u : string -> pstate) :
  (forall p, In p (map fst (profile_phases o)) -> In (u p) (users p)) ->
  (forall p q, is_name (ps_abs (u p)) = is_name (ps_abs (u q))) ->
  let start p := V (sub p (is_start (ps_prom (u p)))) in let final p := V (sub p (is_end (ps_prom (u p)))) in
  total start final (main_legs o ++ reserve_legs o) =
    final (if pf_reserve o then "reserve_descent" else "descent") - start (first_phase o) /\
  (pf_reserve o = true -> start "loiter" = final "reserve_descent") /\
  (pf_takeoff o = true -> start "v1v0" = final "v0v1").
Proof.
  intros HI HN start final.
  destruct (C33_profiles_form_one_trajectory o users path promO promI Hv Hu Hp) as (cs' & E & _ & F & _). rewrite Hm in E. injection E as <-.
  destruct (C33_flight_order_is_a_tree o) as (_ & TQ & _ & TP).
  assert (L : forall p q, pair_in (p, q) (flown_after o) = true -> start q = final p).
  { intros p q H. apply pair_in_iff in H. unfold start, final. apply (cv_conns _ _ _ HV).
    assert (Hq : In q (map fst (profile_phases o))). { apply TQ. right. apply (in_map snd) in H. exact H. }
    apply F; auto. exists p, (u p). split; [exact H|]. split; [|split; [apply HN|reflexivity]]. apply HI. exact (TP p q H). }
  clear F TQ TP HV Hm Hp Hu HI HN. clearbody start final. unfold main_legs, reserve_legs, first_phase in *.
  destruct o as [tk rs gr tr]; cbn [pf_takeoff pf_reserve pf_ground_roll pf_transition] in *. split; [|split].
  - destruct tk, rs; [| |..]; try destruct gr; cbn [negb andb app]; refine (total_chain start final _ _ _);
    intros a b Hab; apply L; cbn in Hab; repeat (destruct Hab as [Hab|Hab]; [injection Hab as <- <-|]); try contradiction; try destruct gr; reflexivity.
  - intros ->. apply L. destruct tk, gr; reflexivity.
  - intros ->. apply L. destruct rs, gr; reflexivity.
Qed.
End Mission.
Print Assumptions C61_targets.
Print Assumptions C61_distances.
Print Assumptions C61_states_accumulate.

(** A converged full mission with reserves, with the aircraft model of C33_instance. *)
Definition ex_values : list (string * Z) :=
  [("takeoff|h", 0); ("cruise|h0", 8500); ("mission_range", 1000000); ("reserve_range", 200000); ("reserve|h0", 7600); ("loiter|h0", 450); ("loiter_duration", 1800);
   ("takeoff|v1", 50); ("v0v1.fltcond|Utrue_final", 50); ("v1v0.fltcond|Utrue_initial", 50); ("v1vr.fltcond|Utrue_initial", 50);
   ("v1vr.takeoff|vr", 60); ("bfl.takeoff|vr", 60); ("v1vr.fltcond|Utrue_final", 60); ("rotate.fltcond|Utrue_initial", 60);
   ("v0v1.range_final", 500); ("v1vr.range_initial", 500); ("v1v0.range_initial", 500); ("v1vr.range_final", 700); ("rotate.range_initial", 700);
   ("rotate.range_final", 1000); ("bfl.distance_continue", 1000); ("v1v0.range_final", 1000); ("bfl.distance_abort", 1000);
   ("climb.ode_integ_phase.range_initial", 1000); ("rotate.h_obs", 11); ("rotate.fltcond|h_final", 11); ("climb.ode_integ_phase.fltcond|h_initial", 11);
   ("climb.ode_integ_phase.fltcond|h_final", 8500); ("climb.climbdt.fltcond|h_final", 8500); ("climb.climbdt.cruise|h0", 8500); ("cruise.ode_integ_phase.fltcond|h_initial", 8500);
   ("climb.ode_integ_phase.range_final", 90000); ("cruise.ode_integ_phase.range_initial", 90000);
   ("cruise.ode_integ_phase.fltcond|h_final", 8500); ("descent.ode_integ_phase.fltcond|h_initial", 8500);
   ("cruise.ode_integ_phase.range_final", 880000); ("descent.ode_integ_phase.range_initial", 880000);
   ("descent.ode_integ_phase.range_final", 1000000); ("cruise.cruisedt.range_final", 1000000); ("cruise.cruisedt.mission_range", 1000000); ("resrange.rangeo", 1000000);
   ("reserve_climb.ode_integ_phase.range_initial", 1000000); ("reserve_climb.ode_integ_phase.range_final", 1060000); ("reserve_cruise.ode_integ_phase.range_initial", 1060000);
   ("reserve_cruise.ode_integ_phase.range_final", 1100000); ("reserve_descent.ode_integ_phase.range_initial", 1100000);
   ("reserve_descent.ode_integ_phase.range_final", 1200000); ("resrange.rangef", 1200000); ("loiter.ode_integ_phase.range_initial", 1200000);
   ("resrange.reserverange", 200000); ("reserve_cruise.reserve_cruisedt.range_final", 200000); ("reserve_cruise.reserve_cruisedt.reserve_range", 200000);
   ("reserve_climb.ode_integ_phase.fltcond|h_final", 7600); ("reserve_climb.reserve_climbdt.fltcond|h_final", 7600); ("reserve_climb.reserve_climbdt.reserve|h0", 7600);
   ("reserve_cruise.ode_integ_phase.fltcond|h_initial", 7600); ("reserve_cruise.ode_integ_phase.fltcond|h_final", 7600); ("reserve_descent.ode_integ_phase.fltcond|h_initial", 7600);
   ("loiter.ode_integ_phase.fltcond|h_initial", 450); ("loiter.duration_in", 1800); ("loiter.duration", 1800);
   ("v0v1.fuel_used_final", 10); ("v1vr.fuel_used_initial", 10); ("v1v0.fuel_used_initial", 10)]%Z.
Definition ex_Z (x : string) : Z := match find (fun e => String.eqb (fst e) x) ex_values with Some e => snd e | None => 0%Z end.
Example C61_instance : let o := ex_profile true true false Ode in exists cs,
  mission (ex_promO o) (ex_promI o) "" ex_users o = Ok cs /\ converged o cs (fun x => IZR (ex_Z x)).
Proof.
  intro o. destruct (mission (ex_promO o) (ex_promI o) "" ex_users o) as [cs|] eqn:E; [|vm_compute in E; discriminate].
  exists cs. split; [reflexivity|].
  assert (K : forall l : list (string * string), forallb (fun c => Z.eqb (ex_Z (fst c)) (ex_Z (snd c))) l = true -> forall x y, In (x, y) l -> ex_Z x = ex_Z y).
  { intros l H x y Hin. rewrite forallb_forall in H. apply Z.eqb_eq. exact (H _ Hin). }
  constructor.
  - assert (C : forallb (fun c => match c with (Some x, Some y) => Z.eqb (ex_Z y) (ex_Z x) | _ => true end) cs = true).
    { vm_compute in E. injection E as <-. vm_compute. reflexivity. }
    rewrite forallb_forall in C. intros x y H. f_equal. apply Z.eqb_eq. exact (C _ H).
  - intros x y H. f_equal. symmetry. apply (K (phase_connects o)); [vm_compute; reflexivity|exact H].
  - intros x y H. f_equal. apply (K (balances o)); [vm_compute; reflexivity|exact H].
  - intros _. cbn. lra.
  - intros _. reflexivity.
  - intros _. apply bfl_zero. left. unfold speedtol. cbn. lra.
Qed.

(** Every name the profiles connect exists: it is the start or end of a state some phase
    integrates, or one of the variables listed here. *)
Definition state_ends (o : profile) : list string :=
  flat_map (fun pk => flat_map (fun s => [sub (fst pk) (is_start (ps_prom s)); sub (fst pk) (is_end (ps_prom s))])
                               (builtin_states (snd pk))) (profile_phases o).
Definition user_settings (o : profile) : list string :=
  ["cruise|h0"; "mission_range"; "takeoff|h"] ++
  (if pf_reserve o then ["reserve|h0"; "reserve_range"; "loiter|h0"; "loiter_duration"] else []) ++
  (if pf_takeoff o then ["takeoff|v1"] else if pf_ground_roll o then ["takeoff|v2"] else []).
Definition balance_inputs (o : profile) : list string :=
  ["climb.climbdt.cruise|h0"; "cruise.cruisedt.mission_range"; "cruise.cruisedt.range_final"; "descent.descentdt.takeoff|h"] ++
  (if pf_reserve o then
     ["reserve_climb.reserve_climbdt.reserve|h0"; "reserve_cruise.reserve_cruisedt.reserve_range"; "reserve_cruise.reserve_cruisedt.range_final";
      "reserve_descent.reserve_descentdt.takeoff|h"; "resrange.rangeo"; "resrange.rangef"; "resrange.reserverange"; "loiter.duration_in"] else []) ++
  (if pf_takeoff o then
     ["v1vr.takeoff|vr"; "bfl.takeoff|vr"; "bfl.distance_continue"; "bfl.distance_abort"] ++
     (match pf_transition o with Ode => [] | _ => ["rotate.range_initial"; "rotate.range_final"; "rotate.fltcond|h_final"] end)
   else if pf_ground_roll o then ["groundroll.takeoff|v1"] else []).
Theorem C61_names_exist o x y : In (x, y) (profile_connects o) ->
  In x (state_ends o ++ user_settings o ++ balance_inputs o) /\ In y (state_ends o ++ balance_inputs o).
Proof.
  assert (K : forall o, forallb (fun c =>
      in_list (fst c) (state_ends o ++ user_settings o ++ balance_inputs o) && in_list (snd c) (state_ends o ++ balance_inputs o)) (profile_connects o) = true)
    by (apply by_profiles; vm_compute; reflexivity).
  intro H. specialize (K o). rewrite forallb_forall in K. specialize (K _ H).
  apply andb_prop in K. cbn [fst snd] in K. rewrite !in_list_iff in K. exact K.
Qed.
Print Assumptions C61_names_exist.
