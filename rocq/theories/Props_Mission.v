(** Theorems about phases, trajectories, integrator groups and mission profiles
    (C29 - C33). *)
From Coq Require Import Reals List Bool PeanoNat String Ascii Lia Lra.
From Verif Require Import Base Py RSum Model_Algebra Spec_Algebra Proofs_Algebra Model_Mission Spec_Mission
  Proofs_Mission Proofs_AutoComps Proofs_Profiles.
Import ListNotations.
Open Scope string_scope.
Open Scope list_scope.

(** A phase with nested groups, used in the examples below. *)
Definition ex_phase : sys :=
  Group "climb"
    [Comp "atmos";
     Integ "ode_integ_phase" ["duration"; "fltcond|vs"; "fltcond|h_initial"] [st3 "fltcond|h" "fltcond|h_initial" "fltcond|h_final"];
     Group "acmodel"
       [Comp "prop";
        Integ "ode_integ" ["duration"; "fuel_flow"; "fuel_initial"] [st3 "fuel" "fuel_initial" "fuel_final"];
        Group "cooling" [Integ "heat" ["duration"; "q"] [st3 "T" "T_initial" "T_final"]; Integ "dt" ["dt"] []]]].
Lemma ex_phase_named : well_named ex_phase.
Proof.
  unfold ex_phase.
  repeat (first [apply wn_comp | apply wn_integ | apply wn_group]).
  all: try (apply nodupb_ok; vm_compute; reflexivity).
  all: simpl; intros c Hc; repeat destruct Hc as [<-|Hc]; try contradiction.
  all: try (split; [discriminate|apply dotlessb_ok; reflexivity]).
  all: repeat (first [apply wn_comp | apply wn_integ | apply wn_group]).
  all: try (apply nodupb_ok; vm_compute; reflexivity).
  all: simpl; intros c Hc; repeat destruct Hc as [<-|Hc]; try contradiction.
  all: try (split; [discriminate|apply dotlessb_ok; reflexivity]).
  all: repeat (first [apply wn_comp | apply wn_integ | apply wn_group]).
  all: try (apply nodupb_ok; vm_compute; reflexivity).
  all: simpl; intros c Hc; repeat destruct Hc as [<-|Hc]; try contradiction.
  all: try (split; [discriminate|apply dotlessb_ok; reflexivity]).
  all: repeat (first [apply wn_comp | apply wn_integ | apply wn_group]).
  all: try (apply nodupb_ok; vm_compute; reflexivity).
Qed.

(** ** C30 *)
(** Whatever the tree below the phase and whatever is promoted to what: each
    connection goes from "duration" to the promoted name of the duration input of
    an integrator of the phase; no target appears twice; and every integrator's
    duration input is reached, either by promotion to "duration" or by exactly
    one connection. *)
Theorem C30_duration_reaches_every_integrator_once :
  forall prom path n subs, (forall c, In c subs -> sys_name c <> "") ->
    let cs := fst (phase_configure prom path (Group n subs)) in
    (forall s t, In (s, t) cs -> s = "duration" /\ t <> Some "duration" /\
       exists p m ins sts, inside (Group n subs) p (Integ m ins sts) /\ In "duration" ins /\
         t = prom (below path (dotted p "duration"))) /\
    NoDup (map snd cs) /\
    (forall p m ins sts, inside (Group n subs) p (Integ m ins sts) -> In "duration" ins ->
       prom (below path (dotted p "duration")) = Some "duration" \/
       In ("duration", prom (below path (dotted p "duration"))) cs).
Proof.
  intros prom path n subs Hne cs.
  destruct (connect_durations_spec prom path (fst (find_integrators (Group n subs) "" "duration")) []) as (A & B & C).
  change (connect_durations prom path [] (fst (find_integrators (Group n subs) "" "duration"))) with cs in A, B, C.
  split; [|split; [exact B|]].
  - intros s t H. destruct (A s t H) as (E & H1 & _ & v & Hv & Et). split; auto. split; auto.
    apply (phase_times n subs "duration" v Hne) in Hv. destruct Hv as (p & m & ins & sts & Hi & Hd & ->).
    exists p, m, ins, sts. auto.
  - intros p m ins sts Hi Hd.
    assert (Hv : In (dotted p "duration") (fst (find_integrators (Group n subs) "" "duration"))).
    { apply (phase_times n subs "duration" _ Hne). exists p, m, ins, sts. auto. }
    destruct (opt_eqb (prom (below path (dotted p "duration"))) (Some "duration")) eqn:E.
    + left. apply opt_eqb_iff; auto.
    + right. apply (C _ Hv); auto. intro H. apply opt_eqb_iff in H. rewrite dot_below in H. congruence.
Qed.
Print Assumptions C30_duration_reaches_every_integrator_once.

(** Two integrators promoted to the same name are connected once; one promoted
    to "duration" not at all. *)
Example C30_instance :
  fst (phase_configure (fun s =>
         if String.eqb s "traj.climb.ode_integ_phase.duration" then Some "duration"
         else if String.eqb s "traj.climb.acmodel.ode_integ.duration" then Some "acdur"
         else if String.eqb s "traj.climb.acmodel.cooling.heat.duration" then Some "acdur" else None)
       "traj.climb" ex_phase) = [("duration", Some "acdur")].
Proof. vm_compute. reflexivity. Qed.

(** The states found are exactly the states of the integrators of the phase,
    under their dotted names, and those names are distinct. *)
Theorem C30_states_of_a_phase :
  forall prom path n subs, well_named (Group n subs) ->
    let sts := snd (phase_configure prom path (Group n subs)) in
    NoDup (map is_name sts) /\
    forall s, In s sts <-> exists p m ins l x, inside (Group n subs) p (Integ m ins l) /\ In x l /\
      s = {| is_name := dotted p (is_name x); is_start := dotted p (is_start x); is_end := dotted p (is_end x) |}.
Proof.
  intros prom path n subs Hw sts. split.
  - apply states_distinct; auto.
  - intro s. apply phase_states_in. inversion Hw; subst. intros c Hc. apply H2; auto.
Qed.
Print Assumptions C30_states_of_a_phase.
Example C30_states_instance : snd (phase_configure (fun _ => None) "" ex_phase) =
  [st3 "ode_integ_phase.fltcond|h" "ode_integ_phase.fltcond|h_initial" "ode_integ_phase.fltcond|h_final";
   st3 "acmodel.ode_integ.fuel" "acmodel.ode_integ.fuel_initial" "acmodel.ode_integ.fuel_final";
   st3 "acmodel.cooling.heat.T" "acmodel.cooling.heat.T_initial" "acmodel.cooling.heat.T_final"] /\ well_named ex_phase.
Proof. split; [vm_compute; reflexivity|exact ex_phase_named]. Qed.

(** ** C29 *)
(** A state [a] of phase [p] is skipped: its name inside the phase, or the name
    it is promoted to, relative to the phase, is listed. *)
Definition skipped (promO : string -> option string) (path p : string) (skip : list string) (a : istate) : Prop :=
  In (is_name a) skip \/ exists P l, promO (below path (sub p (is_name a))) = Some P /\ local_name p P l /\ In l skip.

(** Two phases (with any model trees below them) that give their common states
    the same start names.  The connections made are one for each common state
    that is not skipped, from its end variable in the first to its start variable
    in the second, and nothing else.  Missing: phases that give a common state
    different start names (false, next theorem). *)
Theorem C29_common_states_handed_over_partial :
  forall promO promI path n1 subs1 n2 subs2 skip,
    let p := n1 in let q := n2 in
    let st1 := snd (phase_configure promI path (Group n1 subs1)) in
    let st2 := snd (phase_configure promI path (Group n2 subs2)) in
    well_named (Group n1 subs1) -> well_named (Group n2 subs2) ->
    (forall a b, In a st1 -> In b st2 -> is_name a = is_name b -> is_start a = is_start b) ->
    (forall a, In a st1 -> In (is_name a) (map is_name st2) ->
       exists P l, promO (below path (sub p (is_name a))) = Some P /\ local_name p P l) ->
    exists L, link_states promO promI path p q st2 skip st1 =
        Ok (map (fun ab => (promO (below path (sub p (is_end (fst ab)))),
                            promI (below path (sub q (is_start (snd ab)))))) L) /\
      NoDup (map (fun ab => is_name (fst ab)) L) /\
      forall a b, In (a, b) L <-> In a st1 /\ In b st2 /\ is_name a = is_name b /\ ~ skipped promO path p skip a.
Proof.
  intros promO promI path n1 subs1 n2 subs2 skip p q st1 st2 W1 W2 Hsame Hloc.
  destruct (link_states_ok promO promI path p q skip st2 st1) as (L & HL & HI & HN).
  { intros a Ha Hin. destruct (Hloc a Ha Hin) as (P & l & A & B). exists l, P. auto. }
  assert (N1 : NoDup (map is_name st1)) by (apply states_distinct; exact W1).
  assert (N2 : NoDup (map is_name st2)) by (apply states_distinct; exact W2).
  pose (mate := fun a => match find (fun b => String.eqb (is_name b) (is_name a)) st2 with Some b => b | None => a end).
  assert (Hmate : forall a b, In b st2 -> is_name b = is_name a -> mate a = b).
  { intros a b Hb E. unfold mate. rewrite (find_unique is_name st2 b (is_name a) N2 Hb E). reflexivity. }
  exists (map (fun a => (a, mate a)) L). split; [|split].
  - rewrite HL, map_map. f_equal. apply map_ext_in. intros a Ha. apply HI in Ha. destruct Ha as (A & B & _ & _).
    apply in_map_iff in B. destruct B as [b [Eb Hb]]. simpl. rewrite (Hmate a b Hb Eb).
    rewrite (Hsame a b A Hb (eq_sym Eb)). reflexivity.
  - rewrite map_map. simpl. apply NoDup_map_map; [apply HN, (NoDup_map_inv is_name); exact N1|].
    intros a b Ha Hb E. apply HI in Ha, Hb. apply (NoDup_map_inj is_name st1 N1); tauto.
  - intros a b. rewrite in_map_iff. unfold skipped. split.
    + intros [x [E Hx]]. injection E as <- <-. apply HI in Hx. destruct Hx as (A & B & C & D).
      apply in_map_iff in B. destruct B as [b [Eb Hb]]. rewrite (Hmate x b Hb Eb).
      split; [exact A|split; [exact Hb|split; [auto|]]]. intros [H|(P & l & H1 & H2 & H3)]; [contradiction|].
      apply (D l); auto. exists P; auto.
    + intros (A & B & E & Hn). exists a. split; [f_equal; apply Hmate; auto|]. apply HI.
      split; auto. split; [apply in_map_iff; exists b; auto|]. split; [tauto|].
      intros l [P [H1 H2]] H3. apply Hn. right. exists P, l. auto.
Qed.
Print Assumptions C29_common_states_handed_over_partial.

(** Two phases with the common state "i.x" whose second phase calls its start
    input "x0": the connection goes to the first phase's start name, which the
    second phase does not have. *)
Theorem C29_start_name_refuted :
  exists promO promI path n1 subs1 n2 subs2,
    let st1 := snd (phase_configure promI path (Group n1 subs1)) in
    let st2 := snd (phase_configure promI path (Group n2 subs2)) in
    well_named (Group n1 subs1) /\ well_named (Group n2 subs2) /\
    (exists a b, In a st1 /\ In b st2 /\ is_name a = is_name b /\ promI (below path (sub n2 (is_start b))) <> None) /\
    link_states promO promI path n1 n2 st2 [] st1 = Ok [(Some "p1.i.x_final", None)].
Proof.
  exists (fun s => if in_list s ["p1.i.x"; "p1.i.x_final"; "p2.i.x"; "p2.i.x_final"] then Some s else None),
         (fun s => if in_list s ["p1.i.x_initial"; "p2.i.x0"; "p1.i.duration"; "p2.i.duration"] then Some s else None), "", "p1",
         [Integ "i" ["duration"; "x_initial"] [st3 "x" "x_initial" "x_final"]], "p2",
         [Integ "i" ["duration"; "x0"] [st3 "x" "x0" "x_final"]].
  assert (W : forall n i l, NoDup (map is_name l) -> well_named (Group n [Integ "i" i l])).
  { intros n i l Hl. apply wn_group.
    - simpl. constructor; [simpl; tauto|constructor].
    - intros c [<-|[]]. split; [discriminate|apply dotlessb_ok; reflexivity].
    - intros c [<-|[]]. apply wn_integ; auto. }
  cbv zeta. repeat split.
  - apply W. simpl. constructor; [simpl; tauto|constructor].
  - apply W. simpl. constructor; [simpl; tauto|constructor].
  - do 2 eexists. split; [left; reflexivity|]. split; [left; reflexivity|]. split; [reflexivity|]. vm_compute. discriminate.
Qed.
Print Assumptions C29_start_name_refuted.

(** A common state whose end only is integrated (final_only) has no output under
    its own name; linking then raises AttributeError. *)
Theorem C29_final_only_state_refuted :
  forall promO promI path p q st2 skip a,
    In (is_name a) (map is_name st2) -> promO (below path (sub p (is_name a))) = None ->
    link_states promO promI path p q st2 skip [a] = Err AttributeError.
Proof.
  intros promO promI path p q st2 skip a H Hn. simpl. unfold link_state.
  rewrite (proj2 (in_list_iff _ _) H). unfold sub in Hn. rewrite dot_below, Hn. reflexivity.
Qed.
Print Assumptions C29_final_only_state_refuted.

(** Only phases can be linked; the accepted requests are queued in order. *)
Theorem C29_arguments :
  forall queue a b skip,
    (forall p q, a = APhase p -> b = APhase q -> link_phases queue a b skip = Ok (queue ++ [(p, q, skip)])) /\
    (a = Model_Mission.AOther \/ b = Model_Mission.AOther -> link_phases queue a b skip = Err ValueError).
Proof.
  intros queue a b skip. split.
  - intros p q -> ->. reflexivity.
  - intros [->| ->]; [reflexivity|]. destruct a; reflexivity.
Qed.
Print Assumptions C29_arguments.

Example C29_instance :
  link_states (fun s => if in_list s ["climb.ode_integ_phase.fltcond|h"] then Some "climb.fltcond|h" else Some s) (fun s => Some s) "" "climb" "cruise"
    (snd (phase_configure (fun _ => None) "" ex_phase)) ["acmodel.ode_integ.fuel"]
    (snd (phase_configure (fun _ => None) "" ex_phase)) =
  Ok [(Some "climb.ode_integ_phase.fltcond|h_final", Some "cruise.ode_integ_phase.fltcond|h_initial");
      (Some "climb.acmodel.cooling.heat.T_final", Some "cruise.acmodel.cooling.heat.T_initial")] /\
  link_states (fun s => if in_list s ["climb.ode_integ_phase.fltcond|h"] then Some "climb.fltcond|h" else Some s) (fun s => Some s) "" "climb" "cruise"
    (snd (phase_configure (fun _ => None) "" ex_phase)) ["fltcond|h"; "acmodel.ode_integ.fuel"]
    (snd (phase_configure (fun _ => None) "" ex_phase)) =
  Ok [(Some "climb.acmodel.cooling.heat.T_final", Some "cruise.acmodel.cooling.heat.T_initial")].
Proof. split; vm_compute; reflexivity. Qed.

(** ** C31 *)
(** After any sequence of calls: as many components as calls, all with different
    names, and no input connected twice. *)
Theorem C31_names_never_collide :
  forall calls, List.length (ig_subs (auto_run calls)) = List.length calls /\
    NoDup (map fst (ig_subs (auto_run calls))) /\ NoDup (map snd (ig_conns (auto_run calls))).
Proof.
  intro calls. split; [|split; [apply auto_subs_names|apply auto_targets]].
  rewrite (proj1 (auto_run_eq calls)), map_length, <- (map_length fst). unfold enumerate. rewrite enum_fst, seq_length. reflexivity.
Qed.
Print Assumptions C31_names_never_collide.

(** The value seen by input [x] of a created component, when [V] gives the value
    of each source. *)
Definition seen (conns : list (string * string)) (name : string) (promotes : list (string * string))
    (V : env) : env :=
  fun x => match source_of conns name promotes x with Some s => V s | None => fun _ => 0%R end.

(** The component of call number [k], a [promote_add]: its output, promoted under
    the requested name, is the factored sum of the requested sources, connected
    ones first, whatever the calls before and after. *)
Theorem C31_adder_computes_the_sum :
  forall before c after,
    let g := auto_run (before ++ CallAdd c :: after) in
    let names := ac_sources c ++ ac_promoted c in
    let factors := match ac_factors c with None => fun _ => 1%R | Some f => fun i => nth i f 0%R end in
    (match ac_factors c with None => True | Some f => List.length f = List.length names end) ->
    sizes_wf (ac_vec c) (List.length names) ->
    exists name s promotes,
      In (name, AutoAdd s promotes) (ig_subs g) /\ as_out s = ac_prom c /\
      forall V row col, (col < ac_len c)%nat ->
        add_compute s (seen (ig_conns g) name promotes V) (row * ac_len c + col) =
        Ok (rsum (List.length names) (fun i =>
              (factors i * entry (V (nth i names "")) (in_size (ac_vec c) i) (ac_len c) row col)%R)).
Proof.
  intros before c after g names factors Hf Hs.
  set (l := before ++ CallAdd c :: after) in *.
  assert (Hk : nth_error l (List.length before) = Some (CallAdd c)).
  { unfold l. rewrite nth_error_app2 by lia. rewrite Nat.sub_diag. reflexivity. }
  exists (String.append "add" (str (List.length before))), (add_sys_of c), (adder_promotes c).
  split; [|split; [reflexivity|]].
  - unfold g. rewrite (proj1 (auto_run_eq l)). apply in_map_iff. exists (List.length before, CallAdd c).
    split; [reflexivity|]. apply enum_in0; auto.
  - intros V row col Hc.
    assert (Hlen : List.length (as_ins (add_sys_of c)) = List.length names).
    { simpl. unfold temps. rewrite map_length, seq_length. unfold names. rewrite app_length. reflexivity. }
    assert (W : add_wf (add_sys_of c)).
    { split.
      - rewrite Hlen. exact Hs.
      - rewrite Hlen. simpl. destruct (ac_factors c); [exact Hf|]. rewrite repeat_length. unfold names. rewrite app_length. reflexivity. }
    pose proof (add_value (add_sys_of c) (seen (ig_conns g) (String.append "add" (str (List.length before))) (adder_promotes c) V)
                  row col W Hc) as E.
    simpl as_len in E. rewrite E. f_equal. rewrite Hlen. apply rsum_ext. intros i Hi.
    assert (Hn : nth_error names i = Some (nth i names "")) by (apply nth_error_nth'; exact Hi).
    f_equal.
    + unfold factor, factors. simpl as_sf. destruct (ac_factors c); [reflexivity|].
      apply nth_repeat_lt. unfold names in Hi. rewrite app_length in Hi. exact Hi.
    + change (as_ins (add_sys_of c)) with (temps (List.length (ac_sources c) + List.length (ac_promoted c))).
      assert (Et : nth i (temps (List.length (ac_sources c) + List.length (ac_promoted c))) "" = String.append "_temp" (str i)).
      { unfold temps. apply (nth_map_seq (fun j => String.append "_temp" (str j))).
        unfold names in Hi; rewrite app_length in Hi; exact Hi. }
      rewrite Et. unfold seen, g.
      rewrite (add_source l c (List.length before) i (nth i names "") Hk Hn). reflexivity.
Qed.
Print Assumptions C31_adder_computes_the_sum.

(** The same for [promote_mult]: the factored source, or the factor divided by
    the source when divide=[True]. *)
Theorem C31_multiplier_computes_the_product :
  forall before c after d,
    let g := auto_run (before ++ CallMult c :: after) in
    (mc_divide c = Some [d] \/ (mc_divide c = None /\ d = false)) ->
    sizes_wf (mc_vec c) 1 ->
    exists name s,
      In (name, AutoMult s) (ig_subs g) /\ ms_out s = mc_prom c /\
      forall V row col, (col < mc_len c)%nat ->
        mul_compute s (seen (ig_conns g) name [] V) (row * mc_len c + col) =
        Ok (let v := entry (V (mc_source c)) (in_size (mc_vec c) 0) (mc_len c) row col in
            mc_factor c * (if d then / v else v))%R.
Proof.
  intros before c after d g Hd Hs.
  set (l := before ++ CallMult c :: after) in *.
  assert (Hk : nth_error l (List.length before) = Some (CallMult c)).
  { unfold l. rewrite nth_error_app2 by lia. rewrite Nat.sub_diag. reflexivity. }
  exists (String.append "mult" (str (List.length before))), (mult_sys_of c).
  split; [|split; [reflexivity|]].
  - unfold g. rewrite (proj1 (auto_run_eq l)). apply in_map_iff. exists (List.length before, CallMult c).
    split; [reflexivity|]. apply enum_in0; auto.
  - intros V row col Hc.
    assert (W : mul_wf (mult_sys_of c)).
    { split; [exact Hs|]. simpl. split; [|reflexivity]. destruct Hd as [->|[-> _]]; simpl; auto. }
    pose proof (mul_value (mult_sys_of c) (seen (ig_conns g) (String.append "mult" (str (List.length before))) [] V)
                  row col W Hc) as E.
    simpl ms_len in E. rewrite E. f_equal. cbn [ms_sf ms_ins mult_sys_of List.length rprod]. rewrite Rmult_1_l. f_equal.
    assert (Ev : seen (ig_conns g) (String.append "mult" (str (List.length before))) [] V "_temp" = V (mc_source c)).
    { unfold seen, g. rewrite (mult_source l c _ Hk). reflexivity. }
    change (nth 0 (ms_ins (mult_sys_of c)) "") with "_temp". cbv zeta. simpl nth. rewrite Ev.
    unfold divided. simpl ms_div. simpl ms_vec. destruct Hd as [->|[-> ->]]; reflexivity.
Qed.
Print Assumptions C31_multiplier_computes_the_product.

(** The argument [input_units] of promote_mult has no effect. *)
Theorem C31_input_units_argument_refuted :
  exists c1 c2, mc_input_units c1 <> mc_input_units c2 /\
    auto_run [CallMult c1] = auto_run [CallMult c2] /\
    (forall s, In s (map snd (ig_subs (auto_run [CallMult c1]))) ->
       match s with AutoMult m => ms_units m = Some [Some [TUnit "kW"]] | AutoAdd _ _ => False end) /\
    mc_input_units c1 = Some [Some [TUnit "W"]].
Proof.
  exists {| mc_source := "a"; mc_prom := "b"; mc_factor := 2%R; mc_vec := VInt 1; mc_len := 1; mc_units := Some [TUnit "kW"];
            mc_divide := None; mc_input_units := Some [Some [TUnit "W"]] |},
         {| mc_source := "a"; mc_prom := "b"; mc_factor := 2%R; mc_vec := VInt 1; mc_len := 1; mc_units := Some [TUnit "kW"];
            mc_divide := None; mc_input_units := None |}.
  split; [discriminate|]. split; [reflexivity|]. split; [|reflexivity].
  simpl. intros s [<-|[]]. reflexivity.
Qed.
Print Assumptions C31_input_units_argument_refuted.

Definition ex_call : add_call :=
  {| ac_sources := ["a.W"; "b.W"]; ac_prom := "W"; ac_promoted := ["ac|W"]; ac_factors := Some [1; 2; -(1)]%R;
     ac_vec := VInt 3; ac_len := 1; ac_units := Some "kg" |}.
Example C31_instance :
  (match ac_factors ex_call with None => True | Some f => List.length f = List.length (ac_sources ex_call ++ ac_promoted ex_call) end) /\
  sizes_wf (ac_vec ex_call) 3 /\
  map fst (ig_subs (auto_run [CallAdd ex_call; CallAdd ex_call])) = ["add0"; "add1"] /\
  ig_conns (auto_run [CallAdd ex_call]) = [("a.W", "add0._temp0"); ("b.W", "add0._temp1")].
Proof. repeat split. Qed.

(** ** C32 *)
(** When configure succeeds, the integrator gets one state for each output
    tagged "integrate" of the group's own components, in order, with the name,
    units, start value and bounds its tags declare (or the defaults); each rate
    is connected to its integrator input; state and rate names are distinct; and
    the promoted names are those of the states whose tags ask for it. *)
Theorem C32_tagged_rates_are_integrated_partial :
  forall float eval_num eval_bool prom children cf,
    igroup_configure float eval_num eval_bool prom children = Ok cf ->
    (forall r, In r (rates children) -> tags_ok (snd (snd r))) ->
    Forall2 (fun r g => integrand_of float eval_num (snd r) g) (rates children) (cf_integrands cf) /\
    cf_conns cf = map (fun r => (prom (sub (fst r) (fst (snd r))), sub "ode_integ" (fst (snd r)))) (rates children) /\
    NoDup (map ig_state (cf_integrands cf)) /\ NoDup (map ig_rate (cf_integrands cf)) /\
    exists pr, Forall2 (fun r b => given (snd (snd r)) "state_promotes" eval_bool false b) (rates children) pr /\
      cf_out_promotes cf = flat_map (fun gb => if snd gb : bool then [ig_state (fst gb); String.append (ig_state (fst gb)) "_final"] else [])
                             (combine (cf_integrands cf) pr) /\
      cf_in_promotes cf = flat_map (fun gb => if snd gb : bool then [String.append (ig_state (fst gb)) "_initial"] else [])
                             (combine (cf_integrands cf) pr).
Proof.
  intros float eval_num eval_bool prom children cf H Ht.
  unfold igroup_configure in H. rewrite cflat_children in H.
  destruct (cflat float eval_num eval_bool prom ["duration"] (rates children)) as [[n c]|] eqn:E; simpl in H; [|discriminate].
  injection H as <-.
  destruct (cflat_spec _ _ _ _ _ _ _ _ E) as (L & HF & A & B & C & D & F & G).
  assert (Hsub : forall (f : integrand * (string * string) * bool -> string),
     (forall e, In (f e) (entry_names e)) -> (forall e e' : integrand * (string * string) * bool, True) -> NoDup (map f L)).
  { intros f Hf _. clear - F Hf. induction L as [|e L IH]; simpl; [constructor|].
    cbn [flat_map] in F. apply NoDup_app_iff in F. destruct F as (F1 & F2 & F3). constructor; auto.
    intro Hin. apply in_map_iff in Hin. destruct Hin as [e' [Ee He]].
    apply (F3 (f e)); [apply Hf|]. apply in_flat_map. exists e'. split; auto. rewrite <- Ee. apply Hf. }
  rewrite A, B, C, D. split; [|split; [|split; [|split]]].
  - clear - HF Ht. induction HF as [|r e l L H HF IH]; simpl; constructor.
    + destruct e as [[g c] b]. destruct H as [H _]. apply H. apply Ht. left; reflexivity.
    + apply IH. intros r' H'. apply Ht. right; exact H'.
  - clear - HF. induction HF as [|r e l L H HF IH]; simpl; [reflexivity|].
    destruct e as [[g c] b]. destruct H as [_ ->]. simpl. rewrite IH. reflexivity.
  - rewrite map_map. apply (Hsub (fun e => ig_state (fst (fst e)))); auto.
    intro e. unfold entry_names. simpl. auto.
  - rewrite map_map. apply (Hsub (fun e => ig_rate (fst (fst e)))); auto.
    intro e. unfold entry_names. simpl. auto.
  - exists (map snd L). split; [|split].
    + clear - HF Ht. induction HF as [|r e l L H HF IH]; simpl; constructor.
      * destruct e as [[g c] b]. destruct H as [H _]. apply H. apply Ht. left; reflexivity.
      * apply IH. intros r' H'. apply Ht. right; exact H'.
    + clear. induction L as [|e L IH]; simpl; [reflexivity|]. rewrite IH. reflexivity.
    + clear. induction L as [|e L IH]; simpl; [reflexivity|]. rewrite IH. reflexivity.
Qed.
Print Assumptions C32_tagged_rates_are_integrated_partial.

(** configure succeeds whenever every rate declares a state name, its numbers can
    be read, and the names of rates, states, ends and starts are all different. *)
Theorem C32_accepted_groups :
  forall float eval_num eval_bool prom children states,
    (forall r, In r (rates children) -> tags_ok (snd (snd r)) /\ readable float eval_num eval_bool (snd (snd r))) ->
    Forall2 (fun r st => declares (snd (snd r)) "state_name" st /\ colonless st) (rates children) states ->
    NoDup ("duration" :: flat_map (fun p => [fst (snd (fst p)); String.append (snd p) "_final"; snd p; String.append (snd p) "_initial"])
             (combine (rates children) states)) ->
    is_ok (igroup_configure float eval_num eval_bool prom children) = true.
Proof.
  intros float eval_num eval_bool prom children states Hr HF Hnd. inversion Hnd; subst.
  unfold igroup_configure. rewrite cflat_children.
  destruct (cflat_accepts float eval_num eval_bool prom (rates children) (fun r H => proj2 (Hr r H))
              (fun r H => proj1 (Hr r H)) states HF ["duration"]) as [out Ho]; auto.
  - intros x Hx [<-|[]]. contradiction.
  - rewrite Ho. reflexivity.
Qed.
Print Assumptions C32_accepted_groups.

(** A rate without a state name is never accepted. *)
Theorem C32_state_name_required :
  forall float eval_num eval_bool prom children r,
    In r (rates children) -> tags_ok (snd (snd r)) -> (forall v, ~ declares (snd (snd r)) "state_name" v) ->
    is_ok (igroup_configure float eval_num eval_bool prom children) = false.
Proof.
  intros float eval_num eval_bool prom children r Hin Hok Hno. unfold igroup_configure. rewrite cflat_children.
  destruct (cflat_needs_name float eval_num eval_bool prom (rates children)
              (ex_intro _ r (conj Hin (conj Hok Hno))) ["duration"]) as [e He]. rewrite He. reflexivity.
Qed.
Print Assumptions C32_state_name_required.

(** Two components with a rate output of the same name cannot be used together,
    even though their states differ. *)
Definition two_tanks : list child :=
  [ {| ch_name := "tank1"; ch_group := false; ch_outs := [("m_dot", ["integrate"; "state_name:m1"; "state_units:kg"])] |};
    {| ch_name := "tank2"; ch_group := false; ch_outs := [("m_dot", ["integrate"; "state_name:m2"; "state_units:kg"])] |} ].
Theorem C32_same_rate_name_refuted :
  forall float eval_num eval_bool prom,
    igroup_configure float eval_num eval_bool prom two_tanks = Err ValueError /\
    List.length (rates two_tanks) = 2%nat.
Proof. intros. split; reflexivity. Qed.
Print Assumptions C32_same_rate_name_refuted.

(** A tagged output of a component inside a nested group is not integrated. *)
Theorem C32_nested_group_refuted :
  forall float eval_num eval_bool prom c, ch_group c = true ->
    igroup_configure float eval_num eval_bool prom [c] = Ok cf_empty.
Proof. intros float eval_num eval_bool prom c H. unfold igroup_configure. simpl. unfold tagged. rewrite H. reflexivity. Qed.
Print Assumptions C32_nested_group_refuted.

Definition ex_children : list child :=
  [ {| ch_name := "eng"; ch_group := false;
       ch_outs := [("fuel_flow", ["state_units:kg"; "integrate"; "state_name:fuel_used"; "state_lower:0.0"; "state_promotes:True"]);
                   ("thrust", [])] |};
    {| ch_name := "batt"; ch_group := false; ch_outs := [("dSOCdt", ["integrate"; "state_name:SOC"; "state_val:1.0"])] |} ].
Definition ex_float (s : string) : res R := if String.eqb s "0.0" then Ok 0%R else if String.eqb s "1.0" then Ok 1%R else Err ValueError.
Definition ex_bool (s : string) : res bool := if String.eqb s "True" then Ok true else if String.eqb s "False" then Ok false else Err NameError.
Example C32_instance :
  match igroup_configure ex_float ex_float ex_bool (fun s => s) ex_children with
  | Ok cf => map ig_state (cf_integrands cf) = ["fuel_used"; "SOC"] /\
      option_map ig_lower (hd_error (cf_integrands cf)) = Some 0%R /\ map ig_val (cf_integrands cf) = [0; 1]%R /\
      cf_conns cf = [("eng.fuel_flow", "ode_integ.fuel_flow"); ("batt.dSOCdt", "ode_integ.dSOCdt")] /\
      cf_out_promotes cf = ["fuel_used"; "fuel_used_final"]
  | Err _ => False
  end.
Proof. cbv -[pow IZR Ropp]. repeat split. Qed.
(** ... and its tags are as the theorems require. *)
Definition colonlessb (s : string) : bool := forallb (fun c => negb (Ascii.eqb c ":")) (list_ascii_of_string s).
Lemma colonlessb_ok s : colonlessb s = true -> colonless s.
Proof. unfold colonlessb, colonless. rewrite forallb_forall. intros H Hin. specialize (H _ Hin). discriminate. Qed.
Lemma functional_pairs l tags : (forall t, In t tags -> colonless t \/ exists kv, In kv l /\ t = String.append (fst kv) (String.append ":" (snd kv))) ->
  (forall kv, In kv l -> colonless (fst kv) /\ colonless (snd kv)) -> NoDup (map fst l) -> functional tags.
Proof.
  intros H Hc Hn k v w Hk Hv Hw D1 D2. unfold declares in D1, D2.
  assert (P : forall v, colonless v -> In (String.append k (String.append ":" v)) tags -> In (k, v) l).
  { intros x Hx Hin. destruct (H _ Hin) as [Hcl|[[k' v'] [Hl E]]].
    - exfalso. apply colonless_app in Hcl. destruct Hcl as [_ Hcl]. apply Hcl. simpl. auto.
    - destruct (Hc _ Hl) as [C1 C2]. simpl in C1, C2, E. apply colon_split_inj in E; auto. destruct E as [-> ->]. exact Hl. }
  pose proof (P v Hv D1) as I1. pose proof (P w Hw D2) as I2.
  pose proof (NoDup_map_inj fst l Hn _ _ I1 I2 eq_refl) as E. congruence.
Qed.
Lemma tags_ok_pairs words l : List.forallb colonlessb words = true ->
  List.forallb (fun kv => colonlessb (fst kv) && colonlessb (snd kv)) l = true ->
  nodupb (map fst l) = true -> List.forallb (fun k => negb (in_list k words)) tag_keys = true ->
  forall tags, (forall t, In t tags -> In t words \/ In t (map (fun kv => String.append (fst kv) (String.append ":" (snd kv))) l)) ->
  tags_ok tags.
Proof.
  intros Hw Hl Hn Hk tags Ht. rewrite forallb_forall in Hw, Hl, Hk. apply nodupb_ok in Hn.
  assert (Hl' : forall kv, In kv l -> colonless (fst kv) /\ colonless (snd kv)).
  { intros kv Hin. specialize (Hl kv Hin). apply andb_true_iff in Hl. destruct Hl; split; apply colonlessb_ok; auto. }
  split; [|split].
  - rewrite Forall_forall. intros t Hin. destruct (Ht t Hin) as [H|H].
    + left. apply colonlessb_ok, Hw, H.
    + right. apply in_map_iff in H. destruct H as [[k v] [<- H]]. exists k, v. split; [reflexivity|]. apply (Hl' _ H).
  - apply (functional_pairs l); auto. intros t Hin. destruct (Ht t Hin) as [H|H].
    + left. apply colonlessb_ok, Hw, H.
    + right. apply in_map_iff in H. destruct H as [kv [<- H]]. exists kv; auto.
  - intros k Hkk Hin. destruct (Ht k Hin) as [H|H].
    + specialize (Hk k Hkk). apply negb_true_iff in Hk. apply in_list_false in Hk. contradiction.
    + apply in_map_iff in H. destruct H as [kv [E H]]. pose proof (keys_colonless k Hkk) as C. rewrite <- E in C.
      apply colonless_app in C. destruct C as [_ C]. apply C. simpl. auto.
Qed.
Example C32_instance_tags : forall r, In r (rates ex_children) -> tags_ok (snd (snd r)).
Proof.
  simpl. intros r [<-|[<-|[]]]; simpl.
  - apply (tags_ok_pairs ["integrate"] [("state_units", "kg"); ("state_name", "fuel_used"); ("state_lower", "0.0"); ("state_promotes", "True")]);
      try (vm_compute; reflexivity). simpl. tauto.
  - apply (tags_ok_pairs ["integrate"] [("state_name", "SOC"); ("state_val", "1.0")]);
      try (vm_compute; reflexivity). simpl. tauto.
Qed.

(** ** C33 *)
(** Every profile with valid options and every aircraft model: the mission is
    wired; no input is driven twice; the start of an aircraft state [v] in phase
    [q] is driven exactly from the end of the same state in the phase flown before
    [q] (and left free when there is none); and the distance flown is handed from
    each phase to the next. *)
Theorem C33_profiles_form_one_trajectory :
  forall o users path promO promI,
    valid_profile o -> users_ok o users -> proms_ok o users path promO promI ->
    exists cs, mission promO promI path users o = Ok cs /\
      NoDup (map snd cs) /\
      (forall q v src, In q (map fst (profile_phases o)) -> In v (users q) ->
         (In (src, Some (sub q (is_start (ps_prom v)))) cs <->
          exists p u, In (p, q) (flown_after o) /\ In u (users p) /\ is_name (ps_abs u) = is_name (ps_abs v) /\
            src = Some (sub p (is_end (ps_prom u))))) /\
      (forall p q, In (p, q) (flown_after o) -> In (Some (range_end p), Some (range_start q)) cs).
Proof.
  intros o users path promO promI Hv Hu Hp.
  destruct (mission_spec o users path promO promI Hu Hp Hv) as (cs & E & _ & HN).
  exists cs. split; [exact E|]. split; [exact HN|]. split.
  - intros q v src Hq Hvin. apply (user_conns o users path promO promI Hu Hp cs Hv E); auto.
  - intros p q Hf. apply (own_in o users path promO promI Hu Hp cs); auto. apply range_chk; auto.
Qed.
Print Assumptions C33_profiles_form_one_trajectory.

(** The flight order is a chain: every phase but the first is flown after exactly
    one other phase of the profile. *)
Theorem C33_flight_order_is_a_tree :
  forall o, NoDup (map snd (flown_after o)) /\
    (forall q, In q (map fst (profile_phases o)) <-> q = first_phase o \/ In q (map snd (flown_after o))) /\
    ~ In (first_phase o) (map snd (flown_after o)) /\
    (forall p q, In (p, q) (flown_after o) -> In p (map fst (profile_phases o))).
Proof.
  intro o.
  assert (H : nodupb (map snd (flown_after o)) &&
    (forallb (fun q => String.eqb q (first_phase o) || in_list q (map snd (flown_after o))) (map fst (profile_phases o)) &&
     forallb (fun q => in_list q (map fst (profile_phases o))) (first_phase o :: map snd (flown_after o)) &&
     (negb (in_list (first_phase o) (map snd (flown_after o))) &&
      forallb (fun f => in_list (fst f) (map fst (profile_phases o))) (flown_after o))) = true).
  { revert o. apply by_profiles. vm_compute. reflexivity. }
  rewrite !andb_true_iff in H. destruct H as (A & (B & C) & D & E).
  rewrite forallb_forall in B, C, E. split; [apply nodupb_ok; exact A|]. split; [|split].
  - intro q. split.
    + intro Hq. specialize (B q Hq). apply orb_true_iff in B. destruct B as [B|B].
      * left. apply String.eqb_eq; exact B.
      * right. apply in_list_iff; exact B.
    + intros [->|Hq]; apply in_list_iff, C; simpl; auto.
  - apply negb_true_iff in D. apply in_list_false. exact D.
  - intros p q Hf. apply in_list_iff. exact (E (p, q) Hf).
Qed.
Print Assumptions C33_flight_order_is_a_tree.

(** Altitudes.  Within a mission the altitude is handed over too; climb starts
    from the takeoff altitude (BasicMission) or from the end of the rotation
    (takeoff profiles); loiter starts from its own altitude. *)
Definition altitude_source (o : profile) (q : string) : option string :=
  if String.eqb q "climb" then
    if pf_takeoff o then Some (altitude_end "rotate") else if pf_reserve o then None else Some "takeoff|h"
  else if String.eqb q "cruise" then Some (altitude_end "climb")
  else if String.eqb q "descent" then Some (altitude_end "cruise")
  else if String.eqb q "reserve_cruise" then Some (altitude_end "reserve_climb")
  else if String.eqb q "reserve_descent" then Some (altitude_end "reserve_cruise")
  else if String.eqb q "loiter" then Some "loiter|h0"
  else None.
Theorem C33_altitude_sources :
  forall o users path promO promI cs,
    valid_profile o -> users_ok o users -> proms_ok o users path promO promI ->
    mission promO promI path users o = Ok cs ->
    forall q, In q (map fst (profile_phases o)) -> steady q = true ->
      forall src, In (src, Some (altitude_start q)) cs <-> exists s, altitude_source o q = Some s /\ src = Some s.
Proof.
  intros o users path promO promI cs Hv Hu Hp E q Hq Hst src.
  assert (H : forallb (fun q => implb (steady q) (in_list (altitude_start q) (own_inputs o) &&
     match altitude_source o q with
     | Some s => pair_in (s, altitude_start q) (own_conns o) &&
                 forallb (fun c => implb (String.eqb (snd c) (altitude_start q)) (String.eqb (fst c) s)) (own_conns o)
     | None => negb (in_list (altitude_start q) (map snd (own_conns o)))
     end)) (map fst (profile_phases o)) = true).
  { clear. revert o. apply by_profiles. vm_compute. reflexivity. }
  rewrite forallb_forall in H. specialize (H q Hq). rewrite Hst in H. cbn [implb] in H.
  apply andb_true_iff in H. destruct H as [Hown H]. apply in_list_iff in Hown. split.
  - intro Hin. destruct (own_only o users path promO promI Hu Hp cs src _ Hv E Hown Hin) as [x [-> Hx]].
    destruct (altitude_source o q) as [s|].
    + apply andb_true_iff in H. destruct H as [_ H]. rewrite forallb_forall in H. specialize (H _ Hx). simpl in H.
      rewrite String.eqb_refl in H. simpl in H. apply String.eqb_eq in H. subst. exists s; auto.
    + exfalso. apply negb_true_iff in H. apply in_list_false in H. apply H. apply in_map_iff. exists (x, altitude_start q). auto.
  - intros [s [Hs ->]]. rewrite Hs in H. apply andb_true_iff in H. destruct H as [H _]. apply pair_in_iff in H.
    apply (own_in o users path promO promI Hu Hp cs); auto.
Qed.
Print Assumptions C33_altitude_sources.

(** So in MissionWithReserve the climb ignores the takeoff altitude, and with any
    reserve the reserve climb has no altitude source at all: neither the end of
    the descent nor "takeoff|h" drives it. *)
Theorem C33_takeoff_altitude_refuted :
  forall o users path promO promI cs,
    valid_profile o -> users_ok o users -> proms_ok o users path promO promI ->
    mission promO promI path users o = Ok cs -> pf_reserve o = true ->
    ~ In (Some (altitude_start "reserve_climb")) (map snd cs) /\
    (pf_takeoff o = false -> ~ In (Some (altitude_start "climb")) (map snd cs)).
Proof.
  intros o users path promO promI cs Hv Hu Hp E Hr.
  pose proof (C33_altitude_sources o users path promO promI cs Hv Hu Hp E) as A.
  split; [|intro Ht]; intro Hin; apply in_map_iff in Hin; destruct Hin as [[src t] [Et Hin]]; simpl in Et; subst t.
  - apply A in Hin; [destruct Hin as [s [Hs _]]; discriminate| |reflexivity].
    unfold profile_phases. rewrite Hr. rewrite !map_app. apply in_or_app. right. simpl. tauto.
  - apply A in Hin; [|unfold profile_phases; rewrite !map_app; apply in_or_app; right; simpl; tauto|reflexivity].
    destruct Hin as [s [Hs _]]. unfold altitude_source in Hs. rewrite Ht, Hr in Hs. discriminate.
Qed.
Print Assumptions C33_takeoff_altitude_refuted.

(** An unknown transition method is rejected. *)
Theorem C33_invalid_transition :
  forall o users path promO promI, ~ valid_profile o -> mission promO promI path users o = Err IOError.
Proof.
  intros o users path promO promI H. unfold mission, valid_profile in *.
  destruct (pf_takeoff o), (pf_transition o); simpl; try reflexivity; exfalso; apply H; intros; discriminate.
Qed.
Print Assumptions C33_invalid_transition.

(** An aircraft model with two states, in the full mission with reserves. *)
Definition ex_profile (t r g : bool) (m : transition) : profile :=
  {| pf_takeoff := t; pf_reserve := r; pf_ground_roll := g; pf_transition := m |}.
Definition ex_users (p : string) : list pstate :=
  [ {| ps_abs := std_state "ode_integ" "fuel_used"; ps_prom := promoted_state "fuel_used" |};
    {| ps_abs := std_state "batt.integ" "SOC"; ps_prom := std_state "batt.integ" "SOC" |} ].
Definition ex_table (o : profile) (f g : istate -> string) : list (string * string) :=
  flat_map (fun pk => map (fun s => (sub (fst pk) (f (ps_abs s)), sub (fst pk) (g (ps_prom s))))
                          (phase_states (snd pk) (ex_users (fst pk)))) (profile_phases o).
Definition lookup (l : list (string * string)) (x : string) : option string :=
  option_map snd (find (fun e => String.eqb (fst e) x) l).
Definition ex_promO (o : profile) := lookup (ex_table o is_name is_name ++ ex_table o is_end is_end).
Definition ex_promI (o : profile) := lookup (ex_table o is_start is_start).
Lemma forall_phases (o : profile) (P : string -> pkind -> pstate -> bool) :
  forallb (fun p => forallb (P p (kind_of o p)) (phase_states (kind_of o p) (ex_users p))) (map fst (profile_phases o)) = true ->
  forall p s, In p (map fst (profile_phases o)) -> In s (phase_states (kind_of o p) (ex_users p)) -> P p (kind_of o p) s = true.
Proof.
  intros H p s Hp Hs. rewrite forallb_forall in H. specialize (H p Hp). rewrite forallb_forall in H. apply H, Hs.
Qed.
Example C33_instance : forall m, m <> OtherTransition ->
  let o := ex_profile true true false m in
  valid_profile o /\ users_ok o ex_users /\ proms_ok o ex_users "" (ex_promO o) (ex_promI o).
Proof.
  intros m Hm o. split; [intros _; exact Hm|]. split.
  - constructor.
    + intro p. apply nodupb_ok. vm_compute. reflexivity.
    + intro p. apply nodupb_ok. vm_compute. reflexivity.
    + intros p u Hp Hin. apply in_list_false.
      assert (H : forallb (fun p => forallb (fun u => negb (in_list (sub p (is_start (ps_prom u))) (own_inputs o))) (ex_users p))
                          (map fst (profile_phases o)) = true) by (destruct m; vm_compute; reflexivity).
      rewrite forallb_forall in H. specialize (H p Hp). rewrite forallb_forall in H. apply negb_true_iff, H, Hin.
    + intros p q u v Hin Hv. simpl in Hin, Hv.
      destruct Hin as [<-|[<-|[]]], Hv as [<-|[<-|[]]]; simpl; intro E; try discriminate; reflexivity.
    + intros p u Hin. simpl in Hin. destruct Hin as [<-|[<-|[]]]; simpl; intuition discriminate.
  - constructor.
    + intros p s Hp Hs. apply opt_eqb_iff.
      refine (forall_phases o (fun p k s => opt_eqb (ex_promO o (below "" (sub p (is_name (ps_abs s))))) (Some (sub p (is_name (ps_prom s))))) _ p s Hp Hs).
      destruct m; vm_compute; reflexivity.
    + intros p s Hp Hs. apply opt_eqb_iff.
      refine (forall_phases o (fun p k s => opt_eqb (ex_promO o (below "" (sub p (is_end (ps_abs s))))) (Some (sub p (is_end (ps_prom s))))) _ p s Hp Hs).
      destruct m; vm_compute; reflexivity.
    + intros p u Hp Hin. apply opt_eqb_iff.
      refine (forall_phases o (fun p k s => opt_eqb (ex_promI o (below "" (sub p (is_start (ps_abs s))))) (Some (sub p (is_start (ps_prom s))))) _ p (user_state u) Hp _).
      * destruct m; vm_compute; reflexivity.
      * unfold phase_states. apply in_or_app. right. apply in_map. exact Hin.
    + intros p s Hp Hk Hin. apply opt_eqb_iff.
      refine (forall_phases o (fun p k s => opt_eqb (ex_promI o (below "" (sub p (is_start (ps_abs s))))) (Some (sub p (is_start (ps_prom s))))) _ p s Hp _).
      * destruct m; vm_compute; reflexivity.
      * unfold phase_states. apply in_or_app. left. rewrite Hk. exact Hin.
Qed.
(** The fuel burnt goes round the whole mission. *)
Example C33_instance_fuel : exists cs, mission (ex_promO (ex_profile true true false Ode)) (ex_promI (ex_profile true true false Ode)) "" ex_users
    (ex_profile true true false Ode) = Ok cs /\
  In (Some "v0v1.fuel_used_final", Some "v1vr.fuel_used_initial") cs /\
  In (Some "rotate.fuel_used_final", Some "climb.fuel_used_initial") cs /\
  In (Some "reserve_descent.batt.integ.SOC_final", Some "loiter.batt.integ.SOC_initial") cs.
Proof.
  destruct (C33_instance Ode) as (A & B & C); [discriminate|].
  destruct (C33_profiles_form_one_trajectory _ _ _ _ _ A B C) as (cs & E & _ & H & _).
  exists cs. split; [exact E|]. split; [|split].
  - apply (H "v1vr" (nth 0 (ex_users "") {| ps_abs := st3 "" "" ""; ps_prom := st3 "" "" "" |}) (Some "v0v1.fuel_used_final"));
      [simpl; tauto|simpl; tauto|].
    exists "v0v1", (nth 0 (ex_users "") {| ps_abs := st3 "" "" ""; ps_prom := st3 "" "" "" |}). simpl. tauto.
  - apply (H "climb" (nth 0 (ex_users "") {| ps_abs := st3 "" "" ""; ps_prom := st3 "" "" "" |}) (Some "rotate.fuel_used_final"));
      [simpl; tauto|simpl; tauto|].
    exists "rotate", (nth 0 (ex_users "") {| ps_abs := st3 "" "" ""; ps_prom := st3 "" "" "" |}). simpl. tauto.
  - apply (H "loiter" (nth 1 (ex_users "") {| ps_abs := st3 "" "" ""; ps_prom := st3 "" "" "" |}) (Some "reserve_descent.batt.integ.SOC_final"));
      [simpl; tauto|simpl; tauto|].
    exists "reserve_descent", (nth 1 (ex_users "") {| ps_abs := st3 "" "" ""; ps_prom := st3 "" "" "" |}). simpl. tauto.
Qed.
