(** C71 to C73: zero-lift drag of jet transports and blended wing bodies. *)
From Coq Require Import Reals List Bool PeanoNat String Lia Lra.
From Coquelicot Require Import Coquelicot.
From Verif Require Import Base Py RSum Model_Algebra Model_Vectors Model_Net Model_Thermal Model_Ducts Model_HeatPipe Model_Systems Model_Aero Model_Drag Spec_Drag
  Proofs_Net Proofs_Cs Proofs_HX Proofs_Ducts Proofs_Systems Proofs_Exec Proofs_Drag Proofs_Friction.
Import ListNotations.
Open Scope R_scope.
Open Scope string_scope.
Open Scope list_scope.

(** ** C71: the build-up *)
Lemma flying_jet V i wing : flying V i (jet_scalars wing) -> jet_ok V i (if wing then ["hstab"; "vstab"; "wing"] else ["hstab"; "vstab"]).
Proof.
  intros [F G].
  assert (A : forall s, In s (if wing then ["hstab"; "vstab"; "wing"] else ["hstab"; "vstab"]) ->
    In (String.append "ac|geom|" (String.append s "|S_ref")) (jet_scalars wing) /\ In (String.append "ac|geom|" (String.append s "|AR")) (jet_scalars wing) /\ In (String.append "ac|geom|" (String.append s "|taper")) (jet_scalars wing)).
  { intros s H. destruct wing; cbn [In] in H; repeat destruct H as [<-|H]; try contradiction; repeat split; apply mem_In; reflexivity. }
  assert (B : forall x, mem x (jet_scalars wing) = true -> 0 < V x 0%nat) by (intros x M; apply G, mem_In, M).
  unfold jet_ok. split; [apply F; cbn; auto|]. split; [apply Rgt_not_eq, F; cbn; auto|].
  repeat (split; [apply Rgt_not_eq, B; destruct wing; reflexivity|]). intros s H. destruct (A s H) as (H1 & H2 & H3).
  split; [apply Rdiv_lt_0_compat; auto|]. left. auto.
Qed.
Theorem C71_jet o nn V i : solution (ParasiteDragCoefficient_JetTransport o nn) V -> (i < nn)%nat -> flying V i (jet_scalars (do_wing o)) ->
  V "CD0" i = jet_drag o V i.
Proof. intros S Hi F. apply (jet_value o nn V i S Hi). now apply flying_jet. Qed.
Print Assumptions C71_jet.
Theorem C71_bwb o nn V i : solution (ParasiteDragCoefficient_BWB o nn) V -> (i < nn)%nat -> flying V i bwb_scalars -> V "CD0" i = bwb_drag o V i.
Proof. intros S Hi [F _]. apply (bwb_value o nn V i S Hi); [apply F; cbn; auto|apply Rgt_not_eq, F; cbn; auto]. Qed.
Print Assumptions C71_bwb.

(** The build-ups read exactly the documented inputs. *)
Lemma same_names l m : forallb (fun x => mem x m) l = true -> forallb (fun x => mem x l) m = true -> forall x, In x l <-> In x m.
Proof. intros H1 H2 x. rewrite forallb_forall in H1, H2. split; intro H; apply mem_In; auto. Qed.
Theorem C71_jet_documented_inputs o nn x :
  In x (free_ins (ParasiteDragCoefficient_JetTransport o nn)) <-> In x (flight_inputs ++ jet_scalars (do_wing o) ++ takeoff_inputs (do_takeoff o)).
Proof. destruct o as [[] [] o1 o2 o3 o4 o5 o6 o7 o8 o9 o10 o11 o12 o13]; apply same_names; reflexivity. Qed.
Print Assumptions C71_jet_documented_inputs.
Theorem C71_bwb_documented_inputs o nn x : In x (free_ins (ParasiteDragCoefficient_BWB o nn)) <-> In x (flight_inputs ++ bwb_scalars ++ takeoff_inputs (bo_takeoff o)).
Proof. destruct o as [[] b1 b2 b3 b4 b5 b6]; apply same_names; reflexivity. Qed.
Print Assumptions C71_bwb_documented_inputs.

(** The build-ups can be set up, and every choice of inputs has its values. *)
Lemma fun_constants name l : no_dup (map fst l) = true -> functional (constants name l).
Proof.
  intro N. exists (fun _ o _ => match assoc o l with Some v => v | None => 0 end). split; [intros I I' o i _ _; reflexivity|].
  intros I O H x v Hx. cbn [constants gs_outs] in H. rewrite (H x 0%nat) by (apply (in_map fst) in Hx; exact Hx).
  replace (assoc x l) with (Some v); [reflexivity|]. clear H. induction l as [|[y w] l IH]; [contradiction|]. cbn [map fst no_dup] in N. apply andb_prop in N. destruct N as [N1 N2].
  cbn [assoc]. destruct Hx as [E|Hx]; [injection E as -> ->; now rewrite String.eqb_refl|]. destruct (String.eqb_spec x y) as [->|]; [|now apply IH].
  apply negb_true_iff in N1. apply (in_map fst) in Hx. apply mem_In in Hx. cbn [fst] in Hx. congruence.
Qed.
Lemma mul_local s I I' i : (forall x j, In x (ms_ins s) -> I x j = I' x j) -> mul_compute s I i = mul_compute s I' i.
Proof.
  intro H. unfold mul_compute. destruct (mul_resolve s) as [[[v l] u]|] eqn:R; [|reflexivity]. cbn [res_bind fst snd]. f_equal. f_equal.
  assert (K : forall p, In p l -> In (fst (fst p)) (ms_ins s)).
  { unfold mul_resolve in R. destruct negb; [discriminate|]. destruct negb; [discriminate|]. destruct read_sizes as [vs|]; [|discriminate]. cbn [res_bind] in R.
    destruct negb; [discriminate|]. injection R as <- <- <-. intros [[x a] b] Hp. apply in_combine_l in Hp. apply in_combine_l in Hp. exact Hp. }
  clear R. generalize 1. induction l as [|p l IH]; intro a; [reflexivity|]. cbn [fold_left]. rewrite (H (fst (fst p))) by (apply K; now left).
  apply IH. intros q Hq. apply K. now right.
Qed.
Lemma fun_multipliers name l pin pout : no_dup (map ms_out l) = true -> (forall s, In s l -> forall I i, (i < rows (ms_vec s))%nat -> exists v, mul_compute s I i = Ok v) ->
  functional (multipliers name l pin pout).
Proof.
  intros N K. exists (fun I o i => match find (fun s => String.eqb o (ms_out s)) l with
    | Some s => match mul_compute s I i with Ok v => v | _ => 0 end | None => 0 end). split.
  - intros I I' o i Ho H. cbn [multipliers gs_ins] in H. destruct (find _ l) as [s|] eqn:F; [|reflexivity]. apply find_some in F.
    rewrite (mul_local s I I'); [reflexivity|]. intros x j Hx. apply H. apply in_flat_map. exists s. tauto.
  - intros I O H s Hs i Hi. cbn [multipliers gs_outs] in H. rewrite (H (ms_out s) i) by (now apply in_map).
    assert (F : find (fun s' => String.eqb (ms_out s) (ms_out s')) l = Some s).
    { clear H K. induction l as [|t l IH]; [contradiction|]. cbn [map no_dup] in N. apply andb_prop in N. destruct N as [N1 N2]. cbn [find].
      destruct Hs as [->|Hs]; [now rewrite String.eqb_refl|]. destruct (String.eqb_spec (ms_out s) (ms_out t)) as [E|]; [|now apply IH].
      exfalso. apply negb_true_iff in N1. apply (in_map ms_out) in Hs. apply mem_In in Hs. congruence. }
    rewrite F. destruct (K s Hs I i Hi) as [v E]. now rewrite E.
Qed.
Lemma local_body Q : local_comp (FuselageFormFactor_JetTransport Q).
Proof. local_auto FuselageFormFactor_JetTransport. Qed.
Lemma local_wing Q : local_comp (WingFormFactor_JetTransport Q).
Proof. local_auto WingFormFactor_JetTransport. Qed.
Lemma local_flap a b c : local_comp (FlapDrag_JetTransport a b c).
Proof. local_auto FlapDrag_JetTransport. Qed.
Lemma local_skin l : local_comp (SkinFrictionCoefficient_JetTransport l).
Proof. local_auto SkinFrictionCoefficient_JetTransport. Qed.
Lemma local_mac : local_comp WingMACTrapezoidal.
Proof. local_auto WingMACTrapezoidal. Qed.
Lemma fun_total nn ins k : (0 < nn)%nat -> (List.length ins = 3 \/ List.length ins = 6 \/ List.length ins = 7)%nat -> functional (adders "sum_CD0" [total nn ins k] [] [P "CD0"]).
Proof.
  intros Hn L. apply fun_adders; [reflexivity|]. intros s [<-|[]] I i Hi.
  destruct ins as [|a [|b [|c [|d [|e [|f [|g [|h l]]]]]]]]; cbn [List.length] in L; try (exfalso; lia);
    cbn [total as_vec rows List.length Nat.sub repeat app list_max fold_right] in Hi; eexists; [apply total3|apply total6|apply total7]; lia.
Qed.
Lemma surface_ok nn out a f c w k I i : (0 < nn)%nat -> (i < rows (ms_vec (surface_drag nn out a f c w k)))%nat -> exists v, mul_compute (surface_drag nn out a f c w k) I i = Ok v.
Proof. intros Hn H. cbn [surface_drag ms_vec rows list_max fold_right] in H. eexists. apply surface_drag_value. lia. Qed.
Lemma nacelle_ok nn w I i : (0 < nn)%nat -> (i < rows (ms_vec (nacelle_drag nn w)))%nat -> exists v, mul_compute (nacelle_drag nn w) I i = Ok v.
Proof. intros Hn H. cbn [nacelle_drag ms_vec rows list_max fold_right] in H. eexists. apply nacelle_drag_value. lia. Qed.
Lemma wing_ok nn I i : (0 < nn)%nat -> (i < rows (ms_vec (wing_drag nn)))%nat -> exists v, mul_compute (wing_drag nn) I i = Ok v.
Proof. intros Hn H. cbn [wing_drag ms_vec rows list_max fold_right] in H. eexists. apply wing_drag_value. lia. Qed.
Ltac druns Hn := match goal with
  | |- functional (drag_iv _ _ _) => unfold drag_iv; apply fun_constants; reflexivity
  | |- functional (comp _ _ _ _ _) => apply fun_comp; first [apply local_body | apply local_wing | apply local_flap | apply local_skin | apply local_mac]
  | |- functional (drag_sum _ _ _) => apply fun_total; [exact Hn|cbn; lia]
  | |- functional (multipliers _ _ _ _) => apply fun_multipliers; [reflexivity|]; let s := fresh "s" in let H := fresh "H" in intros s H; cbn [app In] in H;
      repeat destruct H as [<-|H]; try contradiction; intros; first [now apply surface_ok | now apply nacelle_ok | now apply wing_ok]
  end.
Lemma group_runs g V0 : List.Forall functional (g_subs g) -> ordered g (g_subs g) = true -> flat_map out_names (g_subs g) = group_outs g ->
  exists V, solution g V /\ same_inputs V V0 (free_ins g).
Proof.
  intros F O N. destruct (exec g (g_subs g) V0 F O (incl_refl _)) as [V [S H]]. exists V. split; [exact S|]. intros x j Hx. apply H. rewrite N. intro K.
  unfold free_ins in Hx. cbv zeta in Hx. apply filter_In in Hx. destruct Hx as [_ Hx]. apply andb_prop in Hx. destruct Hx as [Hx _]. apply negb_true_iff in Hx. apply mem_In in K. congruence.
Qed.
Theorem C71_jet_runs o nn V0 : (0 < nn)%nat ->
  setup (ParasiteDragCoefficient_JetTransport o nn) = Ok (ParasiteDragCoefficient_JetTransport o nn) /\
  exists V, solution (ParasiteDragCoefficient_JetTransport o nn) V /\ same_inputs V V0 (free_ins (ParasiteDragCoefficient_JetTransport o nn)).
Proof.
  intro Hn. destruct o as [[] [] o1 o2 o3 o4 o5 o6 o7 o8 o9 o10 o11 o12 o13]; (split; [reflexivity|]); (apply group_runs; [|reflexivity|reflexivity]).
  all: unfold ParasiteDragCoefficient_JetTransport, surface, flaps;
    cbn [g_subs do_wing do_takeoff do_fudge do_FF_nacelle do_Q_fuselage do_Q_tail do_Q_wing do_flap_chord do_Q_flap do_flapped do_lam_fuselage do_lam_hstab do_lam_vstab do_lam_wing do_lam_nacelle app].
  all: repeat (apply List.Forall_cons; [druns Hn|]); apply List.Forall_nil.
Qed.
Print Assumptions C71_jet_runs.
Theorem C71_bwb_runs o nn V0 : (0 < nn)%nat ->
  setup (ParasiteDragCoefficient_BWB o nn) = Ok (ParasiteDragCoefficient_BWB o nn) /\
  exists V, solution (ParasiteDragCoefficient_BWB o nn) V /\ same_inputs V V0 (free_ins (ParasiteDragCoefficient_BWB o nn)).
Proof.
  intro Hn. destruct o as [[] b1 b2 b3 b4 b5 b6]; (split; [reflexivity|]); (apply group_runs; [|reflexivity|reflexivity]).
  all: unfold ParasiteDragCoefficient_BWB, flaps; cbn [g_subs bo_takeoff bo_fudge bo_FF_nacelle bo_flap_chord bo_Q_flap bo_flapped bo_lam_nacelle app].
  all: repeat (apply List.Forall_cons; [druns Hn|]); apply List.Forall_nil.
Qed.
Print Assumptions C71_bwb_runs.

(** Takeoff: the same aircraft with gear and flaps out has exactly their drag on top of the clean one's. *)
Definition with_config (o : drag_options) (takeoff : bool) : drag_options := {|
  do_wing := do_wing o; do_takeoff := takeoff; do_fudge := do_fudge o; do_FF_nacelle := do_FF_nacelle o; do_Q_fuselage := do_Q_fuselage o; do_Q_tail := do_Q_tail o; do_Q_wing := do_Q_wing o;
  do_flap_chord := do_flap_chord o; do_Q_flap := do_Q_flap o; do_flapped := do_flapped o;
  do_lam_fuselage := do_lam_fuselage o; do_lam_hstab := do_lam_hstab o; do_lam_vstab := do_lam_vstab o; do_lam_wing := do_lam_wing o; do_lam_nacelle := do_lam_nacelle o |}.
Definition bwb_config (o : bwb_drag_options) (takeoff : bool) : bwb_drag_options := {|
  bo_takeoff := takeoff; bo_fudge := bo_fudge o; bo_FF_nacelle := bo_FF_nacelle o; bo_flap_chord := bo_flap_chord o; bo_Q_flap := bo_Q_flap o; bo_flapped := bo_flapped o; bo_lam_nacelle := bo_lam_nacelle o |}.
Lemma flying_same V V' i l : flying V i l -> same_inputs V V' (flight_inputs ++ l) -> flying V' i l.
Proof.
  intros [F G] E. split; intros x Hx; (rewrite <- E by (apply in_or_app; auto)); auto.
Qed.
Lemma jet_drag_same o V V' i : same_inputs V V' (flight_inputs ++ jet_scalars (do_wing o) ++ takeoff_inputs (do_takeoff o)) -> jet_drag o V i = jet_drag o V' i.
Proof.
  intro E. assert (K : forall x j, mem x (flight_inputs ++ jet_scalars (do_wing o) ++ takeoff_inputs (do_takeoff o)) = true -> V x j = V' x j) by (intros x j M; apply E, mem_In, M).
  unfold jet_drag, fuselage_area, hstab_area, vstab_area, wing_area, nacelle_area, takeoff_drag, lifting_area, Re_of, s_.
  destruct (do_wing o), (do_takeoff o); repeat match goal with |- context [V ?x ?j] => rewrite (K x j eq_refl) end; reflexivity.
Qed.
Theorem C71_takeoff_increment o nn V V' i : solution (ParasiteDragCoefficient_JetTransport (with_config o false) nn) V ->
  solution (ParasiteDragCoefficient_JetTransport (with_config o true) nn) V' -> (i < nn)%nat ->
  flying V i (jet_scalars (do_wing o)) -> same_inputs V V' (flight_inputs ++ jet_scalars (do_wing o)) ->
  V' "CD0" i = V "CD0" i + do_fudge o * (2/100 + flap_drag (do_flap_chord o) (do_Q_flap o) (do_flapped o) (V' "ac|aero|takeoff_flap_deg" 0%nat) (V' "ac|geom|wing|c4sweep" 0%nat)).
Proof.
  intros S S' Hi F E. rewrite (C71_jet _ _ _ _ S Hi F), (C71_jet _ _ _ _ S' Hi (flying_same _ _ _ _ F E)).
  rewrite (jet_drag_same _ V V'); [|cbn [with_config do_wing do_takeoff takeoff_inputs]; now rewrite app_nil_r]. unfold jet_drag, takeoff_drag, s_. cbn [with_config do_takeoff do_fudge do_flap_chord do_Q_flap do_flapped].
  unfold fuselage_area, hstab_area, vstab_area, wing_area, nacelle_area.
  cbn [with_config do_wing do_Q_fuselage do_Q_tail do_Q_wing do_lam_fuselage do_lam_hstab do_lam_vstab do_lam_wing do_lam_nacelle do_FF_nacelle]. ring.
Qed.
Print Assumptions C71_takeoff_increment.
Theorem C71_bwb_takeoff_increment o nn V V' i : solution (ParasiteDragCoefficient_BWB (bwb_config o false) nn) V ->
  solution (ParasiteDragCoefficient_BWB (bwb_config o true) nn) V' -> (i < nn)%nat -> flying V i bwb_scalars -> same_inputs V V' (flight_inputs ++ bwb_scalars) ->
  V' "CD0" i = V "CD0" i + bo_fudge o * (1/100 + flap_drag (bo_flap_chord o) (bo_Q_flap o) (bo_flapped o) (V' "ac|aero|takeoff_flap_deg" 0%nat) (V' "ac|geom|wing|c4sweep" 0%nat)).
Proof.
  intros S S' Hi F E. rewrite (C71_bwb _ _ _ _ S Hi F), (C71_bwb _ _ _ _ S' Hi (flying_same _ _ _ _ F E)).
  assert (K : forall x j, mem x (flight_inputs ++ bwb_scalars) = true -> V x j = V' x j) by (intros x j M; apply E, mem_In, M).
  unfold bwb_drag, nacelle_area, takeoff_drag, Re_of, s_. cbn [bwb_config bo_takeoff bo_fudge bo_FF_nacelle bo_flap_chord bo_Q_flap bo_flapped bo_lam_nacelle].
  repeat match goal with |- context [V ?x ?j] => rewrite (K x j eq_refl) end. ring.
Qed.
Print Assumptions C71_bwb_takeoff_increment.
