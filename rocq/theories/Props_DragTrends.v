(** C73: how the zero-lift drag estimate responds to the flight condition, the configuration
    and the options. *)
From Coq Require Import Reals List Bool String Lra Lia.
From Coquelicot Require Import Coquelicot.
From Verif Require Import RSum Base Model_Aero Model_Thermal Model_Algebra Model_Net Model_Systems Model_Ducts Model_HeatPipe Model_Drag.
From Verif Require Import Proofs_Deriv Proofs_Net Proofs_Cs Proofs_Systems Spec_Drag Proofs_Drag Proofs_Friction Props_Drag Props_Friction.
Import ListNotations.
Open Scope R_scope.
Open Scope string_scope.

(** The friction coefficient depends on the flow only through the Reynolds number. *)
Theorem C73_reynolds_similarity lam E E' i i' : 0 < E "fltcond|T" i -> E "fltcond|rho" i <> 0 -> 0 < E' "fltcond|T" i' -> E' "fltcond|rho" i' <> 0 ->
  component_Re E i = component_Re E' i' ->
  vcompute (SkinFrictionCoefficient_JetTransport lam) E "Cf" i = vcompute (SkinFrictionCoefficient_JetTransport lam) E' "Cf" i'.
Proof.
  intros T1 R1 T2 R2 H.
  rewrite <- (Re_at_node E i T1 R1), <- (Re_at_node E' i' T2 R2) in H.
  assert (K : forall E i, vcompute (SkinFrictionCoefficient_JetTransport lam) E "Cf" i = friction lam (Re_at (node Re_comp E i))) by (intros; rewrite <- Cf_eq; reflexivity).
  rewrite !K, H. reflexivity.
Qed.
Print Assumptions C73_reynolds_similarity.

Lemma in_range_logs lam Re : in_range lam Re -> 0 < Re /\ 0 < ln (6/100 * Re) /\ (0 < lam -> lam <= 1 /\ 3 <= ln (6/100 * (lam * Re))).
Proof.
  intros [H K]. split; [lra|]. split; [rewrite <- ln_1; apply ln_increasing; lra|]. intro P. destruct (K P) as [K1 K2]. split; [assumption|]. apply ln_ge_1; [|assumption]. pose proof (exp_pos 3). lra.
Qed.
Lemma range_pos lam Re : in_range lam Re -> 0 < friction lam Re.
Proof. intro H. apply in_range_logs in H. destruct H as (H1 & H2 & H3). apply friction_pos; [assumption|lra|]. intro P. destruct (H3 P). split; lra. Qed.
Lemma range_decr lam a b : in_range lam a -> a < b -> friction lam b < friction lam a.
Proof. intros H L. apply in_range_logs in H. destruct H as (H1 & H2 & H3). apply friction_decr; auto. Qed.

(** The drag areas as a sum over the boundary layers, with the areas they wet. *)
Definition wetted (o : drag_options) (V : env) : list R :=
  let s x := V x 0%nat in
  ([s "ac|geom|fuselage|S_wet" * (do_Q_fuselage o * form_body (s "ac|geom|fuselage|length") (s "ac|geom|fuselage|height"));
   s "ac|propulsion|num_engines" * s "ac|geom|nacelle|S_wet" * do_FF_nacelle o;
   2 * s "ac|geom|hstab|S_ref" * (do_Q_tail o * form_wing (s "ac|geom|hstab|toverc"));
   2 * s "ac|geom|vstab|S_ref" * (do_Q_tail o * form_wing (s "ac|geom|vstab|toverc"))]
  ++ if do_wing o then [2 * s "ac|geom|wing|S_ref" * (do_Q_wing o * form_wing (s "ac|geom|wing|toverc"))] else [])%list.
Fixpoint weighted (ws fs : list R) : R := match ws, fs with w :: ws, f :: fs => w * f + weighted ws fs | _, _ => 0 end.
Lemma jet_layered o V i : jet_drag o V i = do_fudge o *
  (weighted (wetted o V) (map (fun ll => friction (fst ll) (Re_of V i (snd ll))) (jet_layers o V)) / V "ac|geom|wing|S_ref" 0%nat
   + (if do_takeoff o then takeoff_drag V (2/100) (do_flap_chord o) (do_Q_flap o) (do_flapped o) else 0)).
Proof.
  unfold jet_drag, wetted, jet_layers, fuselage_area, nacelle_area, hstab_area, vstab_area, wing_area, lifting_area, s_. destruct (do_wing o); cbn [app map weighted fst snd]; f_equal; f_equal; f_equal; ring.
Qed.
Lemma form_body_pos L D : 0 < L -> 0 < D -> 0 < form_body L D.
Proof. intros HL HD. unfold form_body. assert (0 < D / L) by (now apply Rdiv_lt_0_compat). assert (0 < (D / L) ^ 3) by (now apply pow_lt). lra. Qed.
Lemma form_wing_pos t : 0 < t -> 0 < form_wing t.
Proof. intros H. unfold form_wing. assert (0 < t ^ 4) by (now apply pow_lt). lra. Qed.
Lemma wetted_pos o V i : jet_factors o -> flying V i (jet_scalars (do_wing o)) -> List.Forall (fun w => 0 < w) (wetted o V).
Proof.
  intros (F1 & F2 & F3 & F4 & F5) [_ P].
  assert (Q : forall x, mem x (jet_scalars (do_wing o)) = true -> 0 < V x 0%nat) by (intros x M; apply P, mem_In, M).
  assert (mul3 : forall a b c, 0 < a -> 0 < b -> 0 < c -> 0 < a * (b * c)) by (intros a b c A1 A2 A3; apply Rmult_lt_0_compat; [assumption|now apply Rmult_lt_0_compat]).
  unfold wetted. destruct (do_wing o); cbn [app]; repeat (apply List.Forall_cons); try apply List.Forall_nil.
  all: try (apply mul3; [first [apply Q; reflexivity|apply Rmult_lt_0_compat; [lra|apply Q; reflexivity]]|assumption|first [apply form_body_pos|apply form_wing_pos]; apply Q; reflexivity]).
  all: apply Rmult_lt_0_compat; [apply Rmult_lt_0_compat; apply Q; reflexivity|assumption].
Qed.
Lemma weighted_pos ws fs : List.Forall (fun w => 0 < w) ws -> List.Forall (fun f => 0 < f) fs -> ws <> [] -> fs <> [] -> 0 < weighted ws fs.
Proof.
  intros W F N M. assert (G : forall ws fs, List.Forall (fun w => 0 < w) ws -> List.Forall (fun f => 0 < f) fs -> 0 <= weighted ws fs).
  { clear. induction ws as [|w ws IH]; intros [|f fs] W F; cbn; try lra. inversion_clear W; inversion_clear F. pose proof (IH fs ltac:(assumption) ltac:(assumption)). pose proof (Rmult_lt_0_compat w f ltac:(assumption) ltac:(assumption)). lra. }
  destruct ws as [|w ws]; [congruence|]. destruct fs as [|f fs]; [congruence|]. inversion_clear W; inversion_clear F. cbn. pose proof (G ws fs ltac:(assumption) ltac:(assumption)). pose proof (Rmult_lt_0_compat w f ltac:(assumption) ltac:(assumption)). lra.
Qed.
Lemma weighted_lt ws (ls : list (R * R)) f g : List.Forall (fun w => 0 < w) ws -> ws <> [] -> ls <> [] -> (forall l, In l ls -> f l < g l) ->
  weighted ws (map f ls) < weighted ws (map g ls).
Proof.
  intros W N M H. assert (G : forall ws ls, List.Forall (fun w => 0 < w) ws -> (forall l, In l ls -> f l < g l) -> weighted ws (map f ls) <= weighted ws (map g ls)).
  { clear. induction ws as [|w ws IH]; intros [|l ls] W H; cbn; try lra. inversion_clear W as [|? ? W1 W2]. pose proof (IH ls W2 ltac:(intros; apply H; now right)).
    pose proof (Rmult_lt_compat_l w _ _ W1 (H l (or_introl eq_refl))). lra. }
  destruct ws as [|w ws]; [congruence|]. destruct ls as [|l ls]; [congruence|]. inversion_clear W as [|? ? W1 W2]. cbn. pose proof (G ws ls W2 ltac:(intros; apply H; now right)).
  pose proof (Rmult_lt_compat_l w _ _ W1 (H l (or_introl eq_refl))). lra.
Qed.
Lemma weighted_le ws (ls ls' : list (R * R)) f : List.Forall (fun w => 0 < w) ws -> List.Forall2 (fun l l' => f l <= f l') ls ls' ->
  weighted ws (map f ls) <= weighted ws (map f ls').
Proof.
  intros W H. revert ws W. induction H as [|l l' ls ls' H1 H2 IH]; intros [|w ws] W; cbn; try lra. inversion_clear W as [|? ? W1 W2]. specialize (IH ws W2).
  pose proof (Rmult_le_compat_l w _ _ (Rlt_le _ _ W1) H1). lra.
Qed.
Lemma layers_ne o V : jet_layers o V <> [] /\ wetted o V <> [].
Proof. split; discriminate. Qed.

(** The clean aircraft has drag. *)
Theorem C73_clean_positive o nn V i : solution (ParasiteDragCoefficient_JetTransport o nn) V -> (i < nn)%nat -> flying V i (jet_scalars (do_wing o)) -> jet_factors o ->
  do_takeoff o = false -> (forall lam L, In (lam, L) (jet_layers o V) -> in_range lam (Re_of V i L)) -> 0 < V "CD0" i.
Proof.
  intros S Hi F K C Rg. rewrite (C71_jet _ _ _ _ S Hi F), jet_layered, C, Rplus_0_r. pose proof (wetted_pos _ _ _ K F) as W. destruct (layers_ne o V) as [N1 N2].
  apply Rmult_lt_0_compat; [apply K|]. apply Rdiv_lt_0_compat; [|apply F, mem_In; destruct (do_wing o); reflexivity]. apply weighted_pos; [assumption| |assumption|discriminate].
  apply List.Forall_forall. intros f Hf. apply in_map_iff in Hf. destruct Hf as [[lam L] [<- Hl]]. apply range_pos. now apply Rg.
Qed.
Print Assumptions C73_clean_positive.

Lemma Re_faster V V' i i' L : V' "fltcond|rho" i' = V "fltcond|rho" i -> V' "fltcond|T" i' = V "fltcond|T" i -> 0 < V "fltcond|rho" i -> 0 < V "fltcond|T" i -> 0 < L ->
  V "fltcond|Utrue" i < V' "fltcond|Utrue" i' -> Re_of V i L < Re_of V' i' L.
Proof.
  intros E1 E2 P1 P2 PL H. unfold Re_of, reynolds. rewrite E1, E2. pose proof (sutherland_pos _ P2). unfold Rdiv. apply Rmult_lt_compat_r; [now apply Rinv_0_lt_compat|].
  apply Rmult_lt_compat_r; [assumption|]. now apply Rmult_lt_compat_l.
Qed.
Lemma mean_chord_pos S AR t : 0 < S -> 0 < AR -> 0 < t -> 0 < mean_chord S AR t.
Proof.
  intros H1 H2 H3. unfold mean_chord. assert (0 < sqrt (S / AR)) by (apply sqrt_lt_R0; now apply Rdiv_lt_0_compat). assert (0 < t ^ 2) by (now apply pow_lt).
  assert (0 < 2 * sqrt (S / AR) / (1 + t)) by (apply Rdiv_lt_0_compat; lra).
  apply Rdiv_lt_0_compat; [|lra]. apply Rmult_lt_0_compat; [apply Rmult_lt_0_compat; lra|lra].
Qed.
Lemma layer_lengths o V i lam L : flying V i (jet_scalars (do_wing o)) -> In (lam, L) (jet_layers o V) -> 0 < L.
Proof.
  intros [_ P] H. assert (Q : forall x, mem x (jet_scalars (do_wing o)) = true -> 0 < V x 0%nat) by (intros x M; apply P, mem_In, M).
  unfold jet_layers in H. destruct (do_wing o); cbn [app In] in H;
  repeat (destruct H as [E|H]; [injection E as <- <-; first [apply Q; reflexivity|apply mean_chord_pos; apply Q; reflexivity]|]); contradiction.
Qed.

(** Faster flight in the same air: a smaller zero-lift drag coefficient.  The two flight
    conditions may be nodes of one analysis or of two. *)
Theorem C73_faster_smaller_coefficient o nn nn' V V' i i' : solution (ParasiteDragCoefficient_JetTransport o nn) V -> (i < nn)%nat ->
  solution (ParasiteDragCoefficient_JetTransport o nn') V' -> (i' < nn')%nat -> flying V i (jet_scalars (do_wing o)) -> jet_factors o ->
  (forall x, In x (jet_scalars (do_wing o) ++ takeoff_inputs (do_takeoff o)) -> V' x 0%nat = V x 0%nat) ->
  V' "fltcond|rho" i' = V "fltcond|rho" i -> V' "fltcond|T" i' = V "fltcond|T" i -> V "fltcond|Utrue" i < V' "fltcond|Utrue" i' ->
  (forall lam L, In (lam, L) (jet_layers o V) -> in_range lam (Re_of V i L)) -> V' "CD0" i' < V "CD0" i.
Proof.
  intros S Hi S' Hi' F K E E1 E2 H Rg. assert (F0 := F). destruct F0 as [Fl Fs].
  assert (F' : flying V' i' (jet_scalars (do_wing o))).
  { split.
    - intros x Hx. pose proof (Fl x Hx). cbn in Hx. destruct Hx as [<-|[<-|[<-|[]]]]; lra.
    - intros x Hx. rewrite E by (apply in_or_app; now left). now apply Fs. }
  rewrite (C71_jet _ _ _ _ S Hi F), (C71_jet _ _ _ _ S' Hi' F'), !jet_layered.
  assert (Q : forall x, mem x (jet_scalars (do_wing o) ++ takeoff_inputs (do_takeoff o)) = true -> V' x 0%nat = V x 0%nat) by (intros x M; apply E, mem_In, M).
  assert (W : wetted o V' = wetted o V).
  { clear - Q. unfold wetted. destruct (do_wing o), (do_takeoff o); repeat match goal with |- context [V' ?x ?j] => rewrite (Q x eq_refl) end; reflexivity. }
  assert (Ly : jet_layers o V' = jet_layers o V).
  { clear - Q. unfold jet_layers. destruct (do_wing o), (do_takeoff o); repeat match goal with |- context [V' ?x ?j] => rewrite (Q x eq_refl) end; reflexivity. }
  assert (Tk : (if do_takeoff o then takeoff_drag V' (2/100) (do_flap_chord o) (do_Q_flap o) (do_flapped o) else 0) = if do_takeoff o then takeoff_drag V (2/100) (do_flap_chord o) (do_Q_flap o) (do_flapped o) else 0).
  { clear - Q. unfold takeoff_drag, s_. destruct (do_wing o), (do_takeoff o); try reflexivity; repeat match goal with |- context [V' ?x ?j] => rewrite (Q x eq_refl) end; reflexivity. }
  assert (Sr : V' "ac|geom|wing|S_ref" 0%nat = V "ac|geom|wing|S_ref" 0%nat) by (apply Q; destruct (do_wing o), (do_takeoff o); reflexivity).
  rewrite W, Ly, Tk, Sr. destruct (layers_ne o V) as [N1 N2].
  assert (M : weighted (wetted o V) (map (fun ll => friction (fst ll) (Re_of V' i' (snd ll))) (jet_layers o V)) < weighted (wetted o V) (map (fun ll => friction (fst ll) (Re_of V i (snd ll))) (jet_layers o V))).
  { apply (weighted_lt _ _ (fun ll => friction (fst ll) (Re_of V' i' (snd ll))) (fun ll => friction (fst ll) (Re_of V i (snd ll)))); [now apply (wetted_pos o V i)|assumption|assumption|].
    intros [lam L] Hl. cbn [fst snd]. apply range_decr; [now apply Rg|]. apply Re_faster; auto; try (apply Fl; cbn; auto; fail). now apply (layer_lengths o V i lam). }
  assert (PS : 0 < V "ac|geom|wing|S_ref" 0%nat) by (apply Fs, mem_In; destruct (do_wing o); reflexivity).
  apply Rmult_lt_compat_l; [apply K|]. apply Rplus_lt_compat_r. unfold Rdiv. apply Rmult_lt_compat_r; [now apply Rinv_0_lt_compat|exact M].
Qed.
Print Assumptions C73_faster_smaller_coefficient.

Lemma flap_quadratic_pos cf : 0 < 575 / 10 ^ 6 * cf ^ 2 - 745 / 10 ^ 7 * cf + 123 / 10 ^ 7.
Proof. pose proof (pow2_ge_0 (cf - 745 / 11500)). nra. Qed.
Lemma flap_drag_nonneg cf Q frac d sw : 0 <= Q -> 0 <= frac -> - (PI / 2) <= sw <= PI / 2 -> 0 <= flap_drag cf Q frac d sw.
Proof.
  intros H1 H2 H3. unfold flap_drag. pose proof (cos_ge_0 sw (proj1 H3) (proj2 H3)). pose proof (flap_quadratic_pos cf). pose proof (pow2_ge_0 d).
  apply Rmult_le_pos; [|assumption]. apply Rmult_le_pos; [|lra]. apply Rmult_le_pos; [|assumption]. now apply Rmult_le_pos.
Qed.
Lemma flap_drag_incr cf Q frac d d' sw : 0 < Q -> 0 < frac -> - (PI / 2) < sw < PI / 2 -> 0 <= d < d' -> flap_drag cf Q frac d sw < flap_drag cf Q frac d' sw.
Proof.
  intros H1 H2 H3 H4. unfold flap_drag. pose proof (cos_gt_0 sw (proj1 H3) (proj2 H3)). pose proof (flap_quadratic_pos cf).
  apply Rmult_lt_compat_l; [|nra]. apply Rmult_lt_0_compat; [|assumption]. apply Rmult_lt_0_compat; [|assumption]. now apply Rmult_lt_0_compat.
Qed.

(** Gear and flaps add drag, and more flap adds more. *)
Theorem C73_takeoff_configuration_adds o nn V V' i : solution (ParasiteDragCoefficient_JetTransport (with_config o false) nn) V ->
  solution (ParasiteDragCoefficient_JetTransport (with_config o true) nn) V' -> (i < nn)%nat ->
  flying V i (jet_scalars (do_wing o)) -> same_inputs V V' (flight_inputs ++ jet_scalars (do_wing o)) ->
  0 < do_fudge o -> 0 <= do_Q_flap o -> 0 <= do_flapped o -> - (PI / 2) <= V' "ac|geom|wing|c4sweep" 0%nat <= PI / 2 ->
  V "CD0" i + do_fudge o * (2/100) <= V' "CD0" i.
Proof.
  intros S S' Hi F E P1 P2 P3 P4. rewrite (C71_takeoff_increment _ _ _ _ _ S S' Hi F E). pose proof (flap_drag_nonneg (do_flap_chord o) _ _ (V' "ac|aero|takeoff_flap_deg" 0%nat) _ P2 P3 P4) as G.
  pose proof (Rmult_le_pos _ _ (Rlt_le _ _ P1) G). lra.
Qed.
Print Assumptions C73_takeoff_configuration_adds.
Theorem C73_more_flap_more_drag o nn V V' i : solution (ParasiteDragCoefficient_JetTransport o nn) V -> solution (ParasiteDragCoefficient_JetTransport o nn) V' -> (i < nn)%nat ->
  do_takeoff o = true -> flying V i (jet_scalars (do_wing o)) -> same_inputs V V' (flight_inputs ++ jet_scalars (do_wing o) ++ ["ac|geom|wing|c4sweep"]) ->
  0 < do_fudge o -> 0 < do_Q_flap o -> 0 < do_flapped o -> - (PI / 2) < V "ac|geom|wing|c4sweep" 0%nat < PI / 2 ->
  0 <= V "ac|aero|takeoff_flap_deg" 0%nat < V' "ac|aero|takeoff_flap_deg" 0%nat -> V "CD0" i < V' "CD0" i.
Proof.
  intros S S' Hi C F E P1 P2 P3 P4 D.
  assert (E' : same_inputs V V' (flight_inputs ++ jet_scalars (do_wing o))) by (intros x j Hx; apply E; rewrite app_assoc; apply in_or_app; now left).
  rewrite (C71_jet _ _ _ _ S Hi F), (C71_jet _ _ _ _ S' Hi (flying_same _ _ _ _ F E')).
  rewrite !jet_layered, C.
  assert (Q : forall x j, mem x (flight_inputs ++ jet_scalars (do_wing o)) = true -> V' x j = V x j) by (intros x j M; symmetry; apply E', mem_In, M).
  assert (W : wetted o V' = wetted o V).
  { clear - Q. unfold wetted. destruct (do_wing o); repeat match goal with |- context [V' ?x ?j] => rewrite (Q x j eq_refl) end; reflexivity. }
  assert (Ly : jet_layers o V' = jet_layers o V).
  { clear - Q. unfold jet_layers. destruct (do_wing o); repeat match goal with |- context [V' ?x ?j] => rewrite (Q x j eq_refl) end; reflexivity. }
  assert (Rr : forall L, Re_of V' i L = Re_of V i L).
  { intro L. clear - Q. unfold Re_of. destruct (do_wing o); repeat match goal with |- context [V' ?x ?j] => rewrite (Q x j eq_refl) end; reflexivity. }
  assert (Sr : V' "ac|geom|wing|S_ref" 0%nat = V "ac|geom|wing|S_ref" 0%nat) by (apply Q; destruct (do_wing o); reflexivity).
  assert (Sw : V' "ac|geom|wing|c4sweep" 0%nat = V "ac|geom|wing|c4sweep" 0%nat) by (symmetry; apply E; rewrite app_assoc; apply in_or_app; right; cbn; auto).
  rewrite W, Ly, Sr. rewrite (map_ext (fun ll => friction (fst ll) (Re_of V' i (snd ll))) (fun ll => friction (fst ll) (Re_of V i (snd ll)))) by (intros; now rewrite Rr).
  apply Rmult_lt_compat_l; [assumption|]. apply Rplus_lt_compat_l. unfold takeoff_drag, s_. rewrite Sw. apply Rplus_lt_compat_l. now apply flap_drag_incr.
Qed.
Print Assumptions C73_more_flap_more_drag.

(** Each additional engine adds the drag of its nacelle. *)
Theorem C73_engine_count o nn V V' i : solution (ParasiteDragCoefficient_JetTransport o nn) V -> solution (ParasiteDragCoefficient_JetTransport o nn) V' -> (i < nn)%nat ->
  flying V i (jet_scalars (do_wing o)) -> 0 < V' "ac|propulsion|num_engines" 0%nat ->
  (forall x j, In x (flight_inputs ++ jet_scalars (do_wing o) ++ takeoff_inputs (do_takeoff o)) -> x <> "ac|propulsion|num_engines" -> V x j = V' x j) ->
  V' "CD0" i - V "CD0" i = (V' "ac|propulsion|num_engines" 0%nat - V "ac|propulsion|num_engines" 0%nat) *
    (do_fudge o * (V "ac|geom|nacelle|S_wet" 0%nat * do_FF_nacelle o * friction (do_lam_nacelle o) (Re_of V i (V "ac|geom|nacelle|length" 0%nat))) / V "ac|geom|wing|S_ref" 0%nat).
Proof.
  intros S S' Hi F P E.
  assert (F' : flying V' i (jet_scalars (do_wing o))).
  { destruct F as [F1 F2]. split.
    - intros x Hx. rewrite <- (E x i); [now apply F1|apply in_or_app; now left|]. cbn in Hx. destruct Hx as [<-|[<-|[<-|[]]]]; discriminate.
    - intros x Hx. destruct (String.eqb_spec x "ac|propulsion|num_engines") as [->|N]; [assumption|]. rewrite <- (E x 0%nat); [now apply F2| |assumption]. apply in_or_app; right; apply in_or_app; now left. }
  rewrite (C71_jet _ _ _ _ S Hi F), (C71_jet _ _ _ _ S' Hi F').
  assert (Q : forall x j, mem x (flight_inputs ++ jet_scalars (do_wing o) ++ takeoff_inputs (do_takeoff o)) = true -> String.eqb x "ac|propulsion|num_engines" = false -> V' x j = V x j).
  { intros x j M N. symmetry. apply E; [now apply mem_In|now apply String.eqb_neq]. }
  unfold jet_drag, fuselage_area, hstab_area, vstab_area, wing_area, nacelle_area, lifting_area, takeoff_drag, Re_of, s_.
  clear - Q. destruct (do_wing o), (do_takeoff o); repeat match goal with |- context [V' ?x ?j] => rewrite (Q x j eq_refl eq_refl) end; unfold Rdiv; ring.
Qed.
Print Assumptions C73_engine_count.

(** Laminar flow over the front of the parts: less drag than fully turbulent flow, provided
    the Reynolds number of each laminar run is at least 20000. *)
Definition all_turbulent (o : drag_options) : drag_options := {|
  do_wing := do_wing o; do_takeoff := do_takeoff o; do_fudge := do_fudge o; do_FF_nacelle := do_FF_nacelle o; do_Q_fuselage := do_Q_fuselage o; do_Q_tail := do_Q_tail o; do_Q_wing := do_Q_wing o;
  do_flap_chord := do_flap_chord o; do_Q_flap := do_Q_flap o; do_flapped := do_flapped o;
  do_lam_fuselage := 0; do_lam_hstab := 0; do_lam_vstab := 0; do_lam_wing := 0; do_lam_nacelle := 0 |}.
Lemma friction_laminar lam Re : (0 < lam -> 20000 <= lam * Re) -> friction lam Re <= friction 0 Re.
Proof.
  intro H. unfold friction. destruct (Rlt_dec 0 0); [lra|]. destruct (Rlt_dec 0 lam) as [P|P]; [|lra].
  pose proof (laminar_le _ (H P)) as L. pose proof (Rmult_le_compat_l lam _ _ (Rlt_le _ _ P) L). lra.
Qed.
Theorem C73_laminar_flow_helps o nn V V' i : solution (ParasiteDragCoefficient_JetTransport o nn) V -> solution (ParasiteDragCoefficient_JetTransport (all_turbulent o) nn) V' -> (i < nn)%nat ->
  flying V i (jet_scalars (do_wing o)) -> jet_factors o -> same_inputs V V' (flight_inputs ++ jet_scalars (do_wing o) ++ takeoff_inputs (do_takeoff o)) ->
  (forall lam L, In (lam, L) (jet_layers o V) -> 0 < lam -> 20000 <= lam * Re_of V i L) -> V "CD0" i <= V' "CD0" i.
Proof.
  intros S S' Hi F K E Rg.
  assert (E' : same_inputs V V' (flight_inputs ++ jet_scalars (do_wing o))) by (intros x j Hx; apply E; rewrite app_assoc; apply in_or_app; now left).
  rewrite (C71_jet _ _ _ _ S Hi F), (C71_jet _ _ _ _ S' Hi (flying_same _ _ _ _ F E')). rewrite <- (jet_drag_same (all_turbulent o) V V' i E). rewrite !jet_layered.
  cbn [all_turbulent do_fudge do_takeoff do_flap_chord do_Q_flap do_flapped]. change (wetted (all_turbulent o) V) with (wetted o V).
  apply Rmult_le_compat_l; [apply Rlt_le, K|]. apply Rplus_le_compat_r.
  assert (PS : 0 < V "ac|geom|wing|S_ref" 0%nat) by (apply F, mem_In; destruct (do_wing o); reflexivity).
  unfold Rdiv. apply Rmult_le_compat_r; [now apply Rlt_le, Rinv_0_lt_compat|]. apply (weighted_le _ _ _ (fun ll => friction (fst ll) (Re_of V i (snd ll)))); [now apply (wetted_pos o V i)|].
  assert (G : forall lam L, In (lam, L) (jet_layers o V) -> friction lam (Re_of V i L) <= friction 0 (Re_of V i L)) by (intros lam L H; apply friction_laminar; now apply Rg).
  clear - G. unfold jet_layers in *. cbn [all_turbulent do_wing do_lam_fuselage do_lam_hstab do_lam_vstab do_lam_wing do_lam_nacelle].
  destruct (do_wing o); cbn [app In] in G |- *; repeat (apply List.Forall2_cons; [cbn [fst snd]; apply G; tauto|]); apply List.Forall2_nil.
Qed.
Print Assumptions C73_laminar_flow_helps.

(** Without that proviso it is false: a short laminar run is estimated to have more drag
    than turbulent flow (here the front tenth of a plate at a Reynolds number of 10000). *)
Theorem C73_laminar_flow_helps_refuted : exists lam E, 0 < lam <= 1 /\ breathable 1 E /\ component_Re E 0 = 10000 /\
  vcompute (SkinFrictionCoefficient_JetTransport 0) E "Cf" 0 < vcompute (SkinFrictionCoefficient_JetTransport lam) E "Cf" 0.
Proof.
  pose proof (sutherland_pos 225 ltac:(lra)) as P.
  exists (1/10), (fun x _ => if String.eqb x "L" then 10000 * sutherland 225 else if String.eqb x "fltcond|T" then 225 else 1).
  split; [lra|]. split; [intros i _; names; lra|].
  match goal with |- component_Re ?e 0 = _ /\ _ => set (E := e) end.
  assert (H : component_Re E 0 = 10000) by (unfold component_Re, E, reynolds; names; field; lra). split; [exact H|].
  assert (K : forall lam, vcompute (SkinFrictionCoefficient_JetTransport lam) E "Cf" 0 = friction lam (component_Re E 0)).
  { intro lam. rewrite <- (Re_at_node E 0) by (unfold E; names; lra). rewrite <- Cf_eq. reflexivity. }
  rewrite !K, H. unfold friction. destruct (Rlt_dec 0 0); [lra|]. destruct (Rlt_dec 0 (1/10)); [|lra]. replace (1/10 * 10000) with 1000 by field. pose proof laminar_gt. lra.
Qed.
Print Assumptions C73_laminar_flow_helps_refuted.

(** A single-aisle airliner at 100 m/s in air of 225 K and 1 kg/m^3 meets the hypotheses. *)
Definition airliner : env := fun x _ => match assoc x
  [("fltcond|Utrue", 100); ("fltcond|rho", 1); ("fltcond|T", 225);
   ("ac|geom|fuselage|length", 38); ("ac|geom|fuselage|height", 4); ("ac|geom|fuselage|S_wet", 450);
   ("ac|geom|hstab|S_ref", 36); ("ac|geom|hstab|AR", 4); ("ac|geom|hstab|taper", 2/10); ("ac|geom|hstab|toverc", 1/10);
   ("ac|geom|vstab|S_ref", 32); ("ac|geom|vstab|AR", 2); ("ac|geom|vstab|taper", 3/10); ("ac|geom|vstab|toverc", 1/10);
   ("ac|geom|wing|S_ref", 144); ("ac|geom|wing|AR", 9); ("ac|geom|wing|taper", 2/10); ("ac|geom|wing|toverc", 12/100);
   ("ac|geom|nacelle|length", 4); ("ac|geom|nacelle|S_wet", 25); ("ac|propulsion|num_engines", 2);
   ("ac|geom|wing|c4sweep", 4/10); ("ac|aero|takeoff_flap_deg", 15)] with Some v => v | None => 0 end.
Lemma airliner_Re i L : Re_of airliner i L = component_Re plate 0 * L.
Proof. unfold Re_of, component_Re, reynolds, airliner, plate. names. field. apply Rgt_not_eq, sutherland_pos. lra. Qed.
Lemma airliner_flying i wing : flying airliner i (jet_scalars wing).
Proof.
  split.
  - intros x Hx. cbn in Hx. repeat destruct Hx as [<-|Hx]; try contradiction; unfold airliner; names; lra.
  - intros x Hx. destruct wing; cbn [jet_scalars app In] in Hx; repeat destruct Hx as [<-|Hx]; try contradiction; unfold airliner; names; lra.
Qed.
Lemma airliner_layers takeoff lam L : In (lam, L) (jet_layers (with_config drag_defaults takeoff) airliner) -> 1 <= L /\ (lam = 0 \/ lam = 15/100).
Proof.
  assert (S1 : sqrt (36/4) = 3) by (replace (36/4) with (3 ^ 2) by field; apply sqrt_pow2; lra). assert (S2 : sqrt (32/2) = 4) by (replace (32/2) with (4 ^ 2) by field; apply sqrt_pow2; lra).
  assert (S3 : sqrt (144/9) = 4) by (replace (144/9) with (4 ^ 2) by field; apply sqrt_pow2; lra).
  intro H. unfold jet_layers, drag_defaults in H. cbn [with_config do_wing do_lam_fuselage do_lam_hstab do_lam_vstab do_lam_wing do_lam_nacelle] in H.
  cbn [app In] in H; repeat (destruct H as [H|H]; [injection H as <- <-; unfold mean_chord, airliner; names; rewrite ?S1, ?S2, ?S3; lra|]); contradiction.
Qed.
Example airliner_ok takeoff i : flying airliner i (jet_scalars true) /\ jet_factors (with_config drag_defaults takeoff) /\
  (forall lam L, In (lam, L) (jet_layers (with_config drag_defaults takeoff) airliner) -> in_range lam (Re_of airliner i L) /\ (0 < lam -> 20000 <= lam * Re_of airliner i L)) /\
  - (PI / 2) < airliner "ac|geom|wing|c4sweep" 0%nat < PI / 2 /\
  exists V, solution (ParasiteDragCoefficient_JetTransport (with_config drag_defaults takeoff) 3) V /\ same_inputs V airliner (flight_inputs ++ jet_scalars true ++ takeoff_inputs takeoff).
Proof.
  split; [apply airliner_flying|]. split; [unfold jet_factors, drag_defaults; cbn; lra|]. split; [|split].
  - intros lam L H. pose proof (airliner_layers _ _ _ H) as [HL Hlam]. rewrite airliner_Re. pose proof (plate_Re 0) as [P1 P2]. set (r := component_Re plate 0) in *. clearbody r.
    assert (6000000 <= r * L) by nra. set (q := r * L) in *. clearbody q. clear r P1 P2.
    split; [|intro P; destruct Hlam as [->| ->]; lra]. split; [lra|]. intro P. split; [destruct Hlam as [->| ->]; lra|].
    replace 3 with (1 + (1 + 1)) by ring. rewrite !exp_plus. pose proof exp_le_3 as X. pose proof (exp_pos 1) as Y. set (e := exp 1) in *. clearbody e.
    assert (e * (e * e) <= 27) by nra. destruct Hlam as [->| ->]; lra.
  - change (airliner "ac|geom|wing|c4sweep" 0%nat) with (4/10). pose proof PI2_1. lra.
  - destruct (C71_jet_runs (with_config drag_defaults takeoff) 3 airliner ltac:(lia)) as [_ [V [S E]]]. exists V. split; [exact S|]. intros x j Hx. apply E.
    apply C71_jet_documented_inputs. exact Hx.
Qed.
Example bwb_ok takeoff i : flying airliner i bwb_scalars /\
  exists V, solution (ParasiteDragCoefficient_BWB (bwb_config bwb_drag_defaults takeoff) 3) V /\ same_inputs V airliner (flight_inputs ++ bwb_scalars ++ takeoff_inputs takeoff).
Proof.
  destruct (airliner_flying i true) as [F1 F2]. split; [split; [exact F1|intros x Hx; apply F2; cbn in Hx |- *; tauto]|].
  destruct (C71_bwb_runs (bwb_config bwb_drag_defaults takeoff) 3 airliner ltac:(lia)) as [_ [V [S E]]]. exists V. split; [exact S|]. intros x j Hx. apply E.
  apply C71_bwb_documented_inputs. exact Hx.
Qed.
