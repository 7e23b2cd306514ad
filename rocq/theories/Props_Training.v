(** C79, C80: the tables of OpenAeroStruct analyses (VLMDataGen, OASDataGen), for every
    history of calls made to the instances of a process. *)
From Coq Require Import Reals List Bool PeanoNat String Lia Lra.
From Verif Require Import Base Py Model_Training Spec_Training Proofs_Training.
Import ListNotations.
Open Scope string_scope.
Open Scope list_scope.
Open Scope R_scope.

Definition positive_tol (g : gen) (o : options) : Prop := g = OASData -> 0 < o_tol o.
Lemma tol_pos : forall g o, positive_tol g o -> 0 < tolerance g o.
Proof. intros [] o H; unfold tolerance; [apply Rinv_0_lt_compat, pow_lt; lra | apply H; reflexivity]. Qed.

(** ** C79 *)

(** Whatever calls came before - set-ups, evaluations, linearizations, calls that raised -
    a table delivered for [x] is the table of analyses at inputs within the tolerance of [x],
    entry (i, j, k) being the analysis at (Mach_i, alpha_j, alt_k), with the CD_nonwing of
    this call.  Excluded: inputs within the tolerance of the placeholders, or of the inputs of
    a call that raised. *)
Theorem C79_history_partial : forall g sv o es x fine D,
  positive_tol g o ->
  (forall e, In e es -> options_of e = o) ->
  ~ close g o x placeholder ->
  (forall y, In y (failed_inputs g sv es fresh) -> ~ close g o x y) ->
  computed g sv es o x fine = Ok D ->
  exists x0, (x0 = x \/ In x0 (flat_map inputs_of es)) /\ close g o x x0 /\
    table_of g sv o x0 (x "ac|aero|CD_nonwing" 0%nat) D.
Proof.
  intros g sv o es x fine D TP Same NP NF H.
  pose proof (history_good g sv o es [] [] fresh Same I) as G. rewrite !app_nil_r in G.
  unfold computed, compute, state in H. unfold good_cls in G.
  destruct (c_cache (after g sv es fresh)) as [c|]; [|discriminate].
  destruct (refresh g sv o x fine c) as [c' [[]|e]] eqn:R; [|discriminate]. cbn [snd] in H.
  destruct (refresh_data g sv o _ _ x fine c c' G R NP NF (tol_pos g o TP)) as [x0 [I0 [C0 [[out [d [A [T [O _]]]]] Sh]]]].
  exists x0. split; [exact I0|]. split; [exact C0|].
  pose proof (answers_table g sv o x0 out d (x "ac|aero|CD_nonwing" 0%nat) A T) as Q.
  unfold deliver in H. destruct (own_shape o) as [s|] eqn:S; [|discriminate].
  destruct (same_shape3 s (c_shape c')); [|discriminate]. injection H; intros H'. rewrite O in H'. rewrite <- H'.
  destruct g; exact Q.
Qed.
Print Assumptions C79_history_partial.

(** Likewise for the partials: the rows are the derivatives of the same analyses. *)
Theorem C79_history_derivatives_partial : forall g sv o es x fine J,
  positive_tol g o ->
  (forall e, In e es -> options_of e = o) ->
  ~ close g o x placeholder ->
  (forall y, In y (failed_inputs g sv es fresh) -> ~ close g o x y) ->
  differentiated g sv es o x fine = Ok J ->
  exists x0, (x0 = x \/ In x0 (flat_map inputs_of es)) /\ close g o x x0 /\ derivatives_of g sv o x0 J.
Proof.
  intros g sv o es x fine J TP Same NP NF H.
  pose proof (history_good g sv o es [] [] fresh Same I) as G. rewrite !app_nil_r in G.
  unfold differentiated, compute_partials, state in H. unfold good_cls in G.
  destruct (c_cache (after g sv es fresh)) as [c|]; [|discriminate].
  destruct (refresh g sv o x fine c) as [c' [[]|e]] eqn:R; [|discriminate]. cbn [snd] in H.
  destruct (refresh_data g sv o _ _ x fine c c' G R NP NF (tol_pos g o TP)) as [x0 [I0 [C0 [[out [d [A [T [_ P]]]]] Sh]]]].
  exists x0. split; [exact I0|]. split; [exact C0|].
  pose proof (answers_derivatives g sv o x0 out d A T) as Q.
  rewrite P in H. destruct (own_shape o) as [s|] eqn:S; [|discriminate].
  destruct (same_shape3 s (c_shape c')); [|discriminate]. injection H; intros H'. rewrite <- H'.
  destruct g; exact Q.
Qed.
Print Assumptions C79_history_derivatives_partial.

(** Inputs that no earlier call was close to are analysed exactly. *)
Theorem C79_new_inputs : forall g sv o es x fine D,
  positive_tol g o ->
  (forall e, In e es -> options_of e = o) ->
  ~ close g o x placeholder ->
  (forall y, In y (flat_map inputs_of es) -> ~ close g o x y) ->
  computed g sv es o x fine = Ok D ->
  table_of g sv o x (x "ac|aero|CD_nonwing" 0%nat) D.
Proof.
  intros g sv o es x fine D TP Same NP NF H.
  assert (FI : forall l st y, In y (failed_inputs g sv l st) -> In y (flat_map inputs_of l)).
  { induction l as [|e l IH]; intros st y Q; [destruct Q|]. cbn in *. apply in_app_or in Q. apply in_or_app.
    destruct Q as [Q|Q]; [left; destruct (raised _); [exact Q | destruct Q] | right; eapply IH; exact Q]. }
  destruct (C79_history_partial g sv o es x fine D TP Same NP (fun y Q => NF y (FI _ _ _ Q)) H) as [x0 [[E|E] [C T]]].
  - subst. exact T.
  - exfalso. exact (NF x0 E C).
Qed.
Print Assumptions C79_new_inputs.

Lemma has_cache : forall g sv o es, arrays o -> (forall e, In e es -> options_of e = o) -> is_dict (o_surf o) -> In (Setup o) es ->
  exists c, c_cache (after g sv es fresh) = Some c.
Proof.
  intros g sv o es [[l1 H1] [[l2 H2] [l3 H3]]] Same D I.
  assert (Keep : forall l st c, c_cache st = Some c -> exists c', c_cache (after g sv l st) = Some c').
  { induction l as [|e l IH]; intros st c E; [exists c; exact E|]. unfold after. cbn [fold_left]. fold (after g sv l (fst (step g sv st e))).
    assert (Q : exists c', c_cache (fst (step g sv st e)) = Some c').
    { destruct e as [o'|o' x f|o' x f]; unfold step.
      - destruct (setup g o' st) as [s r] eqn:S. cbn. unfold setup in S.
        destruct (numpy_values (o_Mach o')); [|injection S; intros; subst; eauto].
        destruct (numpy_values (o_alpha o')); [|injection S; intros; subst; eauto].
        destruct (numpy_values (o_alt o')); [|injection S; intros; subst; eauto].
        destruct (match c_surf st with Some s => surf_differs s (o_surf o') | None => false end); [injection S; intros; subst; eauto|].
        cbn in S. injection S; intros; subst. cbn. eauto.
      - unfold compute. rewrite E. destruct (refresh g sv o' x f c) as [c' [[]|e]]; cbn; eauto.
      - unfold compute_partials. rewrite E. destruct (refresh g sv o' x f c) as [c' [[]|e]]; cbn; eauto. }
    destruct Q as [c' Q]. eapply IH. exact Q. }
  assert (Main : forall l st, In (Setup o) l -> (forall e, In e l -> options_of e = o) ->
     (c_surf st = None \/ c_surf st = Some (o_surf o)) -> exists c, c_cache (after g sv l st) = Some c).
  { induction l as [|e l IH]; intros st Q S P; [destruct Q|]. unfold after. cbn [fold_left]. fold (after g sv l (fst (step g sv st e))).
    destruct Q as [Q|Q].
    - subst e. unfold step, setup. rewrite H1, H2, H3. cbn [numpy_values].
      replace (match c_surf st with Some s => surf_differs s (o_surf o) | None => false end) with false.
      + cbn. eapply Keep. reflexivity.
      + destruct P as [P|P]; rewrite P; [reflexivity|]. symmetry. apply surf_differs_spec; [exact D | exact D | intros k; reflexivity].
    - apply IH; [exact Q | intros e' E'; apply S; right; exact E' |].
      rewrite step_surf. destruct P as [P|P]; rewrite P; [|right; reflexivity].
      specialize (S e (or_introl eq_refl)). destruct e as [o'|o' x f|o' x f]; cbn in S; subst; cbn; rewrite ?H1, ?H2, ?H3; auto. }
  apply Main; [exact I | exact Same | left; reflexivity].
Qed.

(** A call never fails on its own: once an instance is set up, a table is delivered whenever
    the analyses of these inputs succeed. *)
Theorem C79_answers : forall g sv o es x,
  arrays o -> is_dict (o_surf o) -> (forall e, In e es -> options_of e = o) -> In (Setup o) es ->
  (g = OASData -> in_grid o 0 0 0) ->
  (forall i j k, in_grid o i j k -> analysed sv o x i j k <> None) ->
  exists D, computed g sv es o x true = Ok D.
Proof.
  intros g sv o es x Ar Di Same I0 NE Tot.
  destruct (has_cache g sv o es Ar Same Di I0) as [c C].
  pose proof (history_good g sv o es [] [] fresh Same I) as G. unfold good_cls in G. rewrite C in G. destruct G as [K [Gr _]].
  unfold computed, compute, state. rewrite C. unfold refresh.
  destruct (unchanged_spec (tolerance g o) c x (kept g o) (kept g o) K (kept_assoc g o)) as [b [U B]]. rewrite U.
  assert (Dl : forall c', c_shape c' = c_shape c -> exists D, deliver g o x c' = Ok D).
  { intros c' E. unfold deliver. rewrite (arrays_own_shape o Ar), E. destruct Gr as [Sh _]. rewrite Sh.
    replace (same_shape3 _ _) with true by (symmetry; apply same_shape3_spec; reflexivity). eauto. }
  destruct b.
  - cbn [snd]. apply Dl. reflexivity.
  - rewrite K. destruct (copy_in_spec x (kept g o) (kept g o) (c_in c) (kept_assoc g o)) as [y [Cp _]]. rewrite Cp.
    destruct (run_all_total sv o x (with_in c y) Gr Tot) as [out R]. rewrite R.
    assert (T : exists d, training_data g (c_shape (with_in c y)) out = Ok d).
    { destruct g; [cbn; eauto|]. destruct out as [|a0 out]; [|cbn; eauto].
      exfalso. destruct (run_all_answers sv o x _ _ Gr R) as [L _]. destruct (NE eq_refl) as [A1 [A2 A3]].
      cbn in L. destruct (count (o_Mach o)), (count (o_alpha o)), (count (o_alt o)); cbn in L; lia. }
    destruct T as [d T]. rewrite T. cbn [snd]. apply Dl. reflexivity.
Qed.
Print Assumptions C79_answers.

(** The analyses are run again only when the inputs change: after a table was delivered for
    [x], inputs within the tolerance of those it was made for get the same table, even when
    the analyses cannot be run. *)
Theorem C79_unchanged : forall g sv o es x fine D,
  positive_tol g o ->
  (forall e, In e es -> options_of e = o) ->
  computed g sv es o x fine = Ok D ->
  forall fine', exists D', computed g sv (es ++ [Compute o x fine]) o x fine' = Ok D' /\ forall f i j k, D' f i j k = D f i j k.
Proof.
  intros g sv o es x fine D TP Same H fine'.
  pose proof (history_good g sv o es [] [] fresh Same I) as G.
  unfold computed, state in *. unfold after. rewrite fold_left_app. fold (after g sv es fresh). cbn [fold_left].
  unfold step. destruct (compute g sv o x fine (after g sv es fresh)) as [st' r] eqn:C. cbn [fst]. cbn [snd] in H. subst r.
  unfold compute in C. unfold good_cls in G. destruct (c_cache (after g sv es fresh)) as [c|]; [|discriminate].
  destruct G as [K [Gr _]]. pose proof (refresh_spec g sv o x fine c K Gr) as S.
  destruct (refresh g sv o x fine c) as [c' [[]|e]]; [|discriminate]. injection C; intros HD HS. subst st'.
  destruct S as [K' [Gr' S]].
  assert (L : forall k s, In (k, s) (kept g o) -> forall i, (i < prod s)%nat -> Rabs (x k i - c_in c' k i) < tolerance g o).
  { destruct S as [[E [_ L]] | [_ [HI _]]]; [subst; exact L|].
    intros k s I0 i Hi. rewrite (HI k s I0). replace (x k i - x k i) with 0 by ring. rewrite Rabs_R0. apply tol_pos, TP. }
  unfold compute. cbn [c_cache]. unfold refresh.
  destruct (unchanged_spec (tolerance g o) c' x (kept g o) (kept g o) K' (kept_assoc g o)) as [b [U B]]. rewrite U.
  assert (Hb : b = true) by (apply B; exact L). rewrite Hb. cbn [snd]. exists D. split; [exact HD | reflexivity].
Qed.
Print Assumptions C79_unchanged.

(** After an interruption: if the analyses for [x] are interrupted, the next call for the same
    inputs raises nothing and returns whatever the tables held before - the data of other
    inputs (or zeros). *)
Theorem C79_after_interruption : forall g sv o es x c,
  positive_tol g o -> arrays o ->
  (forall e, In e es -> options_of e = o) ->
  c_cache (state g sv es) = Some c ->
  computed g sv es o x false = Err AnalysisError ->
  exists D, computed g sv (es ++ [Compute o x false]) o x true = Ok D /\
    forall f i j k, D f i j k = c_out c f i j k + extra g f (x "ac|aero|CD_nonwing" 0%nat).
Proof.
  intros g sv o es x c TP Ar Same Cc H.
  pose proof (history_good g sv o es [] [] fresh Same I) as G.
  unfold computed, state in *. unfold after. rewrite fold_left_app. fold (after g sv es fresh). cbn [fold_left].
  unfold step. destruct (compute g sv o x false (after g sv es fresh)) as [st' r] eqn:C. cbn [fst]. cbn [snd] in H. subst r.
  unfold compute in C. unfold good_cls in G. rewrite Cc in C, G.
  destruct G as [K [Gr _]]. unfold refresh in C.
  destruct (unchanged_spec (tolerance g o) c x (kept g o) (kept g o) K (kept_assoc g o)) as [b [U B]]. rewrite U in C.
  destruct b.
  - injection C; intros HD HS. unfold deliver in HD. rewrite (arrays_own_shape o Ar) in HD. destruct Gr as [Sh _]. rewrite Sh in HD.
    replace (same_shape3 _ _) with true in HD by (symmetry; apply same_shape3_spec; reflexivity). discriminate.
  - rewrite K in C. destruct (copy_in_spec x (kept g o) (kept g o) (c_in c) (kept_assoc g o)) as [y [Cp [Yk _]]]. rewrite Cp in C.
    injection C; intros HS. subst st'. unfold compute. cbn [c_cache]. unfold refresh.
    destruct (unchanged_spec (tolerance g o) (with_in c y) x (kept g o) (kept g o) K (kept_assoc g o)) as [b' [U' B']].
    assert (Hb : b' = true).
    { apply B'. intros k s I0 i Hi. cbn [c_in with_in]. rewrite (Yk k) by (apply in_map_iff; exists (k, s); split; [reflexivity | exact I0]).
      replace (x k i - x k i) with 0 by ring. rewrite Rabs_R0. apply tol_pos, TP. }
    rewrite U', Hb. cbn [snd]. unfold deliver. rewrite (arrays_own_shape o Ar). cbn [c_shape with_in]. destruct Gr as [Sh _]. rewrite Sh.
    replace (same_shape3 _ _) with true by (symmetry; apply same_shape3_spec; reflexivity).
    eexists. split; [reflexivity|]. intros f i j k. unfold extra. destruct g; cbn [c_out with_in]; [ring|].
    destruct (String.eqb f "CD_train"); ring.
Qed.
Print Assumptions C79_after_interruption.


(** The state after setting up an instance and evaluating it once. *)
Lemma evaluated : forall g sv o x st, arrays o -> positive_tol g o -> is_dict (o_surf o) ->
  (c_surf st = None \/ c_surf st = Some (o_surf o)) -> ~ close g o x placeholder -> (g = OASData -> in_grid o 0 0 0) ->
  (forall i j k, in_grid o i j k -> analysed sv o x i j k <> None) ->
  exists c, c_cache (after g sv [Setup o; Compute o x true] st) = Some c /\ c_kept c = kept g o /\ grid_of o c /\
    holds_in g o c x /\ holds_data g sv o c x /\
    failed_inputs g sv [Setup o; Compute o x true] st = [].
Proof.
  intros g sv o x st Ar TP Di Su NP NE Tot.
  assert (E : exists c, c_cache (fst (step g sv st (Setup o))) = Some c /\ c_kept c = kept g o /\ grid_of o c /\ c_in c = placeholder).
  { destruct Ar as [[l1 H1] [[l2 H2] [l3 H3]]]. unfold step, setup. rewrite H1, H2, H3. cbn [numpy_values].
    replace (match c_surf st with Some s => surf_differs s (o_surf o) | None => false end) with false.
    - cbn. eexists. split; [reflexivity|]. cbn. unfold grid_of, count. rewrite H1, H2, H3. repeat split; reflexivity.
    - destruct Su as [P|P]; rewrite P; [reflexivity|]. symmetry. apply surf_differs_spec; [exact Di | exact Di | intros k; reflexivity]. }
  assert (RS : raised (snd (step g sv st (Setup o))) = false).
  { destruct Ar as [[l1 H1] [[l2 H2] [l3 H3]]]. unfold step, setup. rewrite H1, H2, H3. cbn [numpy_values].
    replace (match c_surf st with Some s => surf_differs s (o_surf o) | None => false end) with false; [reflexivity|].
    destruct Su as [P|P]; rewrite P; [reflexivity|]. symmetry. apply surf_differs_spec; [exact Di | exact Di | intros k; reflexivity]. }
  destruct E as [c0 [C0 [K0 [G0 I0]]]]. unfold after. cbn [fold_left failed_inputs]. rewrite RS. cbn [app].
  set (st1 := fst (step g sv st (Setup o))) in *. unfold step, compute. rewrite C0.
  pose proof (refresh_spec g sv o x true c0 K0 G0) as S.
  assert (Rok : exists c1, refresh g sv o x true c0 = (c1, Ok tt)).
  { unfold refresh. destruct (unchanged_spec (tolerance g o) c0 x (kept g o) (kept g o) K0 (kept_assoc g o)) as [b [U B]]. rewrite U.
    destruct b; [eauto|]. rewrite K0. destruct (copy_in_spec x (kept g o) (kept g o) (c_in c0) (kept_assoc g o)) as [y [Cp _]]. rewrite Cp.
    destruct (run_all_total sv o x (with_in c0 y) G0 Tot) as [out R]. rewrite R.
    assert (T : exists d, training_data g (c_shape (with_in c0 y)) out = Ok d).
    { destruct g; [cbn; eauto|]. destruct out as [|a0 out]; [|cbn; eauto].
      exfalso. destruct (run_all_answers sv o x (with_in c0 y) _ G0 R) as [L _]. destruct (NE eq_refl) as [A1 [A2 A3]].
      cbn in L. destruct (count (o_Mach o)), (count (o_alpha o)), (count (o_alt o)); cbn in L; lia. }
    destruct T as [d T]. rewrite T. eauto. }
  destruct Rok as [c1 R]. rewrite R in *. destruct S as [K1 [G1 S]]. cbn [fst snd c_cache].
  exists c1. split; [reflexivity|]. split; [exact K1|]. split; [exact G1|].
  assert (HH : holds_in g o c1 x /\ holds_data g sv o c1 x).
  { destruct S as [[E [_ L]] | [_ [HI [[_ HD]|[e E]]]]]; [| split; assumption | discriminate].
    exfalso. apply NP. apply (close_in g o c0); [exact L|]. intros k s _. rewrite I0. reflexivity. }
  destruct HH as [HI HD]. split; [exact HI|]. split; [exact HD|].
  unfold deliver. rewrite (arrays_own_shape o Ar). destruct G1 as [Sh _]. rewrite Sh.
  replace (same_shape3 _ _) with true by (symmetry; apply same_shape3_spec; reflexivity). reflexivity.
Qed.
Lemma held_value : forall g sv o c x f a, holds_data g sv o c x -> In f (tabulated g) -> in_grid o 0 0 0 -> analysed sv o x 0 0 0 = Some a ->
  c_out c f 0%nat 0%nat 0%nat = a_out a f.
Proof.
  intros g sv o c x f a [out [d [A [T [O _]]]]] If G An.
  destruct (answers_table g sv o x out d 0 A T) as [Q _].
  destruct (Q f 0%nat 0%nat 0%nat) as [b [Bn E]]; [destruct g; exact If | exact G |].
  rewrite An in Bn. injection Bn; intros; subst b. rewrite O. destruct g; cbn in E.
  - rewrite E. ring.
  - destruct (String.eqb f "CD_train"); [|rewrite E; ring]. lra.
Qed.

(** *** Concrete instances *)
Definition one_point (y : nat) (M : R) : options := {|
  o_x := 1; o_y := y; o_Mach := NdArray [M]; o_alpha := NdArray [2]; o_alt := NdArray [0]; o_surf := [("with_wave", SBool true)];
  o_tol := 1 / 100; o_twist := 1; o_toverc := 1; o_skin := 1; o_spar := 1 |}.
(** An analysis whose answer depends on the temperature, the Mach number and the panels. *)
Definition toy : analysis := fun nx ny s x M a h =>
  Some {| a_out := fun _ => x "fltcond|TempIncrement" 0%nat + 1000 * M + 10000 * INR ny; a_d := fun _ _ _ => 0 |}.
Definition day (t : R) : env := fun k _ => if String.eqb k "fltcond|TempIncrement" then t else 1.

Lemma day_not_placeholder : forall g y M t, 0 <= t -> ~ close g (one_point y M) (day t) placeholder.
Proof.
  intros g y M t Ht C. specialize (C "fltcond|TempIncrement" 1%nat 0%nat).
  assert (Q : Rabs (t + 42) < match g with VLMData => / 10 ^ 13 | OASData => 1 / 100 end).
  { replace (t + 42) with (day t "fltcond|TempIncrement" 0%nat - placeholder "fltcond|TempIncrement" 0%nat) by (cbn; ring).
    apply C; [destruct g; cbn; auto 12 | lia]. }
  rewrite Rabs_right in Q by lra.
  assert (/ 10 ^ 13 < 1) by (rewrite <- Rinv_1; apply Rinv_lt_contravar; lra). destruct g; lra.
Qed.
Lemma days_apart : forall g y M t u, 1 <= Rabs (t - u) -> ~ close g (one_point y M) (day t) (day u).
Proof.
  intros g y M t u H C. specialize (C "fltcond|TempIncrement" 1%nat 0%nat).
  assert (Q : Rabs (t - u) < match g with VLMData => / 10 ^ 13 | OASData => 1 / 100 end).
  { apply C; [destruct g; cbn; auto 12 | lia]. }
  assert (/ 10 ^ 13 < 1) by (rewrite <- Rinv_1; apply Rinv_lt_contravar; lra). destruct g; lra.
Qed.
Lemma one_point_dict : forall y M, is_dict (o_surf (one_point y M)).
Proof. intros. unfold is_dict. cbn. repeat constructor; cbn; tauto. Qed.
Lemma one_point_arrays : forall y M, arrays (one_point y M).
Proof. intros. unfold arrays. cbn. repeat split; eauto. Qed.
Lemma toy_positive : forall g y M, positive_tol g (one_point y M).
Proof. intros g y M _. cbn. lra. Qed.

(** The hypotheses of the theorems are met after a history with an interruption. *)
Example C79_case : forall g, exists D,
  let es := [Setup (one_point 2 (1/2)); Compute (one_point 2 (1/2)) (day 5) true; Compute (one_point 2 (1/2)) (day 7) false;
             Setup (one_point 2 (1/2)); Partials (one_point 2 (1/2)) (day 9) true] in
  computed g toy es (one_point 2 (1/2)) (day 10) true = Ok D /\
  ~ close g (one_point 2 (1/2)) (day 10) placeholder /\
  (forall y, In y (failed_inputs g toy es fresh) -> ~ close g (one_point 2 (1/2)) (day 10) y) /\
  D "CL_train" 0%nat 0%nat 0%nat = 20510.
Proof.
  intros g.
  set (o := one_point 2 (1/2)).
  set (es := [Setup o; Compute o (day 5) true; Compute o (day 7) false; Setup o; Partials o (day 9) true]).
  assert (Same : forall e, In e es -> options_of e = o).
  { intros e Q. cbn in Q. repeat (destruct Q as [Q|Q]; [subst e; reflexivity|]). destruct Q. }
  assert (Sub : forall y, In y (flat_map inputs_of es) -> ~ close g o (day 10) y).
  { intros y Q. cbn in Q. repeat (destruct Q as [Q|Q]; [subst y; apply days_apart; rewrite Rabs_right; lra|]). destruct Q. }
  destruct (C79_answers g toy o es (day 10) (one_point_arrays _ _) (one_point_dict _ _) Same (or_introl eq_refl)) as [D HD].
  - intros _. unfold in_grid. cbn. lia.
  - intros i j k _ Q. discriminate Q.
  - exists D. cbv zeta. split; [exact HD|]. split; [apply day_not_placeholder; lra|]. split.
    + intros y Q. apply Sub. revert Q. generalize fresh. generalize es. induction es0 as [|e l IH]; intros st Q; [destruct Q|].
      cbn in *. apply in_app_or in Q. apply in_or_app. destruct Q as [Q|Q]; [left; destruct (raised _); [exact Q | destruct Q] | right; eapply IH; exact Q].
    + pose proof (C79_new_inputs g toy o es (day 10) true D (toy_positive g 2 (1/2)) Same (day_not_placeholder g 2 (1/2) 10 ltac:(lra)) Sub HD) as [T _].
      destruct (T "CL_train" 0%nat 0%nat 0%nat) as [a [A E]]; [destruct g; cbn; auto | unfold in_grid; cbn; lia |].
      rewrite E. unfold analysed, toy in A. injection A; intros; subst a. cbn. destruct g; cbn; lra.
Qed.

(** The claim without the exclusion of failed calls, as documented ("will only recalculate the
    lift and drag grid when the mesh changes"), is false of the code: the inputs are stored
    before the analyses run. *)
Theorem C79_interrupted_refuted : forall g, ~ (forall sv o es x fine D,
  positive_tol g o ->
  (forall e, In e es -> options_of e = o) ->
  ~ close g o x placeholder ->
  computed g sv es o x fine = Ok D ->
  exists x0, (x0 = x \/ In x0 (flat_map inputs_of es)) /\ close g o x x0 /\
    table_of g sv o x0 (x "ac|aero|CD_nonwing" 0%nat) D).
Proof.
  intros g Claim.
  set (o := one_point 2 (1/2)).
  set (es := [Setup o; Compute o (day 5) true]).
  assert (Same : forall e, In e es -> options_of e = o).
  { intros e Q. cbn in Q. repeat (destruct Q as [Q|Q]; [subst e; reflexivity|]). destruct Q. }
  destruct (evaluated g toy o (day 5) fresh (one_point_arrays _ _) (toy_positive _ _ _) (one_point_dict _ _) (or_introl eq_refl)
              (day_not_placeholder g 2 (1/2) 5 ltac:(lra))) as [c [C [K [Gr [HI5 [HD5 _]]]]]].
  { intros _. unfold in_grid. cbn. lia. }
  { intros i j k _ Q. discriminate Q. }
  assert (V : c_out c "CL_train" 0%nat 0%nat 0%nat = 5 + 1000 * (1/2) + 10000 * INR 2).
  { etransitivity; [eapply (held_value g toy o c (day 5) "CL_train"); [exact HD5 | first [destruct g | idtac]; cbn; auto | unfold in_grid; cbn; lia | reflexivity] | reflexivity]. }
  (* interrupt day 20 *)
  assert (Int : computed g toy es o (day 20) false = Err AnalysisError).
  { unfold computed, state, compute. fold es in C. rewrite C.
    pose proof (refresh_spec g toy o (day 20) false c K Gr) as S. unfold refresh in *.
    destruct (unchanged_spec (tolerance g o) c (day 20) (kept g o) (kept g o) K (kept_assoc g o)) as [b [U B]]. rewrite U in *.
    destruct b.
    - exfalso. assert (L := proj1 B eq_refl).
      apply (days_apart g 2 (1/2) 20 5); [rewrite Rabs_right; lra|]. apply (close_in g o c); assumption.
    - rewrite K. destruct (copy_in_spec (day 20) (kept g o) (kept g o) (c_in c) (kept_assoc g o)) as [y [Cp _]]. rewrite Cp. reflexivity. }
  destruct (C79_after_interruption g toy o es (day 20) c (toy_positive g 2 (1/2)) (one_point_arrays _ _) Same C Int) as [D [HD ED]].
  assert (Same2 : forall e, In e (es ++ [Compute o (day 20) false]) -> options_of e = o).
  { intros e Q. apply in_app_or in Q. destruct Q as [Q|[Q|[]]]; [apply Same; exact Q | subst e; reflexivity]. }
  destruct (Claim toy o _ (day 20) true D (toy_positive g 2 (1/2)) Same2 (day_not_placeholder g 2 (1/2) 20 ltac:(lra)) HD) as [x0 [I0 [Cl [T _]]]].
  assert (X0 : x0 = day 20).
  { destruct I0 as [I0|I0]; [exact I0|]. cbn in I0. destruct I0 as [I0|[I0|[]]]; [|symmetry; exact I0].
    exfalso. subst x0. apply (days_apart g 2 (1/2) 20 5); [rewrite Rabs_right; lra | exact Cl]. }
  subst x0. destruct (T "CL_train" 0%nat 0%nat 0%nat) as [a [An E]]; [destruct g; cbn; auto | unfold in_grid; cbn; lia |].
  unfold analysed, toy in An. injection An; intros; subst a. rewrite ED in E.
  rewrite V in E. cbn in E. destruct g; cbn in E; lra.
Qed.
Print Assumptions C79_interrupted_refuted.

(** Right after [setup], inputs equal to the placeholders get tables of zeros without any
    analysis, and their partials cannot be computed. *)
Theorem C79_placeholder : forall g sv o x fine,
  arrays o -> positive_tol g o -> close g o x placeholder ->
  (exists D, computed g sv [Setup o] o x fine = Ok D /\ forall f i j k, D f i j k = extra g f (x "ac|aero|CD_nonwing" 0%nat)) /\
  differentiated g sv [Setup o] o x fine = Err AttributeError.
Proof.
  intros g sv o x fine Ar TP Cl.
  assert (E : exists c, c_cache (state g sv [Setup o]) = Some c /\ c_kept c = kept g o /\ c_in c = placeholder /\
     c_shape c = (count (o_Mach o), count (o_alpha o), count (o_alt o)) /\ c_out c = (fun _ => zeros3) /\ c_part c = None).
  { destruct Ar as [[l1 H1] [[l2 H2] [l3 H3]]]. unfold state, after. cbn [fold_left]. unfold step, setup. rewrite H1, H2, H3. cbn [numpy_values].
    cbn. eexists. split; [reflexivity|]. cbn. unfold count. rewrite ?H1, ?H2, ?H3. repeat split; reflexivity. }
  destruct E as [c [Cc [K [Ci [Sh [O P]]]]]].
  destruct (unchanged_spec (tolerance g o) c x (kept g o) (kept g o) K (kept_assoc g o)) as [b [U B]].
  assert (Hb : b = true).
  { apply B. apply (in_close g o c x placeholder Cl). intros k s _. rewrite Ci. reflexivity. }
  subst b. split.
  - unfold computed, compute. rewrite Cc. unfold refresh. rewrite U. cbn [snd]. unfold deliver. rewrite (arrays_own_shape o Ar), Sh.
    replace (same_shape3 _ _) with true by (symmetry; apply same_shape3_spec; reflexivity).
    eexists. split; [reflexivity|]. intros f i j k. unfold extra. destruct g; rewrite O; cbn; [reflexivity|].
    destruct (String.eqb f "CD_train"); unfold zeros3; ring.
  - unfold differentiated, compute_partials. rewrite Cc. unfold refresh. rewrite U. cbn [snd]. rewrite P. reflexivity.
Qed.
Print Assumptions C79_placeholder.

(** ** C80 *)

(** Setting up succeeds exactly when the training values are arrays and the surface options
    are those of the first instance ever set up in the process, whatever happened since. *)
Theorem C80_surface_options : forall g sv es o,
  is_dict (o_surf o) -> (forall s, first_surf es = Some s -> is_dict s) ->
  (snd (setup g o (state g sv es)) = Ok tt <->
   arrays o /\ match first_surf es with None => True | Some s => same_dict s (o_surf o) end).
Proof.
  intros g sv es o Do Ds.
  assert (E : c_surf (state g sv es) = first_surf es) by (unfold state; rewrite after_surf; reflexivity).
  unfold setup, arrays. destruct (o_Mach o) as [m|m]; [split; [discriminate | intros [[[l A] _] _]; discriminate]|].
  destruct (o_alpha o) as [a|a]; [split; [discriminate | intros [[_ [[l A] _]] _]; discriminate]|].
  destruct (o_alt o) as [h|h]; [split; [discriminate | intros [[_ [_ [l A]]] _]; discriminate]|].
  cbn [numpy_values]. rewrite E. destruct (first_surf es) as [s|] eqn:F.
  - pose proof (surf_differs_spec s (o_surf o) (Ds s eq_refl) Do) as Q.
    destruct (surf_differs s (o_surf o)) eqn:X; cbn.
    + split; [discriminate|]. intros [_ Y]. apply Q in Y. discriminate.
    + split; [|reflexivity]. intros _. split; [repeat split; eauto | apply Q; reflexivity].
  - cbn. split; [|reflexivity]. intros _. repeat split; eauto.
Qed.
Print Assumptions C80_surface_options.

(** Refused set-ups change nothing. *)
Theorem C80_refused : forall g st o e, snd (setup g o st) = Err e -> fst (setup g o st) = st.
Proof.
  intros g st o e H. unfold setup in *.
  destruct (numpy_values (o_Mach o)); [|reflexivity]. destruct (numpy_values (o_alpha o)); [|reflexivity]. destruct (numpy_values (o_alt o)); [|reflexivity].
  destruct (match c_surf st with Some s => surf_differs s (o_surf o) | None => false end); [reflexivity | discriminate].
Qed.
Print Assumptions C80_refused.

(** The documented "list or ndarray" is false of the code: lists are refused. *)
Theorem C80_lists_refuted : forall g, ~ (forall sv o, is_dict (o_surf o) -> snd (setup g o (state g sv [])) = Ok tt).
Proof.
  intros g H.
  specialize (H toy {| o_x := 1; o_y := 2; o_Mach := PyList [1/2]; o_alpha := NdArray [2]; o_alt := NdArray [0]; o_surf := [];
                        o_tol := 1; o_twist := 1; o_toverc := 1; o_skin := 1; o_spar := 1 |} (NoDup_nil _)).
  discriminate H.
Qed.
Print Assumptions C80_lists_refuted.

(** Two models with different surface options cannot live in one process: the options of a
    model that is long gone still count. *)
Theorem C80_next_model_refused : forall g sv es o o',
  is_dict (o_surf o) -> is_dict (o_surf o') -> arrays o -> arrays o' -> ~ same_dict (o_surf o) (o_surf o') ->
  snd (setup g o' (state g sv (Setup o :: es))) = Err ValueError.
Proof.
  intros g sv es o o' D D' [[l1 H1] [[l2 H2] [l3 H3]]] A' N.
  assert (F : first_surf (Setup o :: es) = Some (o_surf o)) by (cbn; rewrite H1, H2, H3; reflexivity).
  assert (E : c_surf (state g sv (Setup o :: es)) = Some (o_surf o)) by (unfold state; rewrite after_surf; exact F).
  unfold setup. destruct A' as [[m1 G1] [[m2 G2] [m3 G3]]]. rewrite G1, G2, G3. cbn [numpy_values]. rewrite E.
  pose proof (surf_differs_spec (o_surf o) (o_surf o') D D') as Q.
  destruct (surf_differs (o_surf o) (o_surf o')); [reflexivity|]. exfalso. apply N, Q. reflexivity.
Qed.
Print Assumptions C80_next_model_refused.

(** VLMDataGen instances with different numbers of panels: whichever was set up last is the
    only one that works. *)
Theorem C80_vlm_panels_rejected : forall sv es o o' x fine,
  is_dict (o_surf o) -> arrays o -> (forall s, first_surf es = Some s -> is_dict s /\ same_dict s (o_surf o)) ->
  (o_x o, o_y o) <> (o_x o', o_y o') ->
  computed VLMData sv (es ++ [Setup o]) o' x fine = Err ValueError.
Proof.
  intros sv es o o' x fine D Ar F N.
  unfold computed, state, after. rewrite fold_left_app. fold (after VLMData sv es fresh). cbn [fold_left].
  assert (S : exists c, c_cache (fst (step VLMData sv (after VLMData sv es fresh) (Setup o))) = Some c /\ c_kept c = kept VLMData o).
  { unfold step, setup. destruct Ar as [[l1 H1] [[l2 H2] [l3 H3]]]. rewrite H1, H2, H3. cbn [numpy_values].
    assert (E : c_surf (after VLMData sv es fresh) = first_surf es) by (rewrite after_surf; reflexivity).
    rewrite E. replace (match first_surf es with Some s => surf_differs s (o_surf o) | None => false end) with false.
    - cbn. eexists. split; [reflexivity | reflexivity].
    - destruct (first_surf es) as [s|]; [|reflexivity]. destruct (F s eq_refl) as [Ds Ss]. symmetry. apply surf_differs_spec; assumption. }
  destruct S as [c [C K]]. unfold compute. rewrite C. unfold refresh. cbn [kept unchanged]. rewrite K. cbn [kept assoc].
  change (String.eqb "ac|geom|wing|OAS_mesh" "ac|geom|wing|OAS_mesh") with true. cbv iota.
  destruct (same_list [S (o_x o'); S (o_y o'); 3%nat] [S (o_x o); S (o_y o); 3%nat]) eqn:Q; [|reflexivity].
  apply same_list_spec in Q. exfalso. apply N. injection Q; intros; congruence.
Qed.
Print Assumptions C80_vlm_panels_rejected.

(** Two OASDataGen instances that differ in the number of panels share their tables: after one
    of them has been evaluated the other returns the first one's analyses. *)
Theorem C80_panels_refuted : ~ (forall sv o o' es x fine D,
  arrays o -> arrays o' -> positive_tol OASData o -> positive_tol OASData o' ->
  (forall e, In e es -> options_of e = o \/ options_of e = o') ->
  failed_inputs OASData sv es fresh = [] ->
  ~ close OASData o x placeholder ->
  computed OASData sv es o x fine = Ok D ->
  exists x0, close OASData o x x0 /\ table_of OASData sv o x0 (x "ac|aero|CD_nonwing" 0%nat) D).
Proof.
  intros Claim.
  set (o := one_point 4 (1/2)). set (o' := one_point 2 (1/2)).
  assert (Same : forall e, In e [Setup o'] -> options_of e = o') by (intros e [Q|[]]; subst e; reflexivity).
  set (st := fst (step OASData toy fresh (Setup o))).
  (* evaluating the instance with 2 panels *)
  destruct (evaluated OASData toy o' (day 5) st (one_point_arrays _ _) (toy_positive _ _ _) (one_point_dict _ _) (or_intror eq_refl)
              (day_not_placeholder OASData 2 (1/2) 5 ltac:(lra))) as [c [C [K [Gr [HI [HD NF]]]]]].
  { intros _. unfold in_grid. cbn. lia. }
  { intros i j k _ Q. discriminate Q. }
  assert (V : c_out c "CL_train" 0%nat 0%nat 0%nat = 5 + 1000 * (1/2) + 10000 * INR 2).
  { etransitivity; [eapply (held_value OASData toy o' c (day 5) "CL_train"); [exact HD | first [destruct g | idtac]; cbn; auto | unfold in_grid; cbn; lia | reflexivity] | reflexivity]. }
  set (es := [Setup o; Setup o'; Compute o' (day 5) true]).
  assert (H7 : computed OASData toy es o (day 5) true = Ok (fun f => if String.eqb f "CD_train" then (fun i j k => c_out c f i j k + 1) else c_out c f)).
  { unfold computed, compute. change (state OASData toy es) with (after OASData toy [Setup o'; Compute o' (day 5) true] st). rewrite C.
    unfold refresh. change (kept OASData o) with (kept OASData o'). change (tolerance OASData o) with (tolerance OASData o').
    destruct (unchanged_spec (tolerance OASData o') c (day 5) (kept OASData o') (kept OASData o') K (kept_assoc OASData o')) as [b [U B]]. rewrite U.
    assert (Hb : b = true).
    { apply B. intros k s Q i Hi. rewrite (HI k s Q). replace (day 5 k i - day 5 k i) with 0 by ring. rewrite Rabs_R0. cbn. lra. }
    rewrite Hb. cbn [snd]. unfold deliver. rewrite (arrays_own_shape o (one_point_arrays _ _)). destruct Gr as [Sh _]. rewrite Sh. reflexivity. }
  destruct (Claim toy o o' es (day 5) true _ (one_point_arrays _ _) (one_point_arrays _ _) (toy_positive _ _ _) (toy_positive _ _ _)
              ltac:(intros e Q; cbn in Q; destruct Q as [Q|[Q|[Q|[]]]]; subst e; auto) NF (day_not_placeholder OASData 4 (1/2) 5 ltac:(lra)) H7)
    as [x0 [Cl [T _]]].
  destruct (T "CL_train" 0%nat 0%nat 0%nat) as [a [An E]]; [cbn; auto | unfold in_grid; cbn; lia |].
  unfold analysed, toy in An. injection An; intros; subst a. cbn [String.eqb Ascii.eqb Bool.eqb extra] in E.
  change (c_out c "CL_train" 0%nat 0%nat 0%nat = x0 "fltcond|TempIncrement" 0%nat + 1000 * (1/2) + 10000 * INR 4 + 0) in E.
  rewrite V in E. specialize (Cl "fltcond|TempIncrement" 1%nat 0%nat ltac:(cbn; auto 12) ltac:(lia)).
  change (day 5 "fltcond|TempIncrement" 0%nat) with 5 in Cl. apply Rabs_def2 in Cl. cbn in Cl, E. lra.
Qed.
Print Assumptions C80_panels_refuted.

(** Nor are the training points checked: two instances of the same class with equally many but
    different training points get the analyses at the points of the one set up last. *)
Theorem C80_training_points_refuted : forall g, ~ (forall sv o o' es x fine D,
  arrays o -> arrays o' -> positive_tol g o -> positive_tol g o' ->
  (forall e, In e es -> options_of e = o \/ options_of e = o') ->
  failed_inputs g sv es fresh = [] ->
  ~ close g o x placeholder ->
  computed g sv es o x fine = Ok D ->
  exists x0, close g o x x0 /\ table_of g sv o x0 (x "ac|aero|CD_nonwing" 0%nat) D).
Proof.
  intros g Claim.
  set (o := one_point 2 (7/10)). set (o' := one_point 2 (1/2)).
  set (st := fst (step g toy fresh (Setup o))).
  destruct (evaluated g toy o' (day 5) st (one_point_arrays _ _) (toy_positive _ _ _) (one_point_dict _ _))
    as [c [C [K [Gr [HI [HD NF]]]]]].
  { right. destruct g; reflexivity. }
  { apply day_not_placeholder. lra. }
  { intros _. unfold in_grid. cbn. lia. }
  { intros i j k _ Q. discriminate Q. }
  assert (V : c_out c "CL_train" 0%nat 0%nat 0%nat = 5 + 1000 * (1/2) + 10000 * INR 2).
  { etransitivity; [eapply (held_value g toy o' c (day 5) "CL_train"); [exact HD | first [destruct g | idtac]; cbn; auto | unfold in_grid; cbn; lia | reflexivity] | reflexivity]. }
  set (es := [Setup o; Setup o'; Compute o' (day 5) true]).
  assert (H7 : exists D, computed g toy es o (day 5) true = Ok D /\ D "CL_train" 0%nat 0%nat 0%nat = c_out c "CL_train" 0%nat 0%nat 0%nat).
  { unfold computed, compute. change (state g toy es) with (after g toy [Setup o'; Compute o' (day 5) true] st). rewrite C.
    unfold refresh. replace (kept g o) with (kept g o') by (destruct g; reflexivity). replace (tolerance g o) with (tolerance g o') by (destruct g; reflexivity).
    destruct (unchanged_spec (tolerance g o') c (day 5) (kept g o') (kept g o') K (kept_assoc g o')) as [b [U B]]. rewrite U.
    assert (Hb : b = true).
    { apply B. intros k s Q i Hi. rewrite (HI k s Q). replace (day 5 k i - day 5 k i) with 0 by ring. rewrite Rabs_R0. apply tol_pos, toy_positive. }
    rewrite Hb. cbn [snd]. unfold deliver. rewrite (arrays_own_shape o (one_point_arrays _ _)). destruct Gr as [Sh _]. rewrite Sh.
    eexists. split; [reflexivity|]. destruct g; reflexivity. }
  destruct H7 as [D [H7 VD]].
  assert (NF' : failed_inputs g toy es fresh = []) by (destruct g; exact NF).
  destruct (Claim toy o o' es (day 5) true D (one_point_arrays _ _) (one_point_arrays _ _) (toy_positive _ _ _) (toy_positive _ _ _)
              ltac:(intros e Q; cbn in Q; destruct Q as [Q|[Q|[Q|[]]]]; subst e; auto) NF' (day_not_placeholder g 2 (7/10) 5 ltac:(lra)) H7)
    as [x0 [Cl [T _]]].
  destruct (T "CL_train" 0%nat 0%nat 0%nat) as [a [An E]]; [destruct g; cbn; auto | unfold in_grid; cbn; lia |].
  unfold analysed, toy in An. injection An; intros; subst a.
  assert (E' : c_out c "CL_train" 0%nat 0%nat 0%nat = x0 "fltcond|TempIncrement" 0%nat + 1000 * (7/10) + 10000 * INR 2).
  { rewrite <- VD, E. destruct g; cbn; ring. }
  rewrite V in E'. specialize (Cl "fltcond|TempIncrement" 1%nat 0%nat ltac:(destruct g; cbn; auto 12) ltac:(lia)).
  change (day 5 "fltcond|TempIncrement" 0%nat) with 5 in Cl.
  assert (L : Rabs (5 - x0 "fltcond|TempIncrement" 0%nat) < 1).
  { assert (/ 10 ^ 13 < 1) by (rewrite <- Rinv_1; apply Rinv_lt_contravar; lra). destruct g; cbn [o_tol o one_point] in Cl; lra. }
  apply Rabs_def2 in L. cbn in E'. lra.
Qed.
Print Assumptions C80_training_points_refuted.
