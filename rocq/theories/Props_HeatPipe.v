(** Theorems about the heat pipe (C53). *)
From Coq Require Import Reals Lra Lia List String PeanoNat Bool Ascii.
From Coquelicot Require Import Coquelicot.
From Verif Require Import Base Py Model_Net Model_Algebra Model_Vectors Model_Thermal Model_HX Model_Ducts Model_Phases Model_HeatPipe Spec_HeatPipe
  Proofs_Net Proofs_Cs Proofs_Thermal Proofs_HX Proofs_HXJac Proofs_Ducts Proofs_HeatPipe Props_DuctDesign.
Import ListNotations.
Open Scope R_scope.
Open Scope string_scope.

(** ** Setting up *)
Theorem C53_setup A nn o : setup (HeatPipe A nn o) = Ok (HeatPipe A nn o) /\
  setup (QMaxHeatPipe A nn (hp_theta o) (hp_yield_stress o) (hp_safety o) (hp_rho_wall o)) =
    Ok (QMaxHeatPipe A nn (hp_theta o) (hp_yield_stress o) (hp_safety o) (hp_rho_wall o)).
Proof. split; vm_compute; reflexivity. Qed.
Print Assumptions C53_setup.

(** ** Condenser temperature
    The condenser temperature is the one of a pipe whose wall and wick conduct
    heat radially, whose evaporator is at T_evap, and whose vapour cools as the
    component delta_T_calc says.  The wick takes part with its conductivity only if
    there is none or it conducts like the wall: the code reads [wall_conduct] where
    the documentation says [wick_conduct] (see C53_wick_refuted). *)
Theorem C53_condenser_temperature_partial A nn o V i Tc : solution (HeatPipe A nn o) V -> (i < nn)%nat ->
  let d := V "inner_diam" 0%nat in let t := V "q_max_calc.wall_thickness" 0%nat in let w := hp_wick_thickness o in
  let q := V "q" i / V "n_pipes" 0%nat in
  0 < hp_length_evap o -> 0 < hp_length_cond o -> 0 < hp_wall_conduct o -> hp_wick_conduct o <> 0 ->
  0 <= w -> 2 * w < d -> 0 <= t -> 0 < q -> w = 0 \/ hp_wick_conduct o = hp_wall_conduct o ->
  pipe_temperatures (hp_wall_conduct o) (hp_wick_conduct o) (hp_length_evap o) (hp_length_cond o)
    (d / 2 - w) (d / 2) (d / 2 + t) q (V "delta_T_calc.delta_T" i) (V "T_evap" i) Tc ->
  V "T_cond" i = Tc.
Proof.
  intros S Hi d t w q HLe HLc Hk Hkk Hw Hwd Ht Hq Hor PT.
  pose proof (hp_facts A nn o V i S Hi) as F. cbv zeta in F. destruct F as [_ [_ [_ [F4 F5]]]]. rewrite <- F4 in F5.
  fold d t w q in F5. rewrite F5. clear F5 F4.
  apply pipe_end in PT; [|lra..]. rewrite PT. clear PT.
  assert (K : forall L, radial d (d - 2 * w) L (hp_wick_conduct o) = radial d (d - 2 * w) L (hp_wall_conduct o)).
  { intro L. destruct Hor as [Z|Z]; [|now rewrite Z]. rewrite Z. unfold radial. replace (d / (d - 2 * 0)) with 1 by (field; lra). rewrite ln_1. unfold Rdiv. ring. }
  rewrite !K. field. lra.
Qed.
Print Assumptions C53_condenser_temperature_partial.

(** Temperature profiles as required exist for every such pipe. *)
Lemma conducts_at k L q a b (r0 T0 : R) : 0 < a -> a <= r0 -> k <> 0 -> L <> 0 -> exists T, conducts k L q a b T /\ T r0 = T0.
Proof.
  intros Ha Hr Hk HL. pose proof PI_RGT_0. exists (fun r => T0 + - q / (k * (2 * PI * L)) * (ln r - ln r0)). split.
  - intros r Hr'. auto_derive; [lra|]. field. repeat split; lra.
  - ring.
Qed.
Theorem C53_profiles_exist kw kk Le Lc a b c q dT Te : 0 < kw -> 0 < kk -> 0 < Le -> 0 < Lc -> 0 < a -> a <= b -> b <= c ->
  exists Tc, pipe_temperatures kw kk Le Lc a b c q dT Te Tc.
Proof.
  intros. destruct (conducts_at kw Le (- q) b c c Te) as [E [E1 E2]]; try lra.
  destruct (conducts_at kk Le (- q) a b b (E b)) as [Ew [W1 W2]]; try lra.
  destruct (conducts_at kk Lc q a b a (Ew a - dT)) as [Cw [X1 X2]]; try lra.
  destruct (conducts_at kw Lc q b c b (Cw b)) as [C [C1 C2]]; try lra.
  exists (C c), E, C, Ew, Cw. repeat (split; [assumption|]). reflexivity.
Qed.
Print Assumptions C53_profiles_exist.

(** With a wick that conducts unlike the wall, the pipe's temperatures are not the
    documented ones, for any inputs. *)
Theorem C53_wick_refuted A nn o V i Tc : solution (HeatPipe A nn o) V -> (i < nn)%nat ->
  let d := V "inner_diam" 0%nat in let t := V "q_max_calc.wall_thickness" 0%nat in let w := hp_wick_thickness o in
  let q := V "q" i / V "n_pipes" 0%nat in
  0 < hp_length_evap o -> 0 < hp_length_cond o -> 0 < hp_wall_conduct o -> 0 < hp_wick_conduct o < hp_wall_conduct o ->
  0 < w -> 2 * w < d -> 0 <= t -> 0 < q ->
  pipe_temperatures (hp_wall_conduct o) (hp_wick_conduct o) (hp_length_evap o) (hp_length_cond o)
    (d / 2 - w) (d / 2) (d / 2 + t) q (V "delta_T_calc.delta_T" i) (V "T_evap" i) Tc ->
  Tc < V "T_cond" i.
Proof.
  intros S Hi d t w q HLe HLc Hk Hkk Hw Hwd Ht Hq PT.
  pose proof (hp_facts A nn o V i S Hi) as F. cbv zeta in F. destruct F as [_ [_ [_ [F4 F5]]]]. rewrite <- F4 in F5.
  fold d t w q in F5. rewrite F5. clear F5 F4.
  apply pipe_end in PT; [|lra..]. rewrite PT. clear PT.
  assert (K : forall L, 0 < L -> radial d (d - 2 * w) L (hp_wall_conduct o) < radial d (d - 2 * w) L (hp_wick_conduct o)).
  { intros L HL. unfold radial, Rdiv. pose proof PI_RGT_0. apply Rmult_lt_compat_l.
    - apply ln_pos. apply (Rmult_lt_reg_r (d - 2 * w)); [lra|]. rewrite Rmult_assoc, Rinv_l; lra.
    - apply Rinv_lt_contravar; [posi; lra|]. apply Rmult_lt_compat_l; [posi|lra]. }
  pose proof (Rmult_lt_compat_l q _ _ Hq (K _ HLe)) as K1. pose proof (Rmult_lt_compat_l q _ _ Hq (K _ HLc)) as K2.
  rewrite !Rmult_plus_distr_l. replace (q * (V "delta_T_calc.delta_T" i / q)) with (V "delta_T_calc.delta_T" i) by (field; lra). lra.
Qed.
Print Assumptions C53_wick_refuted.

(** [wick_conduct] has no effect at all. *)
Theorem C53_wick_conduct_ignored Le Lc kw w kk kk' vap :
  HeatPipeThermalResistance Le Lc kw w kk vap = HeatPipeThermalResistance Le Lc kw w kk' vap.
Proof. reflexivity. Qed.
Print Assumptions C53_wick_conduct_ignored.

(** Heat moves from a warmer evaporator to a colder condenser. *)
Theorem C53_condenser_colder A nn o V i : solution (HeatPipe A nn o) V -> (i < nn)%nat ->
  0 < hp_length_evap o -> 0 < hp_length_cond o -> 0 < hp_wall_conduct o -> 0 <= hp_wick_thickness o -> 0 < hp_yield_stress o -> 0 < hp_safety o ->
  2 * hp_wick_thickness o < V "inner_diam" 0%nat -> 0 < V "length" 0%nat -> 0 < V "n_pipes" 0%nat -> 0 < V "q" i ->
  0 < am_pressure A (V "T_design" 0%nat) -> 0 < am_pressure A (V "T_evap" i) -> 0 < am_vapor A (V "T_evap" i) ->
  V "T_cond" i < V "T_evap" i /\ 0 < V "delta_T_calc.delta_T" i.
Proof.
  intros S Hi H1 H2 H3 H4 H5 H6 H7 H8 H9 H10 H11 H12 H13.
  pose proof (hp_facts A nn o V i S Hi) as F. cbv zeta in F. destruct F as [F1 [_ [_ [F4 F5]]]].
  set (d := V "inner_diam" 0%nat) in *. set (t := V "q_max_calc.wall_thickness" 0%nat) in *.
  assert (Hd : 0 < d) by lra. assert (Hq : 0 < V "q" i / V "n_pipes" 0%nat) by posi.
  assert (Ht : 0 < t) by (rewrite F1; posi).
  pose proof (vapor_drop_pos latent_ammonia visc_base_ammonia visc_inc_ammonia (V "q" i / V "n_pipes" 0%nat) (V "T_evap" i) (am_vapor A (V "T_evap" i))
    (am_pressure A (V "T_evap" i) * 1000) d (V "length" 0%nat) ltac:(unfold latent_ammonia; lra) Hq H13 ltac:(lra) Hd H8) as D.
  rewrite <- F4 in D, F5. split; [|exact D]. rewrite F5.
  set (q := V "q" i / V "n_pipes" 0%nat) in *.
  pose proof (radial_nonneg d (d - 2 * hp_wick_thickness o) _ _ ltac:(lra) ltac:(lra) H1 H3).
  pose proof (radial_nonneg d (d - 2 * hp_wick_thickness o) _ _ ltac:(lra) ltac:(lra) H2 H3).
  pose proof (radial_pos (d + 2 * t) d _ _ Hd ltac:(lra) H1 H3). pose proof (radial_pos (d + 2 * t) d _ _ Hd ltac:(lra) H2 H3).
  pose proof (quot_pos _ _ D Hq).
  match goal with |- _ - q * ?r < _ => assert (0 < q * r) by (apply Rmult_lt_0_compat; lra) end. lra.
Qed.
Print Assumptions C53_condenser_colder.

(** The vapour's temperature drop is what the slope of T = 35.976 ln p + const gives for
    the pressure lost by the vapour that carries the heat as latent heat. *)
Theorem C53_vapor_drop A nn o V i dp : solution (HeatPipe A nn o) V -> (i < nn)%nat ->
  let T := V "T_evap" i in let q := V "q" i / V "n_pipes" 0%nat in
  0 < q -> 0 < am_vapor A T -> 0 < am_pressure A T -> 0 < V "inner_diam" 0%nat -> -225 < T ->
  pipe_loss (q / 1371200) (am_vapor A T) ((9 + T * (4/100)) / 10 ^ 6) (V "inner_diam" 0%nat) (V "length" 0%nat) dp ->
  V "delta_T_calc.delta_T" i = (35976/1000) * (dp / (1000 * am_pressure A T)).
Proof.
  intros S Hi T q Hq Hr Hp Hd HT L. pose proof (hp_facts A nn o V i S Hi) as F. cbv zeta in F. destruct F as [_ [_ [_ [F4 _]]]].
  rewrite F4. replace ((9 + T * (4/100)) / 10 ^ 6) with (T * visc_inc_ammonia + visc_base_ammonia) in L by (unfold visc_inc_ammonia, visc_base_ammonia; field).
  rewrite (Rmult_comm 1000). apply (vapor_drop_loss latent_ammonia visc_base_ammonia visc_inc_ammonia); auto; try (unfold latent_ammonia; lra).
  change (0 < T * visc_inc_ammonia + visc_base_ammonia). unfold visc_inc_ammonia, visc_base_ammonia. lra.
Qed.
Print Assumptions C53_vapor_drop.

(** ** Walls and weight
    The hoop stress p d / (2 t) of the wall at the design pressure is half the yield
    stress divided by the safety factor; the weight is the one of all the walls,
    as thin shells. *)
Theorem C53_walls A nn o V : solution (HeatPipe A nn o) V -> (0 < nn)%nat ->
  let d := V "inner_diam" 0%nat in let t := V "q_max_calc.wall_thickness" 0%nat in
  let p := am_pressure A (V "T_design" 0%nat) / 1000 in
  0 < d -> 0 < p -> 0 < hp_yield_stress o -> 0 < hp_safety o ->
  0 < t /\ p * d / (2 * t) * hp_safety o = hp_yield_stress o / 2 /\
  V "weight" 0%nat = V "n_pipes" 0%nat * (hp_rho_wall o * (PI * d * t * V "length" 0%nat)).
Proof.
  intros S Hn d t p Hd Hp Hs Hf. pose proof (hp_facts A nn o V 0%nat S Hn) as F. cbv zeta in F. destruct F as [F1 [F2 _]].
  fold d t p in F1, F2. rewrite F2, F1. split; [posi|]. split; field; repeat split; lra.
Qed.
Print Assumptions C53_walls.

(** ** Maximum heat transfer *)
Theorem C53_q_max A nn o o' V V' i : solution (HeatPipe A nn o) V -> solution (HeatPipe A nn o') V' -> (i < nn)%nat ->
  let T := V "T_evap" i in
  0 <= hp_theta o < 90 -> 0 <= hp_theta o' < 90 -> 0 < V "inner_diam" 0%nat -> 0 < V "n_pipes" 0%nat ->
  T < 113 -> 0 < am_vapor A T < am_liquid A T -> V' "T_evap" i = T ->
  0 < V "q_max" i /\
  (hp_theta o <= hp_theta o' -> V' "inner_diam" 0%nat = V "inner_diam" 0%nat -> V' "n_pipes" 0%nat = V "n_pipes" 0%nat -> V' "q_max" i <= V "q_max" i) /\
  (hp_theta o < hp_theta o' -> V' "inner_diam" 0%nat = V "inner_diam" 0%nat -> V' "n_pipes" 0%nat = V "n_pipes" 0%nat -> V' "q_max" i < V "q_max" i) /\
  (hp_theta o = hp_theta o' -> V "inner_diam" 0%nat < V' "inner_diam" 0%nat -> V' "n_pipes" 0%nat = V "n_pipes" 0%nat -> V "q_max" i < V' "q_max" i).
Proof.
  intros S S' Hi T Ht Ht' Hd Hn HT Hr ET.
  pose proof (hp_facts A nn o V i S Hi) as F. cbv zeta in F. destruct F as [_ [_ [F3 _]]].
  pose proof (hp_facts A nn o' V' i S' Hi) as F'. cbv zeta in F'. destruct F' as [_ [_ [F3' _]]]. rewrite ET in F3'. fold T in F3.
  assert (St : 0 < st_base_ammonia + st_incr_ammonia * T) by (unfold st_base_ammonia, st_incr_ammonia; lra).
  assert (L : 0 < latent_ammonia) by (unfold latent_ammonia; lra).
  assert (P0 : 0 < V "q_max" i) by (rewrite F3; apply Rmult_lt_0_compat; auto; apply flooding_pos; auto).
  assert (TI : hp_theta o < hp_theta o' -> V' "inner_diam" 0%nat = V "inner_diam" 0%nat -> V' "n_pipes" 0%nat = V "n_pipes" 0%nat -> V' "q_max" i < V "q_max" i).
  { intros H E1 E2. rewrite F3, F3', E1, E2. apply Rmult_lt_compat_r; auto. apply flooding_tilt; auto; lra. }
  repeat match goal with |- _ /\ _ => split end; auto.
  - intros H E1 E2. destruct (Req_dec (hp_theta o) (hp_theta o')) as [Z|Z]; [|left; apply TI; auto; lra].
    rewrite F3, F3', E1, E2, Z. lra.
  - intros Z H E2. rewrite F3, F3', E2, Z. apply Rmult_lt_compat_r; auto. apply flooding_diam; auto.
Qed.
Print Assumptions C53_q_max.

(** ** Bundles
    [k] times the heat through [k] times the pipes: the same temperatures, [k] times
    the weight and [k] times the capacity. *)
Theorem C53_bundles A nn o V V' i k : solution (HeatPipe A nn o) V -> solution (HeatPipe A nn o) V' -> (i < nn)%nat ->
  k <> 0 -> V "n_pipes" 0%nat <> 0 -> V' "n_pipes" 0%nat = k * V "n_pipes" 0%nat -> V' "q" i = k * V "q" i -> V' "T_evap" i = V "T_evap" i ->
  V' "T_design" 0%nat = V "T_design" 0%nat -> V' "inner_diam" 0%nat = V "inner_diam" 0%nat -> V' "length" 0%nat = V "length" 0%nat ->
  V' "T_cond" i = V "T_cond" i /\ V' "weight" 0%nat = k * V "weight" 0%nat /\ V' "q_max" i = k * V "q_max" i.
Proof.
  intros S S' Hi Hk Hn En Eq ET ED Ed EL.
  pose proof (hp_facts A nn o V i S Hi) as F. cbv zeta in F. destruct F as [F1 [F2 [F3 [_ F5]]]].
  pose proof (hp_facts A nn o V' i S' Hi) as F'. cbv zeta in F'. destruct F' as [F1' [F2' [F3' [_ F5']]]].
  rewrite ED, Ed, <- F1 in F1'. rewrite En, ED, Ed, EL in F2'. rewrite En, Ed, ET in F3'. rewrite En, Eq, Ed, EL, ET, F1' in F5'.
  replace (k * V "q" i / (k * V "n_pipes" 0%nat)) with (V "q" i / V "n_pipes" 0%nat) in F5' by (field; auto).
  split; [congruence|]. split; [rewrite F2', F2|rewrite F3', F3]; unfold Rdiv; ring.
Qed.
Print Assumptions C53_bundles.

(** ** Warnings *)
Theorem C53_warnings q_max_warn nn E :
  (QMaxWarning q_max_warn nn E = true <-> exists i, (i < nn)%nat /\ q_max_warn * E "q_max" i < E "q" i) /\
  (temp_warns nn E = true <-> exists i, (i < nn)%nat /\ (E "temp" i < -10 \/ 100 < E "temp" i)).
Proof.
  assert (B : forall (p : nat -> bool), anyb nn p = true <-> exists i, (i < nn)%nat /\ p i = true).
  { intro p. split.
    - intro H. destruct (anyb nn p) eqn:K; [|discriminate]. unfold anyb in K. apply existsb_exists in K. destruct K as [i [I K]]. apply in_seq in I. exists i. split; [lia|auto].
    - intros [i [Hi K]]. unfold anyb. apply existsb_exists. exists i. split; auto. apply in_seq. lia. }
  split.
  - unfold QMaxWarning. rewrite B. split; intros [i [Hi K]]; exists i; split; auto; destruct Rlt_dec; auto; discriminate.
  - unfold temp_warns. rewrite orb_true_iff, !B. split.
    + intros [[i [Hi K]]|[i [Hi K]]]; exists i; split; auto; destruct Rlt_dec; auto; discriminate.
    + intros [i [Hi [K|K]]]; [left|right]; exists i; split; auto; destruct Rlt_dec; auto; contradiction.
Qed.
Print Assumptions C53_warnings.

(** ** Partials *)
Theorem C53_partials n E : (0 < n)%nat ->
  (forall sy FOS rho, sy <> 0 -> jac_correct n (HeatPipeWeight sy FOS rho) E) /\
  (E "n_pipes" 0%nat <> 0 -> jac_correct n heat_divide E) /\ jac_correct n q_max_multiplier E /\ jac_correct n cond_temp E /\
  (forall Le Lc kw w kk vap, Le <> 0 -> Lc <> 0 -> kw <> 0 -> 0 < E "inner_diam" 0%nat -> 2 * w < E "inner_diam" 0%nat ->
     0 < E "inner_diam" 0%nat + 2 * E "wall_thickness" 0%nat -> (forall i, (i < n)%nat -> E "q" i <> 0) ->
     jac_correct n (HeatPipeThermalResistance Le Lc kw w kk vap) E) /\
  (forall latent vb vi, 0 < latent -> 0 < E "inner_diam" 0%nat ->
     (forall i, (i < n)%nat -> 0 < E "q" i /\ 0 < E "rho_vapor" i /\ E "vapor_pressure" i <> 0 /\ 0 < E "temp" i * vi + vb) ->
     jac_correct n (HeatPipeVaporTempDrop latent vb vi) E) /\
  (forall theta latent sb si, 0 <= theta < 90 -> 0 < E "inner_diam" 0%nat ->
     (forall i, (i < n)%nat -> 0 < E "rho_vapor" i < E "rho_liquid" i /\ 0 < sb + si * E "temp" i) ->
     jac_correct n (QMaxAnalyticalPart theta latent sb si) E).
Proof.
  intro Hn.
  assert (W : forall sy FOS rho, sy <> 0 -> jac_correct n (HeatPipeWeight sy FOS rho) E).
  { to_node. set (e := node _ E i). split_jac HeatPipeWeight; auto_derive; auto; field; auto. }
  repeat match goal with |- _ /\ _ => split end.
  - exact W.
  - intro H. to_node. set (e := node _ E i). change (E "n_pipes" 0%nat) with (e "n_pipes") in H. split_jac heat_divide; auto_derive; auto; field; auto.
  - to_node. set (e := node _ E i). split_jac q_max_multiplier; auto_derive; auto; field.
  - to_node. set (e := node _ E i). split_jac cond_temp; auto_derive; auto; field.
  - intros. now apply resistance_jac.
  - intros. now apply drop_jac.
  - intros. now apply qmax_jac.
Qed.
Print Assumptions C53_partials.

(** ** Converged heat pipes exist, for every setting of the inputs. *)
Section Exists.
Variables (A : ammonia) (nn : nat) (o : hp_options) (I : env).
Let T i := I "T_evap" i.
Let d := I "inner_diam" 0%nat.
Let n := I "n_pipes" 0%nat.
Let L := I "length" 0%nat.
Let pk := am_pressure A (I "T_design" 0%nat).
Let p := pk * / 1000.
Let t := p * d * hp_safety o / hp_yield_stress o.
Let wt := L * PI * d ^ 2 * p * hp_safety o * hp_rho_wall o / hp_yield_stress o.
Let q i := I "q" i / n.
Let fl i := flooding (hp_theta o) latent_ammonia st_base_ammonia st_incr_ammonia d (T i) (am_liquid A (T i)) (am_vapor A (T i)).
Let dT i := vapor_drop latent_ammonia visc_base_ammonia visc_inc_ammonia (q i) (T i) (am_vapor A (T i)) (am_pressure A (T i) * 1000) d L.
Let res i := radial d (d - 2 * hp_wick_thickness o) (hp_length_evap o) (hp_wall_conduct o) + radial (d + 2 * t) d (hp_length_evap o) (hp_wall_conduct o) +
  (radial d (d - 2 * hp_wick_thickness o) (hp_length_cond o) (hp_wall_conduct o) + radial (d + 2 * t) d (hp_length_cond o) (hp_wall_conduct o)) + dT i / q i.
Definition hp_inner : env := fun x =>
  if String.eqb x "temp" then T else if String.eqb x "design_temp" then I "T_design" else
  if String.eqb x "ammonia_current.rho_liquid" then fun i => am_liquid A (T i) else if String.eqb x "ammonia_current.rho_vapor" then fun i => am_vapor A (T i) else
  if String.eqb x "vapor_pressure" then fun i => am_pressure A (T i) else
  if String.eqb x "ammonia_design.rho_liquid" then fun i => am_liquid A (I "T_design" i) else if String.eqb x "ammonia_design.rho_vapor" then fun i => am_vapor A (I "T_design" i) else
  if String.eqb x "design_pressure" then fun i => am_pressure A (I "T_design" i) else if String.eqb x "design_pressure_MPa" then fun i => am_pressure A (I "T_design" i) * / 1000 else
  if String.eqb x "q_max" then fl else if String.eqb x "heat_pipe_weight" then fun _ => wt else if String.eqb x "wall_thickness" then fun _ => t else I x.
Definition hp_outer : env := fun x =>
  if String.eqb x "heat_divide.q_div" then q else if String.eqb x "weight" then fun _ => wt * n else if String.eqb x "q_max" then fun i => fl i * n else
  if String.eqb x "ammonia_surrogate.rho_liquid" then fun i => am_liquid A (T i) else if String.eqb x "ammonia_surrogate.rho_vapor" then fun i => am_vapor A (T i) else
  if String.eqb x "ammonia_surrogate.vapor_pressure" then fun i => am_pressure A (T i) else if String.eqb x "vapor_pressure_Pa" then fun i => am_pressure A (T i) * 1000 else
  if String.eqb x "delta_T_calc.delta_T" then dT else if String.eqb x "resistance.thermal_resistance" then res else
  if String.eqb x "T_cond" then fun i => T i - q i * res i else
  if String.prefix "q_max_calc." x then hp_inner (substring 11 (String.length x - 11) x) else I x.
Lemma inner_solution : solution (QMaxHeatPipe A nn (hp_theta o) (hp_yield_stress o) (hp_safety o) (hp_rho_wall o)) hp_inner.
Proof.
  intros s Hs. cbn in Hs; repeat (destruct Hs as [<-|Hs]); [..|destruct Hs]; cbn.
  - intros x k f i H Hi. by_out H; reflexivity.
  - intros x k f i H Hi. by_out H; reflexivity.
  - intros x k f i H Hi. by_out H; reflexivity.
  - intros i. reflexivity.
  - intros x k f i H Hi. by_out H; cbn in Hi; assert (i = 0)%nat as -> by lia; reflexivity.
Qed.
Lemma outer_solution : solution (HeatPipe A nn o) hp_outer.
Proof.
  intros s Hs. unfold HeatPipe in Hs. cbn [g_subs] in Hs. repeat (destruct Hs as [<-|Hs]); [..|destruct Hs].
  - intros x k f i H Hi. by_out H; reflexivity.
  - exists hp_inner. split; [exact inner_solution|]. split.
    + intros x i Hx. vm_compute in Hx. repeat (destruct Hx as [<-|Hx]; [reflexivity|]). destruct Hx.
    + intros x i Hx. vm_compute in Hx. repeat (destruct Hx as [<-|Hx]; [reflexivity|]). destruct Hx.
  - intros i Hi. assert (i = 0)%nat as -> by lia. unfold multiplier; cbn [gs_rel gs_outs ms_out weight_multiplier]. rewrite weight_value. reflexivity.
  - intros x k f i H Hi. by_out H; reflexivity.
  - intros x k f i H Hi. by_out H; reflexivity.
  - intros i. reflexivity.
  - intros x k f i H Hi. by_out H; reflexivity.
  - intros x k f i H Hi. by_out H; reflexivity.
  - intros x k f i H Hi. by_out H; reflexivity.
  - intros x k f i H Hi. by_out H.
Qed.
Theorem C53_converges : exists V, solution (HeatPipe A nn o) V /\
  forall x, In x ["q"; "n_pipes"; "T_evap"; "T_design"; "inner_diam"; "length"] -> forall i, V x i = I x i.
Proof.
  exists hp_outer. split; [exact outer_solution|]. intros x Hx. cbn in Hx. repeat (destruct Hx as [<-|Hx]; [reflexivity|]). destruct Hx.
Qed.
End Exists.
Print Assumptions C53_converges.

(** ** The hypotheses are met
    By the default options, two pipes of 2 cm at 40 degrees C that carry 400 W, and
    the table's ammonia at 40 degrees C. *)
Definition default_pipe : hp_options := {|
  hp_length_evap := 1/4; hp_length_cond := 1/4; hp_wall_conduct := 196; hp_wick_thickness := 0; hp_wick_conduct := 4;
  hp_yield_stress := 572; hp_rho_wall := 2810; hp_safety := 4; hp_theta := 0 |}.
Definition wick_pipe : hp_options := {|
  hp_length_evap := 1/4; hp_length_cond := 1/4; hp_wall_conduct := 196; hp_wick_thickness := 1/1000; hp_wick_conduct := 4;
  hp_yield_stress := 572; hp_rho_wall := 2810; hp_safety := 4; hp_theta := 30 |}.
Definition ammonia_40 : ammonia := {| am_liquid := fun _ => 57948/100; am_vapor := fun _ => 12006/1000; am_pressure := fun _ => 1554 |}.
Definition pipe_inputs : env := fun x _ =>
  if String.eqb x "q" then 400 else if String.eqb x "n_pipes" then 2 else if String.eqb x "inner_diam" then 2/100 else
  if String.eqb x "length" then 66/10 else 40.
Example ammonia_40_row : In (40, (am_liquid ammonia_40 40, (am_vapor ammonia_40 40, am_pressure ammonia_40 40))) ammonia_table.
Proof.
  unfold ammonia_table, ammonia_40. cbn [am_liquid am_vapor am_pressure]. cbn [map]. do 23 right. left. repeat (f_equal; try field).
Qed.
Example C53_default_met : exists V Tc, solution (HeatPipe ammonia_40 3 default_pipe) V /\ V "T_cond" 1%nat = Tc /\ Tc < 40 /\
  pipe_temperatures 196 4 (1/4) (1/4) (V "inner_diam" 0%nat / 2 - 0) (V "inner_diam" 0%nat / 2) (V "inner_diam" 0%nat / 2 + V "q_max_calc.wall_thickness" 0%nat)
    (V "q" 1%nat / V "n_pipes" 0%nat) (V "delta_T_calc.delta_T" 1%nat) (V "T_evap" 1%nat) Tc /\ 0 < V "q_max" 1%nat.
Proof.
  destruct (C53_converges ammonia_40 3 default_pipe pipe_inputs) as [V [S HV]].
  assert (E : forall x, In x ["q"; "n_pipes"; "T_evap"; "T_design"; "inner_diam"; "length"] -> forall i, V x i = pipe_inputs x i) by exact HV.
  assert (Eq : forall i, V "q" i = 400) by (intro; rewrite E by inl; reflexivity). assert (En : V "n_pipes" 0%nat = 2) by (rewrite E by inl; reflexivity).
  assert (Ed : V "inner_diam" 0%nat = 2/100) by (rewrite E by inl; reflexivity). assert (EL : V "length" 0%nat = 66/10) by (rewrite E by inl; reflexivity).
  assert (ET : V "T_evap" 1%nat = 40) by (rewrite E by inl; reflexivity).
  pose proof (C53_walls _ _ _ V S ltac:(lia)) as W. cbv zeta in W. rewrite Ed in W.
  destruct W as [W _]; try (cbn; lra).
  destruct (C53_profiles_exist 196 4 (1/4) (1/4) (V "inner_diam" 0%nat / 2 - 0) (V "inner_diam" 0%nat / 2) (V "inner_diam" 0%nat / 2 + V "q_max_calc.wall_thickness" 0%nat)
    (V "q" 1%nat / V "n_pipes" 0%nat) (V "delta_T_calc.delta_T" 1%nat) (V "T_evap" 1%nat)) as [Tc PT]; try lra.
  assert (TC : V "T_cond" 1%nat = Tc).
  { apply (C53_condenser_temperature_partial ammonia_40 3 default_pipe V 1%nat Tc S ltac:(lia)); cbn; try lra; try (rewrite Eq, En; lra); first [exact PT | left; reflexivity]. }
  pose proof (C53_condenser_colder ammonia_40 3 default_pipe V 1%nat S ltac:(lia)) as [C _]; cbn; rewrite ?Ed, ?EL, ?En, ?Eq; try lra.
  exists V, Tc. split; [exact S|]. split; [exact TC|]. split; [lra|]. split; [exact PT|].
  apply (C53_q_max ammonia_40 3 default_pipe default_pipe V V 1%nat S S ltac:(lia)); cbn; rewrite ?Ed, ?En, ?ET; try lra; reflexivity.
Qed.
Example C53_wick_met : exists V Tc, solution (HeatPipe ammonia_40 1 wick_pipe) V /\ Tc < V "T_cond" 0%nat /\
  pipe_temperatures 196 4 (1/4) (1/4) (V "inner_diam" 0%nat / 2 - 1/1000) (V "inner_diam" 0%nat / 2) (V "inner_diam" 0%nat / 2 + V "q_max_calc.wall_thickness" 0%nat)
    (V "q" 0%nat / V "n_pipes" 0%nat) (V "delta_T_calc.delta_T" 0%nat) (V "T_evap" 0%nat) Tc.
Proof.
  destruct (C53_converges ammonia_40 1 wick_pipe pipe_inputs) as [V [S E]].
  assert (Eq : forall i, V "q" i = 400) by (intro; rewrite E by inl; reflexivity). assert (En : V "n_pipes" 0%nat = 2) by (rewrite E by inl; reflexivity).
  assert (Ed : V "inner_diam" 0%nat = 2/100) by (rewrite E by inl; reflexivity).
  pose proof (C53_walls _ _ _ V S ltac:(lia)) as W. cbv zeta in W. rewrite Ed in W. destruct W as [W _]; try (cbn; lra).
  destruct (C53_profiles_exist 196 4 (1/4) (1/4) (V "inner_diam" 0%nat / 2 - 1/1000) (V "inner_diam" 0%nat / 2) (V "inner_diam" 0%nat / 2 + V "q_max_calc.wall_thickness" 0%nat)
    (V "q" 0%nat / V "n_pipes" 0%nat) (V "delta_T_calc.delta_T" 0%nat) (V "T_evap" 0%nat)) as [Tc PT]; try lra.
  exists V, Tc. split; [exact S|]. split; [|exact PT].
  apply (C53_wick_refuted ammonia_40 1 wick_pipe V 0%nat Tc S ltac:(lia)); cbn; try lra; try (rewrite Eq, En; lra). exact PT.
Qed.
