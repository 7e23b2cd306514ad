(** The theorems about the atmosphere (C20 - C23). *)
From Verif Require Import Base Py Model_Atmos Proofs_Atmos.
Open Scope R_scope.
Open Scope string_scope.

(** [kt], [kp]: the coefficient vectors obtained from [np.linalg.solve] when
    the module is imported; they exist. *)
Example coeffs_exist : (exists k, temp_coeffs k) /\ (exists k, pressure_coeffs k).
Proof. split; eexists; apply hermite_solves. Qed.

(** ** C20 *)

(** TemperatureComp: after [compute] at the same inputs, [compute_partials]
    returns the derivative of the temperature, at every altitude of every
    vector; entry (i, j) of dT/dh is 0 off the diagonal; dT/dTempIncrement is
    the identity, as declared. *)
Theorem C20_temperature_partials k E st : temp_coeffs k ->
  exists J, temp_comp_partials k E (fst (temp_comp_compute k E st)) = Ok J /\
  forall i j,
    is_derive (fun t => snd (temp_comp_compute k (updE E "fltcond|h" j t) st) i) (E "fltcond|h" j)
      (if Nat.eqb i j then J i else 0) /\
    is_derive (fun t => snd (temp_comp_compute k (updE E "fltcond|TempIncrement" j t) st) i)
      (E "fltcond|TempIncrement" j) (if Nat.eqb i j then 1 else 0).
Proof.
  intro Hk. eexists. split; [reflexivity|]. intros i j. split; [now apply temp_comp_derive|apply temp_comp_derive_inc].
Qed.
Print Assumptions C20_temperature_partials.

(** PressureComp: the same, below 288.16/0.0065 m (about 44.3 km), where the pressure
    is a number. *)
Theorem C20_pressure_partials k E st : pressure_coeffs k ->
  exists J, press_comp_partials k E (fst (press_comp_compute k E st)) = Ok J /\
  forall i j, E "fltcond|h" i < (28816/100) / (65/10000) ->
    exists v, J i = Some v /\
    is_derive (fun t => num (snd (press_comp_compute k (updE E "fltcond|h" j t) st) i)) (E "fltcond|h" j)
      (if Nat.eqb i j then v else 0).
Proof.
  intro Hk. eexists. split; [reflexivity|]. intros i j Hh.
  destruct (press_comp_derive k E st i j Hk Hh) as [v [H1 H2]]. exists v. auto.
Qed.
Print Assumptions C20_pressure_partials.

(** The derivatives themselves are continuous, also at 10.5 and 11.5 km. *)
Theorem C20_temperature_slope_continuous k h : temp_coeffs k ->
  exists d : R -> R, (forall t, is_derive (fun x => compute_temp k x (get_masks x)) t (d t)) /\ continuous d h.
Proof.
  intro Hk. exists (fun t => compute_temp_deriv k t (get_masks t)). split.
  - intro t. now apply temp_derive.
  - now apply temp_C1.
Qed.
Theorem C20_pressure_slope_continuous k h : pressure_coeffs k -> h < (28816/100) / (65/10000) ->
  exists d : R -> R, (forall t, t < (28816/100) / (65/10000) ->
     is_derive (fun x => num (compute_pressure k x (get_masks x))) t (d t)) /\ continuous d h.
Proof.
  intros Hk Hh. exists (fun t => num (compute_pressure_deriv k t (get_masks t))). split.
  - intros t Ht. destruct (press_derive k t Hk Ht) as [J [-> HJ]]. exact HJ.
  - now apply press_C1.
Qed.
Print Assumptions C20_pressure_slope_continuous.

(** The three layers use the formulas of the documentation: troposphere,
    stratosphere, and values agreeing at the two joins. *)
Theorem C20_layers kt kp h : temp_coeffs kt -> pressure_coeffs kp -> h < (28816/100) / (65/10000) ->
  let T := compute_temp kt h (get_masks h) in
  (h <= 10500 -> T = 28816/100 - 65/10000 * h /\
     compute_pressure kp h (get_masks h) = Some (101325 * Rpower (1 - 65/10000 * h / (28816/100)) (52561/10000))) /\
  (11500 <= h -> T = 21665/100 /\
     compute_pressure kp h (get_masks h) = Some (22632 * exp (- (981/100) * (h - 11000) / (288 * (21665/100))))).
Proof.
  intros [T1 [T2 _]] Hp Hh. destruct (press_joins kp Hp) as [_ [_ [P2 _]]]. pose proof hl_lt_hu. cbv zeta.
  rewrite temp_pieces, press_pieces by exact Hh. unfold pieces. split; intro H1.
  - rewrite <- hl_val in H1. destruct (Rle_dec h h_lower); [auto|lra].
  - rewrite <- hu_val in H1. destruct (Rle_dec h h_lower); [lra|].
    destruct (Rle_dec h h_upper).
    + assert (h = h_upper) by lra. subst h. rewrite P2. split; [unfold cubic; lra|reflexivity].
    + auto.
Qed.

(** "Every altitude" is false for the pressure: above 288.16/0.0065 m the
    troposphere formula is NaN and the mask does not remove it. *)
Theorem C20_pressure_every_altitude_refuted k h : h > (28816/100) / (65/10000) ->
  compute_pressure k h (get_masks h) = None.
Proof. intro H. now apply press_nan. Qed.

(** ** C21 *)

(** After any history of calls, [compute_partials] is the derivative at its own
    inputs provided the last [compute] had every altitude in the same layer. *)
Theorem C21_temperature_partial k l E0 E st : temp_coeffs k -> last_compute E0 l ->
  (forall i, same_layer (E0 "fltcond|h" i) (E "fltcond|h" i)) ->
  exists J, temp_comp_partials k E (fold_left (temp_step k) l st) = Ok J /\
  forall i j, is_derive (fun t => snd (temp_comp_compute k (updE E "fltcond|h" j t) st) i) (E "fltcond|h" j)
      (if Nat.eqb i j then J i else 0).
Proof.
  intros Hk Hl Hs. rewrite (temp_last k E0) by auto. eexists. split; [reflexivity|]. intros i j.
  cbv beta. rewrite (same_masks _ _ (Hs i)). now apply temp_comp_derive.
Qed.
Theorem C21_pressure_partial k l E0 E st : pressure_coeffs k -> last_compute E0 l ->
  (forall i, same_layer (E0 "fltcond|h" i) (E "fltcond|h" i)) ->
  exists J, press_comp_partials k E (fold_left (press_step k) l st) = Ok J /\
  forall i j, E "fltcond|h" i < (28816/100) / (65/10000) -> exists v, J i = Some v /\
    is_derive (fun t => num (snd (press_comp_compute k (updE E "fltcond|h" j t) st) i)) (E "fltcond|h" j)
      (if Nat.eqb i j then v else 0).
Proof.
  intros Hk Hl Hs. rewrite (press_last k E0) by auto. eexists. split; [reflexivity|]. intros i j Hh.
  cbv beta. rewrite (same_masks _ _ (Hs i)).
  destruct (press_comp_derive k E st i j Hk Hh) as [v [H1 H2]]. exists v. auto.
Qed.
Print Assumptions C21_pressure_partial.

Example C21_history_exists : let E := (fun _ _ => 20000) : env in let E1 := (fun _ _ => 12000) : env in
  last_compute E1 [CCompute E; CPartials E; CCompute E1; CPartials E] /\
  same_layer (E1 "fltcond|h" 3%nat) (E "fltcond|h" 3%nat).
Proof.
  simpl. split.
  - exists [CCompute (fun _ _ => 20000); CPartials (fun _ _ => 20000)], [CPartials (fun _ _ => 20000)].
    split; [reflexivity|]. intros c [<-|[]]. eauto.
  - unfold same_layer. lra.
Qed.

(** The unrestricted property fails: compute at sea level, then ask for the
    partials at 20 km; the answer is -0.0065 K/m, the derivative is 0. *)
Theorem C21_stale_masks_refuted k : temp_coeffs k ->
  exists l E J, temp_comp_partials k E (fold_left (temp_step k) l None) = Ok J /\
    ~ is_derive (fun t => snd (temp_comp_compute k (updE E "fltcond|h" 0 t) None) 0%nat) (E "fltcond|h" 0%nat) (J 0%nat).
Proof.
  intro Hk. exists [CCompute (fun _ _ => 0)], (fun _ _ => 20000). eexists. split; [reflexivity|].
  intro H. pose proof (temp_comp_derive k (fun _ _ => 20000) None 0 0 Hk) as H2. simpl Nat.eqb in H2. cbv iota in H2.
  pose proof (is_derive_unique _ _ _ H) as U1. pose proof (is_derive_unique _ _ _ H2) as U2. rewrite U1 in U2.
  rewrite temp_deriv_pieces in U2. unfold pieces in U2. rewrite hl_val, hu_val in U2.
  destruct (Rle_dec 20000 10500); [lra|]. destruct (Rle_dec 20000 11500); [lra|].
  unfold compute_temp_deriv, get_masks, b2r in U2. rewrite hl_val, hu_val in U2.
  destruct (Rle_dec 0 10500); [|lra]. destruct (Rgt_dec 0 11500); [lra|]. simpl in U2. lra.
Qed.
(** ... and before the first [compute] there are no masks at all. *)
Theorem C21_partials_first_refuted k E :
  temp_comp_partials k E (fold_left (temp_step k) [CPartials E] None) = Err AttributeError /\
  press_comp_partials k E (fold_left (press_step k) [CPartials E] None) = Err AttributeError.
Proof. split; reflexivity. Qed.

(** ** C22 *)
Theorem C22_temperature k h1 h2 : temp_coeffs k -> h1 <= h2 ->
  compute_temp k h2 (get_masks h2) <= compute_temp k h1 (get_masks h1) /\
  21665/100 <= compute_temp k h1 (get_masks h1).
Proof. intros Hk H. split; [now apply temp_antitone|now apply temp_bounded]. Qed.
Print Assumptions C22_temperature.

Theorem C22_pressure k h1 h2 : pressure_coeffs k -> h1 < h2 -> h2 < (28816/100) / (65/10000) ->
  exists p1 p2, compute_pressure k h1 (get_masks h1) = Some p1 /\ compute_pressure k h2 (get_masks h2) = Some p2 /\
    0 < p2 < p1.
Proof.
  intros Hk H12 H2. destruct (press_decreasing k h1 h2 Hk H12 H2) as [p1 [p2 [E1 [E2 E3]]]].
  destruct (press_positive k h2 Hk H2) as [p [E4 E5]]. exists p1, p2. split; [auto|split; [auto|]].
  rewrite E2 in E4. injection E4 as ->. lra.
Qed.
Print Assumptions C22_pressure.

(** The whole ComputeAtmosphericProperties group, either speed convention:
    every node below 44.3 km whose offset temperature stays positive. *)
Definition T_isa k (E : env) i := compute_temp k (E "fltcond|h" i) (get_masks (E "fltcond|h" i)) + E "fltcond|TempIncrement" i.

(** What running each subsystem writes. *)
Lemma run_Density E : run_comp DensityComp E = put E "fltcond|rho" (fun i => E "fltcond|p" i / Rgas / E "fltcond|T" i).
Proof. reflexivity. Qed.
Lemma run_SoS E : run_comp SpeedOfSoundComp E = put E "fltcond|a" (fun i => sqrt (14/10 * Rgas * E "fltcond|T" i)).
Proof. reflexivity. Qed.
Lemma run_Mach E : run_comp MachNumberComp E = put E "fltcond|M" (fun i => E "fltcond|Utrue" i / E "fltcond|a" i).
Proof. reflexivity. Qed.
Lemma run_TAS E : run_comp TrueAirspeedComp E = put E "fltcond|Utrue" (fun i => E "fltcond|Ueas" i * sqrt (rho_isa / E "fltcond|rho" i)).
Proof. reflexivity. Qed.
Lemma run_EAS E : run_comp EquivalentAirspeedComp E = put E "fltcond|Ueas" (fun i => E "fltcond|Utrue" i * sqrt (E "fltcond|rho" i / rho_isa)).
Proof. reflexivity. Qed.
Lemma run_DynP E : run_comp DynamicPressureComp E = put E "fltcond|q" (fun i => 5/10 * E "fltcond|rho" i * (E "fltcond|Utrue" i) ^ 2).
Proof. reflexivity. Qed.
Lemma put_same E x v i : put E x v x i = v i.
Proof. unfold put. now rewrite String.eqb_refl. Qed.
Lemma put_other E x y v i : String.eqb x y = false -> put E x v y i = E y i.
Proof. intro H. unfold put. now rewrite H. Qed.

Lemma atmos_node kt kp b E i : temp_coeffs kt -> pressure_coeffs kp ->
  E "fltcond|h" i < (28816/100) / (65/10000) -> 0 < T_isa kt E i ->
  let E' := run_atmos kt kp b E in
  E' "fltcond|T" i = T_isa kt E i /\
  compute_pressure kp (E "fltcond|h" i) (get_masks (E "fltcond|h" i)) = Some (E' "fltcond|p" i) /\
  0 < E' "fltcond|p" i /\ 0 < E' "fltcond|rho" i /\
  E' "fltcond|p" i = E' "fltcond|rho" i * (287058/1000) * E' "fltcond|T" i /\
  0 < E' "fltcond|a" i /\ (E' "fltcond|a" i) ^ 2 = 14/10 * (287058/1000) * E' "fltcond|T" i /\
  E' "fltcond|M" i * E' "fltcond|a" i = E' "fltcond|Utrue" i /\
  E' "fltcond|q" i = 1/2 * E' "fltcond|rho" i * (E' "fltcond|Utrue" i) ^ 2 /\
  E' "fltcond|q" i = 1/2 * (1225/1000) * (E' "fltcond|Ueas" i) ^ 2 /\
  (if b then E' "fltcond|Utrue" i = E "fltcond|Utrue" i else E' "fltcond|Ueas" i = E "fltcond|Ueas" i).
Proof.
  intros Ht Hp Hh HT. destruct (press_positive kp _ Hp Hh) as [p [Ep Pp]].
  unfold T_isa in *. set (h := E "fltcond|h" i) in *.
  set (T := compute_temp kt h (get_masks h) + E "fltcond|TempIncrement" i) in *.
  set (rho := p / (287058/1000) / T). set (a := sqrt (14/10 * (287058/1000) * T)).
  assert (HR : 0 < 287058/1000) by lra.
  assert (Hrho : 0 < rho).
  { apply Rdiv_lt_0_compat; auto. apply Rdiv_lt_0_compat; auto. }
  assert (Ha : 0 < a) by (apply sqrt_lt_R0; nra).
  cbv zeta. unfold run_atmos.
  set (E1 := put E "fltcond|T" (snd (temp_comp_compute kt E None))).
  assert (E1h : E1 "fltcond|h" i = h).
  { unfold E1. rewrite ?run_Density, ?run_SoS, ?run_Mach, ?run_TAS, ?run_EAS, ?run_DynP. rewrite put_other by reflexivity. reflexivity. }
  assert (E1Utrue : E1 "fltcond|Utrue" i = E "fltcond|Utrue" i).
  { unfold E1. rewrite ?run_Density, ?run_SoS, ?run_Mach, ?run_TAS, ?run_EAS, ?run_DynP. rewrite put_other by reflexivity. reflexivity. }
  assert (E1Ueas : E1 "fltcond|Ueas" i = E "fltcond|Ueas" i).
  { unfold E1. rewrite ?run_Density, ?run_SoS, ?run_Mach, ?run_TAS, ?run_EAS, ?run_DynP. rewrite put_other by reflexivity. reflexivity. }
  assert (E1T : E1 "fltcond|T" i = T).
  { unfold E1. rewrite ?run_Density, ?run_SoS, ?run_Mach, ?run_TAS, ?run_EAS, ?run_DynP. rewrite put_same. reflexivity. }
  clearbody E1.
  set (E2 := put E1 "fltcond|p" (fun i => num (snd (press_comp_compute kp E1 None) i))).
  assert (E2h : E2 "fltcond|h" i = h).
  { unfold E2. rewrite ?run_Density, ?run_SoS, ?run_Mach, ?run_TAS, ?run_EAS, ?run_DynP. rewrite put_other by reflexivity. exact E1h. }
  assert (E2Utrue : E2 "fltcond|Utrue" i = E "fltcond|Utrue" i).
  { unfold E2. rewrite ?run_Density, ?run_SoS, ?run_Mach, ?run_TAS, ?run_EAS, ?run_DynP. rewrite put_other by reflexivity. exact E1Utrue. }
  assert (E2Ueas : E2 "fltcond|Ueas" i = E "fltcond|Ueas" i).
  { unfold E2. rewrite ?run_Density, ?run_SoS, ?run_Mach, ?run_TAS, ?run_EAS, ?run_DynP. rewrite put_other by reflexivity. exact E1Ueas. }
  assert (E2T : E2 "fltcond|T" i = T).
  { unfold E2. rewrite ?run_Density, ?run_SoS, ?run_Mach, ?run_TAS, ?run_EAS, ?run_DynP. rewrite put_other by reflexivity. exact E1T. }
  assert (E2p : E2 "fltcond|p" i = p).
  { unfold E2. rewrite ?run_Density, ?run_SoS, ?run_Mach, ?run_TAS, ?run_EAS, ?run_DynP. rewrite put_same. unfold press_comp_compute; cbn [snd]; rewrite E1h, Ep; reflexivity. }
  clearbody E2.
  set (E3 := run_comp DensityComp E2).
  assert (E3h : E3 "fltcond|h" i = h).
  { unfold E3. rewrite ?run_Density, ?run_SoS, ?run_Mach, ?run_TAS, ?run_EAS, ?run_DynP. rewrite put_other by reflexivity. exact E2h. }
  assert (E3Utrue : E3 "fltcond|Utrue" i = E "fltcond|Utrue" i).
  { unfold E3. rewrite ?run_Density, ?run_SoS, ?run_Mach, ?run_TAS, ?run_EAS, ?run_DynP. rewrite put_other by reflexivity. exact E2Utrue. }
  assert (E3Ueas : E3 "fltcond|Ueas" i = E "fltcond|Ueas" i).
  { unfold E3. rewrite ?run_Density, ?run_SoS, ?run_Mach, ?run_TAS, ?run_EAS, ?run_DynP. rewrite put_other by reflexivity. exact E2Ueas. }
  assert (E3T : E3 "fltcond|T" i = T).
  { unfold E3. rewrite ?run_Density, ?run_SoS, ?run_Mach, ?run_TAS, ?run_EAS, ?run_DynP. rewrite put_other by reflexivity. exact E2T. }
  assert (E3p : E3 "fltcond|p" i = p).
  { unfold E3. rewrite ?run_Density, ?run_SoS, ?run_Mach, ?run_TAS, ?run_EAS, ?run_DynP. rewrite put_other by reflexivity. exact E2p. }
  assert (E3rho : E3 "fltcond|rho" i = rho).
  { unfold E3. rewrite ?run_Density, ?run_SoS, ?run_Mach, ?run_TAS, ?run_EAS, ?run_DynP. rewrite put_same. unfold Rgas; rewrite E2p, E2T; reflexivity. }
  clearbody E3.
  set (E4 := run_comp SpeedOfSoundComp E3).
  assert (E4h : E4 "fltcond|h" i = h).
  { unfold E4. rewrite ?run_Density, ?run_SoS, ?run_Mach, ?run_TAS, ?run_EAS, ?run_DynP. rewrite put_other by reflexivity. exact E3h. }
  assert (E4Utrue : E4 "fltcond|Utrue" i = E "fltcond|Utrue" i).
  { unfold E4. rewrite ?run_Density, ?run_SoS, ?run_Mach, ?run_TAS, ?run_EAS, ?run_DynP. rewrite put_other by reflexivity. exact E3Utrue. }
  assert (E4Ueas : E4 "fltcond|Ueas" i = E "fltcond|Ueas" i).
  { unfold E4. rewrite ?run_Density, ?run_SoS, ?run_Mach, ?run_TAS, ?run_EAS, ?run_DynP. rewrite put_other by reflexivity. exact E3Ueas. }
  assert (E4T : E4 "fltcond|T" i = T).
  { unfold E4. rewrite ?run_Density, ?run_SoS, ?run_Mach, ?run_TAS, ?run_EAS, ?run_DynP. rewrite put_other by reflexivity. exact E3T. }
  assert (E4p : E4 "fltcond|p" i = p).
  { unfold E4. rewrite ?run_Density, ?run_SoS, ?run_Mach, ?run_TAS, ?run_EAS, ?run_DynP. rewrite put_other by reflexivity. exact E3p. }
  assert (E4rho : E4 "fltcond|rho" i = rho).
  { unfold E4. rewrite ?run_Density, ?run_SoS, ?run_Mach, ?run_TAS, ?run_EAS, ?run_DynP. rewrite put_other by reflexivity. exact E3rho. }
  assert (E4a : E4 "fltcond|a" i = a).
  { unfold E4. rewrite ?run_Density, ?run_SoS, ?run_Mach, ?run_TAS, ?run_EAS, ?run_DynP. rewrite put_same. unfold Rgas; rewrite E3T; reflexivity. }
  clearbody E4.
  destruct b.
  {
  set (V := E "fltcond|Utrue" i * sqrt (rho / (1225/1000))). set (q := 5/10 * rho * (E "fltcond|Utrue" i) ^ 2). set (M := E "fltcond|Utrue" i / a).
  set (E5 := run_comp EquivalentAirspeedComp E4).
  assert (E5h : E5 "fltcond|h" i = h).
  { unfold E5. rewrite ?run_Density, ?run_SoS, ?run_Mach, ?run_TAS, ?run_EAS, ?run_DynP. rewrite put_other by reflexivity. exact E4h. }
  assert (E5Utrue : E5 "fltcond|Utrue" i = E "fltcond|Utrue" i).
  { unfold E5. rewrite ?run_Density, ?run_SoS, ?run_Mach, ?run_TAS, ?run_EAS, ?run_DynP. rewrite put_other by reflexivity. exact E4Utrue. }
  assert (E5Ueas : E5 "fltcond|Ueas" i = V).
  { unfold E5. rewrite ?run_Density, ?run_SoS, ?run_Mach, ?run_TAS, ?run_EAS, ?run_DynP. rewrite put_same. unfold rho_isa; rewrite ?E4Utrue, ?E4Ueas, E4rho; reflexivity. }
  assert (E5T : E5 "fltcond|T" i = T).
  { unfold E5. rewrite ?run_Density, ?run_SoS, ?run_Mach, ?run_TAS, ?run_EAS, ?run_DynP. rewrite put_other by reflexivity. exact E4T. }
  assert (E5p : E5 "fltcond|p" i = p).
  { unfold E5. rewrite ?run_Density, ?run_SoS, ?run_Mach, ?run_TAS, ?run_EAS, ?run_DynP. rewrite put_other by reflexivity. exact E4p. }
  assert (E5rho : E5 "fltcond|rho" i = rho).
  { unfold E5. rewrite ?run_Density, ?run_SoS, ?run_Mach, ?run_TAS, ?run_EAS, ?run_DynP. rewrite put_other by reflexivity. exact E4rho. }
  assert (E5a : E5 "fltcond|a" i = a).
  { unfold E5. rewrite ?run_Density, ?run_SoS, ?run_Mach, ?run_TAS, ?run_EAS, ?run_DynP. rewrite put_other by reflexivity. exact E4a. }
  clearbody E5.
  set (E6 := run_comp DynamicPressureComp E5).
  assert (E6h : E6 "fltcond|h" i = h).
  { unfold E6. rewrite ?run_Density, ?run_SoS, ?run_Mach, ?run_TAS, ?run_EAS, ?run_DynP. rewrite put_other by reflexivity. exact E5h. }
  assert (E6Utrue : E6 "fltcond|Utrue" i = E "fltcond|Utrue" i).
  { unfold E6. rewrite ?run_Density, ?run_SoS, ?run_Mach, ?run_TAS, ?run_EAS, ?run_DynP. rewrite put_other by reflexivity. exact E5Utrue. }
  assert (E6Ueas : E6 "fltcond|Ueas" i = V).
  { unfold E6. rewrite ?run_Density, ?run_SoS, ?run_Mach, ?run_TAS, ?run_EAS, ?run_DynP. rewrite put_other by reflexivity. exact E5Ueas. }
  assert (E6T : E6 "fltcond|T" i = T).
  { unfold E6. rewrite ?run_Density, ?run_SoS, ?run_Mach, ?run_TAS, ?run_EAS, ?run_DynP. rewrite put_other by reflexivity. exact E5T. }
  assert (E6p : E6 "fltcond|p" i = p).
  { unfold E6. rewrite ?run_Density, ?run_SoS, ?run_Mach, ?run_TAS, ?run_EAS, ?run_DynP. rewrite put_other by reflexivity. exact E5p. }
  assert (E6rho : E6 "fltcond|rho" i = rho).
  { unfold E6. rewrite ?run_Density, ?run_SoS, ?run_Mach, ?run_TAS, ?run_EAS, ?run_DynP. rewrite put_other by reflexivity. exact E5rho. }
  assert (E6a : E6 "fltcond|a" i = a).
  { unfold E6. rewrite ?run_Density, ?run_SoS, ?run_Mach, ?run_TAS, ?run_EAS, ?run_DynP. rewrite put_other by reflexivity. exact E5a. }
  assert (E6q : E6 "fltcond|q" i = q).
  { unfold E6. rewrite ?run_Density, ?run_SoS, ?run_Mach, ?run_TAS, ?run_EAS, ?run_DynP. rewrite put_same. rewrite E5rho, E5Utrue; reflexivity. }
  clearbody E6.
  set (E7 := run_comp MachNumberComp E6).
  assert (E7h : E7 "fltcond|h" i = h).
  { unfold E7. rewrite ?run_Density, ?run_SoS, ?run_Mach, ?run_TAS, ?run_EAS, ?run_DynP. rewrite put_other by reflexivity. exact E6h. }
  assert (E7Utrue : E7 "fltcond|Utrue" i = E "fltcond|Utrue" i).
  { unfold E7. rewrite ?run_Density, ?run_SoS, ?run_Mach, ?run_TAS, ?run_EAS, ?run_DynP. rewrite put_other by reflexivity. exact E6Utrue. }
  assert (E7Ueas : E7 "fltcond|Ueas" i = V).
  { unfold E7. rewrite ?run_Density, ?run_SoS, ?run_Mach, ?run_TAS, ?run_EAS, ?run_DynP. rewrite put_other by reflexivity. exact E6Ueas. }
  assert (E7T : E7 "fltcond|T" i = T).
  { unfold E7. rewrite ?run_Density, ?run_SoS, ?run_Mach, ?run_TAS, ?run_EAS, ?run_DynP. rewrite put_other by reflexivity. exact E6T. }
  assert (E7p : E7 "fltcond|p" i = p).
  { unfold E7. rewrite ?run_Density, ?run_SoS, ?run_Mach, ?run_TAS, ?run_EAS, ?run_DynP. rewrite put_other by reflexivity. exact E6p. }
  assert (E7rho : E7 "fltcond|rho" i = rho).
  { unfold E7. rewrite ?run_Density, ?run_SoS, ?run_Mach, ?run_TAS, ?run_EAS, ?run_DynP. rewrite put_other by reflexivity. exact E6rho. }
  assert (E7a : E7 "fltcond|a" i = a).
  { unfold E7. rewrite ?run_Density, ?run_SoS, ?run_Mach, ?run_TAS, ?run_EAS, ?run_DynP. rewrite put_other by reflexivity. exact E6a. }
  assert (E7q : E7 "fltcond|q" i = q).
  { unfold E7. rewrite ?run_Density, ?run_SoS, ?run_Mach, ?run_TAS, ?run_EAS, ?run_DynP. rewrite put_other by reflexivity. exact E6q. }
  assert (E7M : E7 "fltcond|M" i = M).
  { unfold E7. rewrite ?run_Density, ?run_SoS, ?run_Mach, ?run_TAS, ?run_EAS, ?run_DynP. rewrite put_same. rewrite E6a, E6Utrue; reflexivity. }
  clearbody E7.
  rewrite E7T, E7p, E7rho, E7a, E7M, E7q, E7Utrue, E7Ueas.
  split; [reflexivity|]. split; [exact Ep|]. split; [exact Pp|]. split; [exact Hrho|].
  split; [unfold rho; field; lra|]. split; [exact Ha|].
  split; [unfold a; rewrite <- Rsqr_pow2; apply Rsqr_sqrt; nra|]. split; [unfold M; field; lra|]. split; [unfold q; lra|].
  split; [|reflexivity]. unfold q, V.
  rewrite Rpow_mult_distr, <- (Rsqr_pow2 (sqrt _)), Rsqr_sqrt by (apply Rlt_le, Rdiv_lt_0_compat; lra). field. }
  {
  set (V := E "fltcond|Ueas" i * sqrt ((1225/1000) / rho)). set (q := 5/10 * rho * V ^ 2). set (M := V / a).
  set (E5 := run_comp TrueAirspeedComp E4).
  assert (E5h : E5 "fltcond|h" i = h).
  { unfold E5. rewrite ?run_Density, ?run_SoS, ?run_Mach, ?run_TAS, ?run_EAS, ?run_DynP. rewrite put_other by reflexivity. exact E4h. }
  assert (E5Utrue : E5 "fltcond|Utrue" i = V).
  { unfold E5. rewrite ?run_Density, ?run_SoS, ?run_Mach, ?run_TAS, ?run_EAS, ?run_DynP. rewrite put_same. unfold rho_isa; rewrite ?E4Utrue, ?E4Ueas, E4rho; reflexivity. }
  assert (E5Ueas : E5 "fltcond|Ueas" i = E "fltcond|Ueas" i).
  { unfold E5. rewrite ?run_Density, ?run_SoS, ?run_Mach, ?run_TAS, ?run_EAS, ?run_DynP. rewrite put_other by reflexivity. exact E4Ueas. }
  assert (E5T : E5 "fltcond|T" i = T).
  { unfold E5. rewrite ?run_Density, ?run_SoS, ?run_Mach, ?run_TAS, ?run_EAS, ?run_DynP. rewrite put_other by reflexivity. exact E4T. }
  assert (E5p : E5 "fltcond|p" i = p).
  { unfold E5. rewrite ?run_Density, ?run_SoS, ?run_Mach, ?run_TAS, ?run_EAS, ?run_DynP. rewrite put_other by reflexivity. exact E4p. }
  assert (E5rho : E5 "fltcond|rho" i = rho).
  { unfold E5. rewrite ?run_Density, ?run_SoS, ?run_Mach, ?run_TAS, ?run_EAS, ?run_DynP. rewrite put_other by reflexivity. exact E4rho. }
  assert (E5a : E5 "fltcond|a" i = a).
  { unfold E5. rewrite ?run_Density, ?run_SoS, ?run_Mach, ?run_TAS, ?run_EAS, ?run_DynP. rewrite put_other by reflexivity. exact E4a. }
  clearbody E5.
  set (E6 := run_comp DynamicPressureComp E5).
  assert (E6h : E6 "fltcond|h" i = h).
  { unfold E6. rewrite ?run_Density, ?run_SoS, ?run_Mach, ?run_TAS, ?run_EAS, ?run_DynP. rewrite put_other by reflexivity. exact E5h. }
  assert (E6Utrue : E6 "fltcond|Utrue" i = V).
  { unfold E6. rewrite ?run_Density, ?run_SoS, ?run_Mach, ?run_TAS, ?run_EAS, ?run_DynP. rewrite put_other by reflexivity. exact E5Utrue. }
  assert (E6Ueas : E6 "fltcond|Ueas" i = E "fltcond|Ueas" i).
  { unfold E6. rewrite ?run_Density, ?run_SoS, ?run_Mach, ?run_TAS, ?run_EAS, ?run_DynP. rewrite put_other by reflexivity. exact E5Ueas. }
  assert (E6T : E6 "fltcond|T" i = T).
  { unfold E6. rewrite ?run_Density, ?run_SoS, ?run_Mach, ?run_TAS, ?run_EAS, ?run_DynP. rewrite put_other by reflexivity. exact E5T. }
  assert (E6p : E6 "fltcond|p" i = p).
  { unfold E6. rewrite ?run_Density, ?run_SoS, ?run_Mach, ?run_TAS, ?run_EAS, ?run_DynP. rewrite put_other by reflexivity. exact E5p. }
  assert (E6rho : E6 "fltcond|rho" i = rho).
  { unfold E6. rewrite ?run_Density, ?run_SoS, ?run_Mach, ?run_TAS, ?run_EAS, ?run_DynP. rewrite put_other by reflexivity. exact E5rho. }
  assert (E6a : E6 "fltcond|a" i = a).
  { unfold E6. rewrite ?run_Density, ?run_SoS, ?run_Mach, ?run_TAS, ?run_EAS, ?run_DynP. rewrite put_other by reflexivity. exact E5a. }
  assert (E6q : E6 "fltcond|q" i = q).
  { unfold E6. rewrite ?run_Density, ?run_SoS, ?run_Mach, ?run_TAS, ?run_EAS, ?run_DynP. rewrite put_same. rewrite E5rho, E5Utrue; reflexivity. }
  clearbody E6.
  set (E7 := run_comp MachNumberComp E6).
  assert (E7h : E7 "fltcond|h" i = h).
  { unfold E7. rewrite ?run_Density, ?run_SoS, ?run_Mach, ?run_TAS, ?run_EAS, ?run_DynP. rewrite put_other by reflexivity. exact E6h. }
  assert (E7Utrue : E7 "fltcond|Utrue" i = V).
  { unfold E7. rewrite ?run_Density, ?run_SoS, ?run_Mach, ?run_TAS, ?run_EAS, ?run_DynP. rewrite put_other by reflexivity. exact E6Utrue. }
  assert (E7Ueas : E7 "fltcond|Ueas" i = E "fltcond|Ueas" i).
  { unfold E7. rewrite ?run_Density, ?run_SoS, ?run_Mach, ?run_TAS, ?run_EAS, ?run_DynP. rewrite put_other by reflexivity. exact E6Ueas. }
  assert (E7T : E7 "fltcond|T" i = T).
  { unfold E7. rewrite ?run_Density, ?run_SoS, ?run_Mach, ?run_TAS, ?run_EAS, ?run_DynP. rewrite put_other by reflexivity. exact E6T. }
  assert (E7p : E7 "fltcond|p" i = p).
  { unfold E7. rewrite ?run_Density, ?run_SoS, ?run_Mach, ?run_TAS, ?run_EAS, ?run_DynP. rewrite put_other by reflexivity. exact E6p. }
  assert (E7rho : E7 "fltcond|rho" i = rho).
  { unfold E7. rewrite ?run_Density, ?run_SoS, ?run_Mach, ?run_TAS, ?run_EAS, ?run_DynP. rewrite put_other by reflexivity. exact E6rho. }
  assert (E7a : E7 "fltcond|a" i = a).
  { unfold E7. rewrite ?run_Density, ?run_SoS, ?run_Mach, ?run_TAS, ?run_EAS, ?run_DynP. rewrite put_other by reflexivity. exact E6a. }
  assert (E7q : E7 "fltcond|q" i = q).
  { unfold E7. rewrite ?run_Density, ?run_SoS, ?run_Mach, ?run_TAS, ?run_EAS, ?run_DynP. rewrite put_other by reflexivity. exact E6q. }
  assert (E7M : E7 "fltcond|M" i = M).
  { unfold E7. rewrite ?run_Density, ?run_SoS, ?run_Mach, ?run_TAS, ?run_EAS, ?run_DynP. rewrite put_same. rewrite E6a, E6Utrue; reflexivity. }
  clearbody E7.
  rewrite E7T, E7p, E7rho, E7a, E7M, E7q, E7Utrue, E7Ueas.
  split; [reflexivity|]. split; [exact Ep|]. split; [exact Pp|]. split; [exact Hrho|].
  split; [unfold rho; field; lra|]. split; [exact Ha|].
  split; [unfold a; rewrite <- Rsqr_pow2; apply Rsqr_sqrt; nra|]. split; [unfold M; field; lra|]. split; [unfold q; lra|].
  split; [|reflexivity]. unfold q, V.
  rewrite Rpow_mult_distr, <- (Rsqr_pow2 (sqrt _)), Rsqr_sqrt by (apply Rlt_le, Rdiv_lt_0_compat; lra). field. lra. }
Qed.

Theorem C22_density kt kp b E i : temp_coeffs kt -> pressure_coeffs kp ->
  E "fltcond|h" i < (28816/100) / (65/10000) -> - (21665/100) < E "fltcond|TempIncrement" i ->
  let E' := run_atmos kt kp b E in
  0 < E' "fltcond|p" i /\ 0 < E' "fltcond|rho" i /\
  E' "fltcond|p" i = E' "fltcond|rho" i * (287058/1000) * E' "fltcond|T" i.
Proof.
  intros Ht Hp Hh HT. assert (H0 : 0 < T_isa kt E i).
  { unfold T_isa. pose proof (temp_bounded kt (E "fltcond|h" i) Ht). lra. }
  destruct (atmos_node kt kp b E i Ht Hp Hh H0) as [_ [_ [A [B [C _]]]]]. auto.
Qed.
Print Assumptions C22_density.

(** ** C23 *)

(** Flying the true airspeed computed from an equivalent airspeed gives that
    equivalent airspeed back, and conversely, at every positive density. *)
Theorem C23_inverse E E' i : 0 < E "fltcond|rho" i -> E' "fltcond|rho" i = E "fltcond|rho" i ->
  (E' "fltcond|Utrue" i = vcompute TrueAirspeedComp E "fltcond|Utrue" i ->
     vcompute EquivalentAirspeedComp E' "fltcond|Ueas" i = E "fltcond|Ueas" i) /\
  (E' "fltcond|Ueas" i = vcompute EquivalentAirspeedComp E "fltcond|Ueas" i ->
     vcompute TrueAirspeedComp E' "fltcond|Utrue" i = E "fltcond|Utrue" i).
Proof.
  intros H Hr. unfold vcompute, nval, node; simpl. split; intro HU; rewrite HU, Hr; [now apply tas_of_eas|now apply eas_of_tas].
Qed.
Print Assumptions C23_inverse.

Theorem C23_group kt kp (true_airspeed_in : bool) E i : temp_coeffs kt -> pressure_coeffs kp ->
  E "fltcond|h" i < (28816/100) / (65/10000) -> - (21665/100) < E "fltcond|TempIncrement" i ->
  let E' := run_atmos kt kp true_airspeed_in E in
  0 < E' "fltcond|a" i /\ (E' "fltcond|a" i) ^ 2 = 14/10 * (287058/1000) * E' "fltcond|T" i /\
  E' "fltcond|M" i * E' "fltcond|a" i = E' "fltcond|Utrue" i /\
  E' "fltcond|q" i = 1/2 * E' "fltcond|rho" i * (E' "fltcond|Utrue" i) ^ 2 /\
  E' "fltcond|q" i = 1/2 * (1225/1000) * (E' "fltcond|Ueas" i) ^ 2 /\
  (if true_airspeed_in then E' "fltcond|Utrue" i = E "fltcond|Utrue" i
   else E' "fltcond|Ueas" i = E "fltcond|Ueas" i).
Proof.
  intros Ht Hp Hh HT. assert (H0 : 0 < T_isa kt E i).
  { unfold T_isa. pose proof (temp_bounded kt (E "fltcond|h" i) Ht). lra. }
  destruct (atmos_node kt kp true_airspeed_in E i Ht Hp Hh H0) as [_ [_ [_ [_ [_ A]]]]]. exact A.
Qed.
Print Assumptions C23_group.

Theorem C23_partials n E : (0 < n)%nat ->
  (forall i, (i < n)%nat -> 0 < E "fltcond|T" i) ->
  (forall i, (i < n)%nat -> 0 < E "fltcond|rho" i) ->
  (forall i, (i < n)%nat -> E "fltcond|a" i <> 0) ->
  jac_correct n DensityComp E /\ jac_correct n SpeedOfSoundComp E /\ jac_correct n MachNumberComp E /\
  jac_correct n TrueAirspeedComp E /\ jac_correct n EquivalentAirspeedComp E /\ jac_correct n DynamicPressureComp E.
Proof.
  intros Hn HT Hr Ha. split; [apply Density_jac; auto; intros i Hi; specialize (HT i Hi); lra|].
  split; [now apply SoS_jac|]. split; [now apply Mach_jac|]. split; [now apply TAS_jac|].
  split; [now apply EAS_jac|now apply DynP_jac].
Qed.
Print Assumptions C23_partials.

Example C23_hypotheses_met : exists (kt kp : coeffs) (E : env), temp_coeffs kt /\ pressure_coeffs kp /\
  E "fltcond|h" 2%nat < (28816/100) / (65/10000) /\ - (21665/100) < E "fltcond|TempIncrement" 2%nat.
Proof.
  exists (hermite (28816/100 - 65/10000 * h_lower) (21665/100) (- (65/10000)) 0).
  eexists. exists (fun _ i => 11000 + INR i). split; [apply hermite_solves|]. split; [apply hermite_solves|]. simpl. lra.
Qed.
