(** C84: the flow and the surface given to the vortex lattice method. *)
From Coq Require Import Reals List Bool PeanoNat String Lia Lra.
From Verif Require Import Base Py Model_Algebra Model_Atmos Proofs_Atmos Props_Atmos Model_Net Proofs_Net Model_Systems Model_Training Spec_Training Proofs_Training Model_Polar Spec_Polar Proofs_Thermal.
From Coquelicot Require Import Coquelicot.
Import ListNotations.
Open Scope string_scope.
Open Scope list_scope.
Open Scope R_scope.

Theorem C84_connected : forall oas kt kp nx ny user, Model_Net.setup (VLM oas kt kp nx ny user) = Ok (VLM oas kt kp nx ny user).
Proof. reflexivity. Qed.
Print Assumptions C84_connected.

(** The results are those of OpenAeroStruct for the air of the mission at this altitude and
    temperature increment, flown at this Mach number. *)
Theorem C84_analysis : forall oas kt kp nx ny user V, temp_coeffs kt -> pressure_coeffs kp -> solution (VLM oas kt kp nx ny user) V ->
  let h := V "fltcond|h" 0%nat in let M := V "fltcond|M" 0%nat in
  h < (28816/100) / (65/10000) -> - (21665/100) < V "fltcond|TempIncrement" 0%nat ->
  forall mission b i, mission "fltcond|h" i = h -> mission "fltcond|TempIncrement" i = V "fltcond|TempIncrement" 0%nat ->
  let air := run_atmos kt kp b mission in
  let v := M * air "fltcond|a" i in let rho := air "fltcond|rho" i in
  let re := rho * v / (1792398/10^11 - 3329134/10^16 * h) in
  (M = air "fltcond|M" i -> v = air "fltcond|Utrue" i) /\
  0 < rho /\ (0 < M -> 0 < v /\ 0 < re) /\
  forall f o j, In (f, o) [("wing_perf.CD", "fltcond|CD"); ("wing_perf.CL", "fltcond|CL"); ("wing_perf.CDi", "fltcond|CDi"); ("wing_perf.CDv", "fltcond|CDv");
     ("wing_perf.CDw", "fltcond|CDw"); ("wing_perf.Cl", "sectional_CL"); ("aero_states.wing_sec_forces", "panel_forces")] ->
    V o j = oas nx ny (surf_dict user) v rho re M (V "fltcond|alpha" 0%nat) (V "ac|geom|wing|OAS_mesh") (V "ac|geom|wing|toverc") f j.
Proof.
  intros oas kt kp nx ny user V Ht Hp S h M Hh HT mission b i Eh ET air v rho re.
  assert (Tpos : - (21665/100) < mission "fltcond|TempIncrement" i) by (rewrite ET; exact HT).
  assert (Hm : mission "fltcond|h" i < (28816/100) / (65/10000)) by (rewrite Eh; exact Hh).
  destruct (C22_density kt kp b mission i Ht Hp Hm Tpos) as (P1 & P2 & _). destruct (C23_group kt kp b mission i Ht Hp Hm Tpos) as (A1 & _ & A3 & _). fold air in P1, P2, A1, A3. fold rho in P2.
  assert (R1 := sol_rel _ V _ S (or_introl eq_refl)).
  assert (R2 := sol_rel _ V _ S (or_intror (or_introl eq_refl))).
  assert (R3 := sol_rel _ V _ S (or_intror (or_intror (or_introl eq_refl))) "fltcond|rho" Vec _ 0%nat eq_refl (le_n 1)).
  assert (R4 := sol_rel _ V _ S (or_intror (or_intror (or_intror (or_introl eq_refl)))) "fltcond|a" Vec _ 0%nat eq_refl (le_n 1)).
  assert (R5 := sol_rel _ V _ S (or_intror (or_intror (or_intror (or_intror (or_introl eq_refl))))) "Utrue" Vec _ 0%nat eq_refl (le_n 1)).
  assert (R6 := sol_rel _ V _ S (or_intror (or_intror (or_intror (or_intror (or_intror (or_introl eq_refl)))))) "re" Vec _ 0%nat eq_refl (le_n 1)).
  assert (R7 := sol_rel _ V _ S (or_intror (or_intror (or_intror (or_intror (or_intror (or_intror (or_introl eq_refl)))))))).
  assert (ET' : V "temp.fltcond|T" 0%nat = air "fltcond|T" i).
  { etransitivity; [exact R1|]. transitivity (compute_temp kt (mission "fltcond|h" i) (get_masks (mission "fltcond|h" i)) + mission "fltcond|TempIncrement" i); [rewrite Eh, ET; reflexivity|].
    unfold air, run_atmos. destruct b; reflexivity. }
  assert (Ep' : V "pressure.fltcond|p" 0%nat = air "fltcond|p" i).
  { change (compute_pressure kp h (get_masks h) = Some (V "pressure.fltcond|p" 0%nat)) in R2. rewrite <- Eh in R2.
    transitivity (num (compute_pressure kp (mission "fltcond|h" i) (get_masks (mission "fltcond|h" i)))); [rewrite R2; reflexivity|]. unfold air, run_atmos. destruct b; reflexivity. }
  assert (Er : V "density.fltcond|rho" 0%nat = rho).
  { change (V "density.fltcond|rho" 0%nat = V "pressure.fltcond|p" 0%nat / Rgas / V "temp.fltcond|T" 0%nat) in R3. rewrite R3, ET', Ep'. unfold rho, air, run_atmos. destruct b; reflexivity. }
  assert (Ea : V "sound_speed.fltcond|a" 0%nat = air "fltcond|a" i).
  { change (V "sound_speed.fltcond|a" 0%nat = sqrt (14/10 * Rgas * V "temp.fltcond|T" 0%nat)) in R4. rewrite R4, ET'. unfold air, run_atmos. destruct b; reflexivity. }
  assert (Ev : V "airspeed.Utrue" 0%nat = v).
  { change (V "airspeed.Utrue" 0%nat = M * V "sound_speed.fltcond|a" 0%nat) in R5. rewrite R5, Ea. reflexivity. }
  assert (Mu : viscosity h = 1792398/10^11 - 3329134/10^16 * h) by (unfold viscosity; field).
  assert (Ere : V "Re_calc.re" 0%nat = re).
  { change (V "Re_calc.re" 0%nat = V "density.fltcond|rho" 0%nat * V "airspeed.Utrue" 0%nat / viscosity h) in R6. rewrite R6, Er, Ev, Mu. reflexivity. }
  split; [intros EM; unfold v; rewrite EM; exact A3|]. split; [exact P2|]. split.
  - intros HM. assert (Hv : 0 < v) by (unfold v; apply Rmult_lt_0_compat; assumption). split; [exact Hv|]. unfold re. apply Rdiv_lt_0_compat; [now apply Rmult_lt_0_compat|]. lra.
  - intros f o j Ifo. rewrite <- Er, <- Ere, <- Ev. assert (Q := R7 f j (in_map fst aero_outs (f, o) Ifo)). cbn [In] in Ifo. destruct Ifo as [E | [E | [E | [E | [E | [E | [E | []]]]]]]]; injection E as <- <-; exact Q.
Qed.
Print Assumptions C84_analysis.
(** Both meshes OpenAeroStruct reads, that of the geometry and that of the lattice, are the given one. *)
Theorem C84_one_mesh : forall oas kt kp nx ny user V i,
  let G := VLM oas kt kp nx ny user in let point := aero_point_sub oas nx ny user in In point (g_subs G) /\
  reads G point V "wing.def_mesh" i = V "ac|geom|wing|OAS_mesh" i /\ reads G point V "aero_states.wing_def_mesh" i = V "ac|geom|wing|OAS_mesh" i.
Proof. intros. split; [do 6 right; left; reflexivity|]. split; reflexivity. Qed.
Print Assumptions C84_one_mesh.

(** ** Surface options *)
Lemma put_assoc s k v k' : assoc k' (put_key s k v) = if String.eqb k' k then Some v else assoc k' s.
Proof.
  induction s as [|[a w] s IH]; cbn [put_key assoc].
  - reflexivity.
  - destruct (String.eqb_spec a k) as [->|N]; cbn [assoc].
    + destruct (String.eqb k' k); reflexivity.
    + rewrite IH. destruct (String.eqb_spec k' a) as [->|]; [|reflexivity]. destruct (String.eqb_spec a k); [contradiction|reflexivity].
Qed.
Lemma puts_assoc u : forall s k, is_dict u -> assoc k (fold_left (fun s e => put_key s (fst e) (snd e)) u s) = match assoc k u with Some v => Some v | None => assoc k s end.
Proof.
  induction u as [|[a w] u IH]; intros s k D; [reflexivity|]. inversion D as [|? ? N D']; subst. cbn [fold_left fst snd]. rewrite IH by exact D'. cbn [assoc]. rewrite put_assoc.
  destruct (String.eqb_spec k a) as [->|]; [|reflexivity].
  destruct (assoc a u) as [w'|] eqn:E; [|reflexivity]. exfalso. apply N. apply assoc_in in E. apply (in_map fst) in E. exact E.
Qed.
(** The options of the user replace the defaults; the others keep them. *)
Theorem C84_options : forall u k, is_dict u ->
  assoc k (surf_dict None) = assoc k default_surf /\
  assoc k (surf_dict (Some u)) = match assoc k u with Some v => Some v | None => assoc k default_surf end.
Proof. intros u k D. split; [reflexivity|]. apply puts_assoc. exact D. Qed.
Print Assumptions C84_options.

(** Only what the option is about changes: the same options in another order, or the defaults
    written out, give the same surface. *)
Theorem C84_options_order : forall u u', is_dict u -> is_dict u' -> same_dict u u' -> same_dict (surf_dict (Some u)) (surf_dict (Some u')).
Proof. intros u u' D D' S k. rewrite (proj2 (C84_options u k D)), (proj2 (C84_options u' k D')), (S k). reflexivity. Qed.
Print Assumptions C84_options_order.

(** The hypotheses are met: sea level on a standard day, Mach 1/2, any analysis. *)
Example C84_case : forall oas user, exists kt kp V, temp_coeffs kt /\ pressure_coeffs kp /\ solution (VLM oas kt kp 2 4 user) V /\
  V "fltcond|h" 0%nat = 0 /\ V "fltcond|M" 0%nat = 1/2 /\ V "fltcond|TempIncrement" 0%nat = 0.
Proof.
  intros oas user. destruct coeffs_exist as [[kt Ht] [kp Hp]]. exists kt, kp.
  set (x := fun (k : string) (_ : nat) => if String.eqb k "fltcond|M" then 1/2 else 0 : R).
  assert (H0 : 0 < (28816/100) / (65/10000)) by lra. destruct (press_positive kp 0 Hp H0) as [p [Ep Pp]].
  set (T := compute_temp kt 0 (get_masks 0) + 0). set (rho := p / Rgas / T). set (a := sqrt (14/10 * Rgas * T)). set (v := 1/2 * a). set (re := rho * v / viscosity 0).
  set (out := fun f => oas 2%nat 4%nat (surf_dict user) v rho re (1/2) 0 (x "ac|geom|wing|OAS_mesh") (x "ac|geom|wing|toverc") f).
  set (V := fun k => match assoc k [("temp.fltcond|T", fun _ : nat => T); ("pressure.fltcond|p", fun _ => p); ("density.fltcond|rho", fun _ => rho); ("sound_speed.fltcond|a", fun _ => a);
     ("airspeed.Utrue", fun _ => v); ("Re_calc.re", fun _ => re); ("fltcond|CD", out "wing_perf.CD"); ("fltcond|CL", out "wing_perf.CL"); ("fltcond|CDi", out "wing_perf.CDi");
     ("fltcond|CDv", out "wing_perf.CDv"); ("fltcond|CDw", out "wing_perf.CDw"); ("sectional_CL", out "wing_perf.Cl"); ("panel_forces", out "aero_states.wing_sec_forces")] with Some f => f | None => x k end).
  exists V. split; [exact Ht|]. split; [exact Hp|]. split; [|repeat split; reflexivity].
  intros s [<- | [<- | [<- | [<- | [<- | [<- | [<- | []]]]]]]].
  - reflexivity.
  - change (compute_pressure kp 0 (get_masks 0) = Some p). exact Ep.
  - intros f k F i E Hi. cbn in E. destruct (String.eqb_spec f "fltcond|rho") as [->|N]; [|discriminate E]. injection E as <- <-. reflexivity.
  - intros f k F i E Hi. cbn in E. destruct (String.eqb_spec f "fltcond|a") as [->|N]; [|discriminate E]. injection E as <- <-. reflexivity.
  - intros f k F i E Hi. cbn in E. destruct (String.eqb_spec f "Utrue") as [->|N]; [|discriminate E]. injection E as <- <-. reflexivity.
  - intros f k F i E Hi. cbn in E. destruct (String.eqb_spec f "re") as [->|N]; [|discriminate E]. injection E as <- <-. reflexivity.
  - intros f i Hf. cbn [map fst aero_outs In] in Hf. destruct Hf as [<- | [<- | [<- | [<- | [<- | [<- | [<- | []]]]]]]]; reflexivity.
Qed.
Example C84_options_case : is_dict [("with_wave", SBool false); ("k_lam", SNum 1)] /\ assoc "with_wave" (surf_dict (Some [("with_wave", SBool false)])) = Some (SBool false) /\
  assoc "with_viscous" (surf_dict (Some [("with_wave", SBool false)])) = Some (SBool true).
Proof. split; [|split; reflexivity]. repeat constructor; cbn; intuition discriminate. Qed.

(** Derivatives of the speed and of the Reynolds number, where the viscosity is not 0. *)
Theorem C84_partials : forall n E, (0 < n)%nat -> jac_correct n Airspeed E /\
  ((forall i, (i < n)%nat -> 1792398/10^11 - 3329134/10^16 * E "h" i <> 0) -> jac_correct n UnitReynolds E).
Proof.
  intros n E Hn. split.
  - to_node. generalize (node Airspeed E i). intros e. split_jac Airspeed; auto_derive; auto; ring.
  - to_node. change (E "h" i) with (node UnitReynolds E i "h") in *. generalize dependent (node UnitReynolds E i). intros e He.
    assert (Hv : viscosity (e "h") <> 0) by (intros Z; apply He; unfold viscosity in Z; lra).
    unfold viscosity in Hv. split_jac UnitReynolds; unfold viscosity; (auto_derive; [auto|]). all: try match goal with |- ?a = ?b => change (@eq R a b) end. all: cbn; field; intros Z; apply He; cbn; lra.
Qed.
Print Assumptions C84_partials.
