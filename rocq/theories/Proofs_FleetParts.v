From Coq Require Import Reals List Bool PeanoNat String Lia Lra.
From Verif Require Import Base Py RSum Model_Algebra Model_Vectors Model_Integrals Spec_Integrals Proofs_Integrals
  Model_Atmos Model_Aero Model_Mission Model_Net Proofs_Net Model_Thermal Model_HX Model_Ducts Proofs_Ducts Model_HeatPipe
  Model_Systems Spec_Systems Proofs_Systems Props_Systems Model_Weights Spec_Weights Props_Weights Model_Flight Spec_Flight Proofs_Flight
  Model_Fleet Spec_Fleet Proofs_Fleet Proofs_FleetFlow.
Import ListNotations.
Open Scope R_scope.
Open Scope string_scope.
Open Scope list_scope.

(** ** Areas *)
Lemma even_below n i : method_size Simpson n -> (S i < n)%nat -> Nat.even i = true -> (i + 2 < n)%nat.
Proof.
  intros [Ho H3] Hi He. destruct (Nat.eq_dec (i + 2) n) as [E|]; [|lia].
  apply Nat.odd_spec in Ho. apply Nat.even_spec in He. destruct Ho as [a Ha], He as [b Hb]. lia.
Qed.
Lemma strip_ext n f g i : method_size Simpson n -> (forall j, (j < n)%nat -> f j = g j) -> (S i < n)%nat -> strip f i = strip g i.
Proof.
  intros MS H Hi. unfold strip. destruct (Nat.even i) eqn:E.
  - pose proof (even_below n i MS Hi E). rewrite !H by lia. reflexivity.
  - rewrite !H by lia. reflexivity.
Qed.
Lemma area_ext n f g i : method_size Simpson n -> (forall j, (j < n)%nat -> f j = g j) -> (i < n)%nat -> area f i = area g i.
Proof.
  intros MS H. induction i as [|i IH]; intro Hi; [reflexivity|]. cbn [area]. rewrite IH by lia. now rewrite (strip_ext n f g i MS H Hi).
Qed.
Lemma area_scale c f i : area (fun j => c * f j) i = c * area f i.
Proof. induction i as [|i IH]; cbn [area]; [ring|]. rewrite IH. unfold strip. destruct (Nat.even i); field. Qed.
(** A function that is nowhere negative has a nonnegative area over whole parabolas. *)
Lemma area_nonneg n f a b : method_size Simpson n -> (forall j, (j < n)%nat -> 0 <= f j) -> Nat.even a = true -> Nat.even b = true -> (a <= b < n)%nat ->
  area f a <= area f b.
Proof.
  intros MS H Ha Hb Hab. apply Nat.even_spec in Ha, Hb. destruct Ha as [x ->], Hb as [y ->]. induction y as [|y IH]; [replace x with 0%nat by lia; apply Rle_refl|].
  destruct (Nat.eq_dec x (S y)) as [->|]; [apply Rle_refl|]. eapply Rle_trans; [apply IH; lia|]. replace (2 * S y)%nat with (S (S (2 * y))) by lia. cbn [area]. unfold strip.
  rewrite Nat.even_succ. rewrite <- Nat.negb_even. rewrite Nat.even_mul. cbn [Nat.even orb negb].
  replace (S (2 * y) - 1)%nat with (2 * y)%nat by lia. replace (S (2 * y) + 1)%nat with (2 * y + 2)%nat by lia. replace (S (2 * y)) with (2 * y + 1)%nat by lia.
  pose proof (H (2 * y)%nat ltac:(lia)). pose proof (H (2 * y + 1)%nat ltac:(lia)). pose proof (H (2 * y + 2)%nat ltac:(lia)). lra.
Qed.

(** ** The battery *)
Lemma discharge n X W dS C : method_size Simpson n -> is_inverse (n - 1) simpson_a X ->
  (forall i, (i < n)%nat -> W dS i = - (W (cb_load C) i / capacity C W)) ->
  (forall i, (i < n)%nat -> W "propmodel.batt1.SOC" i = integ_q n (method_tri Simpson n X) (TDuration (W "duration" 0%nat)) false (W "propmodel.batt1.SOC_initial" 0%nat) (W dS) i) ->
  W "propmodel.batt1.SOC_final" 0%nat = integ_q_final n (method_tri Simpson n X) (TDuration (W "duration" 0%nat)) false (W "propmodel.batt1.SOC_initial" 0%nat) (W dS) ->
  charges n C W.
Proof.
  intros MS HX HD HS HF. assert (Hn : (n - 1 < n)%nat) by (destruct MS; lia). constructor.
  - intros HC i Hi. rewrite (HS i Hi), integ_area by auto. cbn [start_value].
    rewrite (area_ext n (W dS) (fun j => - / capacity C W * W (cb_load C) j) i MS); [|intros j Hj; rewrite (HD j Hj); unfold Rdiv; ring|exact Hi].
    rewrite area_scale. field. split; [destruct MS; apply not_0_INR; lia|exact HC].
  - rewrite HF, (HS _ Hn). reflexivity.
Qed.
Lemma fleet_charges kt kp M (D : deck) n X A C p k W : method_size Simpson n -> is_inverse (n - 1) simpson_a X -> In (A, C) (battery_fliers M (method_tri Simpson n X)) ->
  solution (phase_group kt kp (method_tri Simpson n X) n A p k) W -> charges n C W.
Proof.
  intros MS HX I S. set (tri := method_tri Simpson n X) in *.
  assert (HY : forall load h, is_hybrid M tri n A h load -> charges n hybrid_charge W).
  { intros load h HH. destruct (hybrid_in kt kp M D tri n p k W A h load HH S) as (T & ST & SEE & _).
    assert (B : (forall i, (i < n)%nat -> T "batt1.dSOCdt" i = - (T "battery_load" i / (T "ac|weights|W_battery" 0%nat * T "ac|propulsion|battery|specific_energy" 0%nat))) /\
      (forall i, (i < n)%nat -> T "batt1.SOC" i = integ_q n tri (TDuration (T "duration" 0%nat)) false (T "batt1.SOC_initial" 0%nat) (T "batt1.dSOCdt") i) /\
      T "batt1.SOC_final" 0%nat = integ_q_final n tri (TDuration (T "duration" 0%nat)) false (T "batt1.SOC_initial" 0%nat) (T "batt1.dSOCdt")).
    { destruct HH as [(-> & -> & ->)|[(-> & -> & ->)|(-> & -> & ->)]].
      - destruct (hybrid_battery_core M n tri _ "motors_elec_load" T ST (twin_subs M n tri) eq_refl eq_refl eq_refl (twin_dvs M n tri T ST)) as (B1 & B2 & B3). split; [intros i Hi; exact (proj1 (B1 i Hi))|auto].
      - destruct (hybrid_battery_core M n tri _ "motors_elec_load" T ST (thermal_subs M n tri) eq_refl eq_refl eq_refl (thermal_dvs M n tri T ST)) as (B1 & B2 & B3). split; [intros i Hi; exact (proj1 (B1 i Hi))|auto].
      - destruct (hybrid_battery_core M n tri _ "total_elec_load" T ST (refrigerated_subs M n tri) eq_refl eq_refl eq_refl (refrigerated_dvs M n tri T ST)) as (B1 & B2 & B3). split; [intros i Hi; exact (proj1 (B1 i Hi))|auto]. }
    destruct B as (B1 & B2 & B3).
    apply (discharge n X W "propmodel.batt1.dSOCdt" hybrid_charge MS HX); fold tri; unfold capacity; cbn [hybrid_charge cb_load cb_energy].
    - intros i Hi. specialize (B1 i Hi). see SEE T B1. exact B1.
    - intros i Hi. specialize (B2 i Hi). rewrite (SEE "batt1.SOC" _ ltac:(insub)), (SEE "batt1.SOC_initial" _ ltac:(insub)), (SEE "duration" _ ltac:(insub)) in B2. rewrite B2. unfold tri.
      rewrite !integ_area by auto. f_equal. f_equal. apply (area_ext n); auto. intros j _. apply SEE. insub.
    - rewrite (SEE "batt1.SOC_final" _ ltac:(insub)), (SEE "batt1.SOC_initial" _ ltac:(insub)), (SEE "duration" _ ltac:(insub)) in B3. rewrite B3. unfold tri.
      rewrite !integ_final_area by auto. f_equal. f_equal. apply (area_ext n); auto; [|destruct MS; lia]. intros j _. apply SEE. insub. }
  unfold battery_fliers in I. cbn [In] in I. destruct I as [I|[I|[I|[I|[]]]]]; injection I as <- <-.
  - apply (HY _ _ (or_introl (conj eq_refl (conj eq_refl eq_refl)))).
  - apply (HY _ _ (or_intror (or_introl (conj eq_refl (conj eq_refl eq_refl))))).
  - apply (HY _ _ (or_intror (or_intror (conj eq_refl (conj eq_refl eq_refl))))).
  - clear HY. destruct (prop_viewed kt kp tri n (ElectricTBM M tri) p k W M D (AllElectricIncompressible M n tri) _ _
      [("batt1.SOC", "propmodel.batt1.SOC"); ("batt1.SOC_initial", "propmodel.batt1.SOC_initial"); ("batt1.SOC_final", "propmodel.batt1.SOC_final");
       ("batt1.dSOCdt", "propmodel.batt1.dSOCdt"); ("motor1.elec_load", "propmodel.motor1.elec_load"); ("ac|weights|W_battery", "ac|weights|W_battery");
       ("batt1.specific_energy", "propmodel.batt1.specific_energy"); ("duration", "duration")]
      ltac:(insub) S ltac:(intro; insub) ltac:(vm_compute; reflexivity)) as (T & ST & SEE).
    destruct (electric_sys M n tri T (or_intror ST)) as (G & SG & K1 & K2 & K3). destruct (electric_core M n tri G T SG K1 K2 K3) as (_ & _ & B1 & B2 & B3).
    apply (discharge n X W "propmodel.batt1.dSOCdt" _ MS HX); fold tri; unfold capacity; cbn [cb_load cb_energy].
    + intros i Hi. destruct (B1 i Hi) as (_ & _ & _ & E & _). see SEE T E. exact E.
    + intros i Hi. specialize (B2 i Hi). rewrite (SEE "batt1.SOC" _ ltac:(insub)), (SEE "batt1.SOC_initial" _ ltac:(insub)), (SEE "duration" _ ltac:(insub)) in B2. rewrite B2. unfold tri.
      rewrite !integ_area by auto. f_equal. f_equal. apply (area_ext n); auto. intros j _. apply SEE. insub.
    + rewrite (SEE "batt1.SOC_final" _ ltac:(insub)), (SEE "batt1.SOC_initial" _ ltac:(insub)), (SEE "duration" _ ltac:(insub)) in B3. rewrite B3. unfold tri.
      rewrite !integ_final_area by auto. f_equal. f_equal. apply (area_ext n); auto; [|destruct MS; lia]. intros j _. apply SEE. insub.
Qed.
