(** C13, continued: units of the products made by the library's own groups. *)
From Coq Require Import Reals List Bool ZArith String Lia.
From Verif Require Import Base Py Model_Algebra Spec_Algebra Model_HeatPipe Model_Propulsion Model_Weights Model_Drag Model_Systems.
Import ListNotations.
Open Scope string_scope.

(** The output of equation [s] has a unit, and a base unit counted by [w] occurs in it [z] times. *)
Definition has_unit (w : string -> Z) (s : mul_sys) (z : Z) : Prop :=
  exists n ins us ts, mul_resolve s = Ok (n, ins, us) /\ out_units us = Some ts /\ ueval w ts = Some z.
Definition unitless (s : mul_sys) : Prop := exists n ins us, mul_resolve s = Ok (n, ins, us) /\ out_units us = None.

Lemma resolved (s : mul_sys) n vs : read_sizes (ms_vec s) (List.length (ms_ins s)) = Ok (n, vs) -> forallb (fun v => fits v n) vs = true ->
  let divs := match ms_div s with None => repeat false (List.length (ms_ins s)) | Some l => l end in
  let units := match ms_units s with None => repeat None (List.length (ms_ins s)) | Some l => l end in
  List.length divs = List.length (ms_ins s) -> List.length units = List.length (ms_ins s) ->
  mul_resolve s = Ok (n, combine (combine (ms_ins s) vs) divs, combine divs units).
Proof.
  intros R F divs units D U. unfold mul_resolve. fold divs units. rewrite D, U, PeanoNat.Nat.eqb_refl. cbn [negb]. rewrite R. cbn [res_bind fst snd]. rewrite F. reflexivity.
Qed.
Lemma fits_one n : fits 1 n = true. Proof. reflexivity. Qed.
Lemma fits_same n : fits n n = true. Proof. unfold fits. rewrite PeanoNat.Nat.eqb_refl. apply orb_true_r. Qed.
Lemma list_max_nn nn l : (0 < nn)%nat -> (forall x, In x l -> x = 1 \/ x = nn)%nat -> In nn l -> list_max l = nn.
Proof.
  intros Hn H I. apply PeanoNat.Nat.le_antisymm.
  - apply list_max_le. apply List.Forall_forall. intros x Hx. destruct (H x Hx); lia.
  - assert (L := proj1 (list_max_le l (list_max l)) (le_n _)). rewrite List.Forall_forall in L. exact (L nn I).
Qed.

(** Thrusts are forces, fuel flows masses per time, state of charge rates per time, weights
    what the single weight is; drag coefficients and throttles are pure numbers. *)
Theorem C13_library : forall w nn, (0 < nn)%nat -> w "kJ" = (w "W" + w "s")%Z ->
  has_unit w (scale_thrust nn) (w "lbf") /\
  (forall hydrogen, has_unit w (scale_fuel nn hydrogen) (w "lbm" - w "s")) /\
  has_unit w (soc_divider nn) (- w "s") /\
  has_unit w weight_multiplier (w "kg") /\ has_unit w ga_fudge (w "lb") /\ has_unit w engine_multiplier (w "lb") /\
  (forall out a FF Cf Sw k, has_unit w (surface_drag nn out a FF Cf Sw k) 0) /\ (forall Sw, has_unit w (nacelle_drag nn Sw) 0) /\
  unitless (wing_drag nn) /\ (forall out, unitless (active_throttle nn out)).
Proof.
  intros w nn Hn E.
  assert (R : forall s l n, ms_vec s = VList l -> n = nn -> List.length l = List.length (ms_ins s) -> (forall x, In x l -> x = 1 \/ x = nn)%nat -> In nn l ->
     read_sizes (ms_vec s) (List.length (ms_ins s)) = Ok (n, l) /\ forallb (fun v => fits v n) l = true).
  { intros s l n Hv -> Hl H I. split.
    - rewrite Hv. unfold read_sizes. rewrite Hl, PeanoNat.Nat.eqb_refl. cbn [negb]. destruct l as [|y l]; [destruct I|]. rewrite (list_max_nn nn) by assumption. reflexivity.
    - apply forallb_forall. intros x Hx. destruct (H x Hx) as [-> | ->]; [apply fits_one | apply fits_same]. }
  assert (A : forall s l z ts, ms_vec s = VList l -> List.length l = List.length (ms_ins s) -> (forall x, In x l -> x = 1 \/ x = nn)%nat -> In nn l ->
     let divs := match ms_div s with None => repeat false (List.length (ms_ins s)) | Some l => l end in
     let units := match ms_units s with None => repeat None (List.length (ms_ins s)) | Some l => l end in
     List.length divs = List.length (ms_ins s) -> List.length units = List.length (ms_ins s) -> out_units (combine divs units) = Some ts -> ueval w ts = Some z -> has_unit w s z).
  { intros s l z ts Hv Hl H I divs units D U O Z. destruct (R s l nn Hv eq_refl Hl H I) as [R1 R2]. do 4 eexists. split; [apply (resolved s nn l R1 R2 D U)|]. split; [exact O | exact Z]. }
  repeat split.
  - eapply A; try reflexivity; try (cbn; tauto); try (intros x; cbn; intuition auto). cbn; f_equal; lia.
  - intros h. eapply A; try reflexivity; try (cbn; tauto); try (intros x; cbn; intuition auto). cbn; f_equal; lia.
  - eapply A; try reflexivity; try (cbn; tauto); try (intros x; cbn; intuition auto). cbn; rewrite E; f_equal; lia.
  - do 4 eexists. split; [reflexivity|]. split; [reflexivity|]. cbn; f_equal; lia.
  - do 4 eexists. split; [reflexivity|]. split; [reflexivity|]. cbn; f_equal; lia.
  - do 4 eexists. split; [reflexivity|]. split; [reflexivity|]. cbn; f_equal; lia.
  - intros. eapply A; try reflexivity; try (cbn; tauto); try (intros x; cbn; intuition auto). cbn; f_equal; lia.
  - intros. eapply A; try reflexivity; try (cbn; tauto); try (intros x; cbn; intuition auto). cbn; f_equal; lia.
  - destruct (R (wing_drag nn) [1; nn]%nat nn eq_refl eq_refl eq_refl ltac:(intros x; cbn; intuition auto) ltac:(cbn; tauto)) as [R1 R2].
    do 3 eexists. split; [apply (resolved (wing_drag nn) nn _ R1 R2); reflexivity | reflexivity].
  - intros out. do 3 eexists. split; [apply (resolved (active_throttle nn out) nn (repeat nn 2)); try reflexivity | reflexivity]. cbn [repeat forallb]. rewrite fits_same. reflexivity.
Qed.
Print Assumptions C13_library.
(** Lengths, say: an area ratio counts no metres, a weight no seconds. *)
Example C13_library_case : let w u := if String.eqb u "s" then 1%Z else if String.eqb u "kJ" then 1%Z else 0%Z in
  w "kJ" = (w "W" + w "s")%Z /\ has_unit w (soc_divider 3) (-1).
Proof. intros w. split; [reflexivity|]. do 4 eexists. split; [reflexivity|]. split; reflexivity. Qed.
