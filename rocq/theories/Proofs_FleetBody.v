From Coq Require Import Reals List Bool PeanoNat String FunctionalExtensionality Lia Lra.
From Verif Require Import Base Py RSum Model_Algebra Model_Vectors Model_Integrals Spec_Integrals Proofs_Integrals
  Model_Atmos Model_Aero Model_Mission Model_Net Proofs_Net Model_Thermal Model_HX Model_Ducts Proofs_Ducts Model_HeatPipe
  Model_Systems Spec_Systems Proofs_Systems Props_Systems Model_Weights Spec_Weights Props_Weights Model_Flight Spec_Flight Proofs_Flight
  Model_Fleet Spec_Fleet Proofs_Fleet Proofs_FleetFlow.
Import ListNotations.
Open Scope R_scope.
Open Scope string_scope.
Open Scope list_scope.

Definition kind_word (p : string) : string := if in_list p ["v0v1"; "v1v0"; "v1vr"; "rotate"] then "v0v1" else "climb".
Lemma kind_model M D tri A n p : In A (fleet M D tri) -> ac_model A n p = ac_model A n (kind_word p).
Proof.
  intro I. cbn [fleet In] in I. assert (C : cd0_source p = cd0_source (kind_word p)).
  { unfold cd0_source, kind_word. destruct (in_list p _); reflexivity. }
  assert (C2 : in_list p ["v0v1"; "v1v0"; "v1vr"; "rotate"] = in_list (kind_word p) ["v0v1"; "v1v0"; "v1vr"; "rotate"]).
  { unfold kind_word. destruct (in_list p _) eqn:E; [rewrite <- E|]; rewrite ?E; reflexivity. }
  repeat (destruct I as [<-|I]; [first [reflexivity|
    cbn [TBM850 Caravan KingAir HybridTwin HybridTwinThermal HybridTwinActive ElectricTBM B738 SizedB738 ac_model];
    unfold TBM850Model, CaravanModel, KingAirModel, HybridTwinModel, HybridTwinThermalModel, HybridTwinActiveModel, ElectricTBMModel, B738Model, SizedModel, polar;
    first [rewrite C|rewrite C2]; reflexivity]|]). contradiction.
Qed.
Lemma drag_at G U nn pin pout d cd i : solution G U -> In (comp nn "drag" (PolarDrag false) pin pout) (g_subs G) -> (i < nn)%nat ->
  gname "drag" pout "drag" = d -> source G (gname "drag" pin "CD0") = cd -> source G (gname "drag" pin "e") = "ac|aero|polar|e" ->
  forallb (fun x => String.eqb (source G (gname "drag" pin x)) x) ["fltcond|q"; "fltcond|CL"; "ac|geom|wing|S_ref"; "ac|geom|wing|AR"] = true ->
  U d i = parabolic_drag (U "fltcond|q" i) (U "ac|geom|wing|S_ref" 0%nat) (U cd 0%nat) (U "ac|aero|polar|e" 0%nat) (U "ac|geom|wing|AR" 0%nat) (U "fltcond|CL" i).
Proof.
  intros S I Hi <- <- Ee F. rewrite forallb_forall in F.
  assert (F' : forall x, In x ["fltcond|q"; "fltcond|CL"; "ac|geom|wing|S_ref"; "ac|geom|wing|AR"] -> source G (gname "drag" pin x) = x) by (intros x Hx; apply String.eqb_eq; auto).
  pose proof (sol_comp G U nn "drag" (PolarDrag false) pin pout "drag" _ _ i S I eq_refl Hi) as H. rewrite H.
  unfold node. cbn [PolarDrag pc_ins assoc String.eqb Ascii.eqb Bool.eqb].
  rewrite (F' "fltcond|q") by inlist. rewrite (F' "fltcond|CL") by inlist. rewrite (F' "ac|geom|wing|S_ref") by inlist. rewrite (F' "ac|geom|wing|AR") by inlist. rewrite Ee.
  unfold parabolic_drag, Rdiv. rewrite !Rinv_mult. ring.
Qed.
(** Where the drag of the polar is found: in the thermal twins that of the duct is added to it. *)
Definition polar_name (M : maps) (D : deck) (tri : mat) : list (aircraft * string) :=
  [(TBM850 M tri, "drag"); (Caravan M tri, "drag"); (KingAir M tri, "drag"); (HybridTwin M tri, "drag"); (ElectricTBM M tri, "drag"); (B738 D tri, "drag");
   (HybridTwinThermal M tri, "drag.drag"); (HybridTwinActive M tri, "drag.drag")].
Lemma polar_fleet M D tri A d : In (A, d) (polar_name M D tri) -> In A (fleet M D tri).
Proof. intro I. apply (in_map fst) in I. cbn [fst polar_name map] in I. unfold fleet. cbn [In] in *. tauto. Qed.
Lemma fleet_polar kt kp M D tri n A d p k W i : In (A, d) (polar_name M D tri) -> solution (phase_group kt kp tri n A p k) W -> (i < n)%nat -> (p = "groundroll" -> k = GroundP) ->
  W d i = phase_drag p W i.
Proof.
  intros I S Hi Hk. destruct (acmodel_in _ _ _ _ _ _ _ _ S) as (U & SU & SEE). rewrite (kind_model M D tri) in SU, SEE by (eapply polar_fleet; eauto).
  assert (R : phase_CD0 p W = W (cd0_source (kind_word (told p k))) 0%nat).
  { unfold phase_CD0. replace (cd0_source (kind_word (told p k))) with (if in_list p ["groundroll"; "v0v1"; "v1v0"; "v1vr"; "rotate"] then "ac|aero|polar|CD0_TO" else "ac|aero|polar|CD0_cruise");
      [destruct (in_list p _); reflexivity|].
    destruct (String.eqb_spec p "groundroll") as [->|N]; [rewrite (Hk eq_refl); reflexivity|].
    assert (T : told p k = p) by (unfold told; apply String.eqb_neq in N; rewrite N; now destruct k). rewrite T. unfold cd0_source, kind_word.
    change (in_list p ["groundroll"; "v0v1"; "v1v0"; "v1vr"; "rotate"]) with (String.eqb p "groundroll" || in_list p ["v0v1"; "v1v0"; "v1vr"; "rotate"])%bool.
    apply String.eqb_neq in N. rewrite N. cbn [orb]. destruct (in_list p ["v0v1"; "v1v0"; "v1vr"; "rotate"]); reflexivity. }
  unfold phase_drag. rewrite R. clear R.
  assert (K : kind_word (told p k) = "v0v1" \/ kind_word (told p k) = "climb") by (unfold kind_word; destruct (in_list _ _); auto).
  assert (Q : forall cd, cd = cd0_source (kind_word (told p k)) ->
    forallb (fun x => ac_sees (ac_times A) (ac_model A n (kind_word (told p k))) x x) [d; "fltcond|q"; "fltcond|CL"; "ac|geom|wing|S_ref"; "ac|geom|wing|AR"; "ac|aero|polar|e"; cd] = true ->
    U d i = parabolic_drag (U "fltcond|q" i) (U "ac|geom|wing|S_ref" 0%nat) (U cd 0%nat) (U "ac|aero|polar|e" 0%nat) (U "ac|geom|wing|AR" 0%nat) (U "fltcond|CL" i) ->
    W d i = parabolic_drag (W "fltcond|q" i) (W "ac|geom|wing|S_ref" 0%nat) (W (cd0_source (kind_word (told p k))) 0%nat) (W "ac|aero|polar|e" 0%nat) (W "ac|geom|wing|AR" 0%nat) (W "fltcond|CL" i)).
  { intros cd <- F E. rewrite forallb_forall in F.
    assert (EQ : forall x, In x [d; "fltcond|q"; "fltcond|CL"; "ac|geom|wing|S_ref"; "ac|geom|wing|AR"; "ac|aero|polar|e"; cd] -> forall j, U x j = W x j) by (intros x Hx j; apply SEE; auto).
    repeat match type of E with context [U ?x _] => rewrite (EQ x ltac:(insub)) in E end. exact E. }
  unfold polar_name in I. cbn [In] in I.
  repeat (destruct I as [I|I]; [injection I as <- <-; destruct K as [K|K]; rewrite K in *; (apply (Q _ eq_refl); [vm_compute; reflexivity|]);
    (eapply drag_at; [exact SU|insub|exact Hi|reflexivity|reflexivity|reflexivity|reflexivity])|]). contradiction.
Qed.

(** ** Empty weight *)
Lemma converted_in units G U name h pin pout : solution G U -> In (converted units (subgroup name h pin pout)) (g_subs G) ->
  exists T, solution h T /\ (forall x i, In x (free_ins h) -> T x i = U (source G (gname name pin x)) i / units x) /\
    (forall y i, In y (group_outs h) -> T y i = U (gname name pout y) i / units y).
Proof. intros S I. exact (sol_rel _ _ _ S I). Qed.
Definition oew_pin : list promo := [P "*"; As "P_TO" "ac|propulsion|engine|rating"].
Definition oew_name (g h : group) (pout : list promo) (x : string) : string :=
  if mem x (group_outs h) then gname "OEW" pout x else source g (gname "OEW" oew_pin x).
Definition oew_view (A : aircraft) (n : nat) (h : group) (pout : list promo) (L : list (string * string)) : bool :=
  let vars := group_outs h ++ free_ins h in
  forallb (fun p => let g := ac_model A n p in forallb (fun c => mem (fst c) vars && ac_sees (ac_times A) g (oew_name g h pout (fst c)) (snd c)) L) ["v0v1"; "climb"].
Lemma oew_viewed kt kp tri n A p k W M D h pout L : In A (fleet M D tri) -> solution (phase_group kt kp tri n A p k) W ->
  (forall q, In (empty_weight h pout) (g_subs (ac_model A n q))) -> oew_view A n h pout L = true ->
  exists S, solution h S /\ forall x y, In (x, y) L -> forall i, S x i = W y i / ga_units x.
Proof.
  intros I S IS H. destruct (acmodel_in _ _ _ _ _ _ _ _ S) as (U & SU & SEE).
  destruct (converted_in _ _ _ _ _ _ _ SU (IS _)) as (T & ST & HI & HO). exists T. split; [exact ST|]. intros x y Hx i.
  unfold oew_view in H. cbn [forallb] in H. rewrite !andb_true_iff in H. destruct H as (H1 & H2 & _). rewrite forallb_forall in H1, H2.
  specialize (H1 _ Hx). specialize (H2 _ Hx). cbn [fst snd] in H1, H2. rewrite andb_true_iff in H1, H2. destruct H1 as [V1 H1], H2 as [_ H2].
  assert (K : ac_sees (ac_times A) (ac_model A n (told p k)) (oew_name (ac_model A n (told p k)) h pout x) y = true).
  { destruct (two_kinds M D tri A n (told p k) I) as [E|E]; rewrite E; assumption. }
  rewrite <- (SEE _ _ i K). unfold oew_name. destruct (mem x (group_outs h)) eqn:E.
  - apply HO. now apply mem_In.
  - apply HI. apply mem_In in V1. apply in_app_or in V1. destruct V1 as [V1|V1]; [|exact V1]. apply mem_In in V1. congruence.
Qed.
Definition ga_names : list string := [wS; Wfuel; wAR; wsweep; qcr; wtaper; wtc; MTOW; fS; harm; fL; fH; fW; vS; hS; MLW; mgL; ngL; npax].
Lemma ga_weight_ext pt v w : (forall x, In x ("P_TO" :: pt ++ ga_names) -> v x = w x) -> ga_empty_weight pt v = ga_empty_weight pt w.
Proof.
  intro H. assert (G : forall x, In x ga_names -> v x = w x) by (intros x Hx; apply H; right; apply in_or_app; now right).
  assert (P : v "P_TO" = w "P_TO") by (apply H; now left).
  unfold ga_empty_weight, ga_structure_weight, ga_fuel_system_weight. cbv zeta.
  rewrite P. rewrite (G wS) by inlist. rewrite (G Wfuel) by inlist. rewrite (G wAR) by inlist. rewrite (G wsweep) by inlist. rewrite (G qcr) by inlist.
  rewrite (G wtaper) by inlist. rewrite (G wtc) by inlist. rewrite (G MTOW) by inlist. rewrite (G fS) by inlist. rewrite (G harm) by inlist. rewrite (G fL) by inlist.
  rewrite (G fH) by inlist. rewrite (G fW) by inlist. rewrite (G vS) by inlist. rewrite (G hS) by inlist. rewrite (G MLW) by inlist. rewrite (G mgL) by inlist.
  rewrite (G ngL) by inlist. rewrite (G npax) by inlist. f_equal. f_equal.
  assert (F : forall x, In x pt -> v x = w x) by (intros x Hx; apply H; right; apply in_or_app; now left).
  clear - F. induction pt as [|x pt IH]; [reflexivity|]. cbn [fold_right]. rewrite (F x) by (now left). rewrite IH; [reflexivity|]. intros; apply F; now right.
Qed.
Definition same_list : list (string * string) := map (fun x => (x, x)) ga_names.
(** One lemma for all: [pt] the powertrain's names with the phase's names for them. *)
Lemma oew_value kt kp tri n A p k W M D h pout (pt : list (string * string)) out parts : In A (fleet M D tri) -> solution (phase_group kt kp tri n A p k) W ->
  (forall q, In (empty_weight h pout) (g_subs (ac_model A n q))) ->
  oew_view A n h pout (("OEW", out) :: ("P_TO", "ac|propulsion|engine|rating") :: pt ++ same_list) = true ->
  (forall T, solution h T -> 0 < T Wfuel 0%nat -> 0 < T "P_TO" 0%nat -> T "OEW" 0%nat = ga_empty_weight (map fst pt) (fun x => T x 0%nat)) ->
  0 < W Wfuel 0%nat -> 0 < W "ac|propulsion|engine|rating" 0%nat ->
  assoc "P_TO" parts = Some (W "ac|propulsion|engine|rating" 0%nat) ->
  (forall x y, In (x, y) pt -> assoc x parts = Some (W y 0%nat)) -> (forall x, In x ga_names -> assoc x parts = None) ->
  W out 0%nat = pound * ga_empty_weight (map fst pt) (ga_inputs W parts).
Proof.
  intros I S IS HV HT HF HP P0 P1 P2. destruct (oew_viewed kt kp tri n A p k W M D h pout _ I S IS HV) as (T & ST & SEE).
  assert (PP : 0 < pound) by (unfold pound; lra). assert (HH : 0 < hp) by (unfold hp; lra).
  assert (SG : forall x, In x ga_names -> forall i, T x i = W x i / ga_units x).
  { intros x Hx i. apply SEE. right. right. apply in_or_app. right. unfold same_list. apply in_map_iff. exists x. auto. }
  pose proof (HT T ST) as E. rewrite (SG Wfuel ltac:(inlist)), (SEE "P_TO" _ ltac:(right; left; reflexivity)), (SEE "OEW" _ ltac:(left; reflexivity)) in E.
  assert (U1 : ga_units Wfuel = pound) by reflexivity. assert (U2 : ga_units "P_TO" = hp) by reflexivity. assert (U3 : ga_units "OEW" = pound) by reflexivity.
  rewrite U1, U2, U3 in E. specialize (E ltac:(apply Rdiv_lt_0_compat; auto) ltac:(apply Rdiv_lt_0_compat; auto)).
  rewrite (ga_weight_ext (map fst pt) (fun x => T x 0%nat) (ga_inputs W parts)) in E.
  - rewrite <- E. field. lra.
  - intros x Hx. cbn [In] in Hx. unfold ga_inputs. destruct Hx as [<-|Hx].
    + rewrite P0. apply SEE. right. left. reflexivity.
    + apply in_app_or in Hx. destruct Hx as [Hx|Hx]; [|rewrite (P2 x Hx); now apply SG].
      apply in_map_iff in Hx. destruct Hx as ([a b] & <- & Hx). cbn [fst]. rewrite (P1 a b Hx). apply SEE. right. right. apply in_or_app. now left.
Qed.

Section Body.
Context (kt kp : coeffs) (M : maps) (D : deck) (tri : mat) (nn : nat) (p : string) (k : pkind) (W : env).
Notation flies A := (solution (phase_group kt kp tri nn A p k) W).
Ltac two H := intros x y H; cbn [In] in H; repeat (destruct H as [H|H]; [injection H as <- <-; reflexivity|]); contradiction.
Ltac nones := intros x Hx; cbn [ga_names In] in Hx; repeat (destruct Hx as [<-|Hx]; [reflexivity|]); contradiction.
Lemma turboprop_oew A : In A [TBM850 M tri; Caravan M tri] -> flies A -> (0 < nn)%nat ->
  0 < W "ac|weights|W_fuel_max" 0%nat -> 0 < W "ac|propulsion|engine|rating" 0%nat ->
  let R := W "ac|propulsion|engine|rating" 0%nat in
  W "OEW" 0%nat = pound * turboprop_empty_weight (ga_inputs W [("P_TO", R); ("W_engine", engine_weight R); ("W_propeller", propeller_weight R (W "ac|propulsion|propeller|diameter" 0%nat))]).
Proof.
  intros I S Hn HF HP R.
  assert (E : W "OEW" 0%nat = pound * turboprop_empty_weight (ga_inputs W [("P_TO", R); ("W_engine", W "propmodel.eng1.component_weight" 0%nat); ("W_propeller", W "propmodel.prop1.component_weight" 0%nat)])).
  { destruct I as [<-|[<-|[]]].
    - apply (oew_value kt kp tri nn (TBM850 M tri) p k W M D SingleTurboPropEmptyWeight [P "OEW"] [("W_engine", "propmodel.eng1.component_weight"); ("W_propeller", "propmodel.prop1.component_weight")] "OEW");
        [insub|exact S|intro; insub|vm_compute; reflexivity|exact C67_turboprop|exact HF|exact HP|reflexivity|two Hx|nones].
    - apply (oew_value kt kp tri nn (Caravan M tri) p k W M D SingleTurboPropEmptyWeight [P "OEW"] [("W_engine", "propmodel.eng1.component_weight"); ("W_propeller", "propmodel.prop1.component_weight")] "OEW");
        [insub|exact S|intro; insub|vm_compute; reflexivity|exact C67_turboprop|exact HF|exact HP|reflexivity|two Hx|nones]. }
  rewrite E. destruct I as [<-|[<-|[]]].
  - destruct (tbm_flow kt kp M D tri nn p k W 0%nat S Hn) as (_ & _ & -> & ->). reflexivity.
  - destruct (caravan_flow kt kp M D tri nn p k W 0%nat S Hn) as (_ & _ & -> & ->). reflexivity.
Qed.
Lemma kingair_oew : flies (KingAir M tri) -> (0 < nn)%nat -> 0 < W "ac|weights|W_fuel_max" 0%nat -> 0 < W "ac|propulsion|engine|rating" 0%nat ->
  let R := W "ac|propulsion|engine|rating" 0%nat in
  W "OEW" 0%nat = pound * turboprop_empty_weight (ga_inputs W [("P_TO", R); ("W_engine", 2 * engine_weight R); ("W_propeller", 2 * propeller_weight R (W "ac|propulsion|propeller|diameter" 0%nat))]).
Proof.
  intros S Hn HF HP R. unfold R. destruct (kingair_flow kt kp M D tri nn p k W 0%nat S Hn) as (_ & _ & <- & <-).
  apply (oew_value kt kp tri nn (KingAir M tri) p k W M D SingleTurboPropEmptyWeight [P "OEW"] [("W_engine", "propmodel.engines_weight"); ("W_propeller", "propmodel.propellers_weight")] "OEW");
    [insub|exact S|intro; insub|vm_compute; reflexivity|exact C67_turboprop|exact HF|exact HP|reflexivity|two Hx|nones].
Qed.
Definition hybrid_bare : R :=
  let eng := W "ac|propulsion|engine|rating" 0%nat in let mot := W "ac|propulsion|motor|rating" 0%nat in
  pound * hybrid_empty_weight (ga_inputs W [("P_TO", eng); ("W_engine", engine_weight eng); ("W_motors", 2 * machine_weight mot);
    ("W_generator", machine_weight (W "ac|propulsion|generator|rating" 0%nat)); ("W_propeller", 2 * propeller_weight mot (W "ac|propulsion|propeller|diameter" 0%nat))]).
Definition hybrid_pt : list (string * string) :=
  [("W_engine", "propmodel.eng1.component_weight"); ("W_motors", "propmodel.motors_weight"); ("W_generator", "propmodel.gen1.component_weight"); ("W_propeller", "propmodel.propellers_weight")].
Lemma hybrid_oew : flies (HybridTwin M tri) -> 0 < W "ac|weights|W_fuel_max" 0%nat -> 0 < W "ac|propulsion|engine|rating" 0%nat -> W "OEW" 0%nat = hybrid_bare.
Proof.
  intros S HF HP. unfold hybrid_bare. cbv zeta.
  destruct (hybrid_weigh kt kp M D tri nn p k W _ _ _ (or_introl (conj eq_refl (conj eq_refl eq_refl))) S) as (<- & <- & <- & <-).
  apply (oew_value kt kp tri nn (HybridTwin M tri) p k W M D TwinSeriesHybridEmptyWeight [P "OEW"] hybrid_pt "OEW");
    [insub|exact S|intro; insub|vm_compute; reflexivity|exact C67_hybrid|exact HF|exact HP|reflexivity|two Hx|nones].
Qed.
Lemma thermal_bare A : In A [HybridTwinThermal M tri; HybridTwinActive M tri] -> flies A -> 0 < W "ac|weights|W_fuel_max" 0%nat -> 0 < W "ac|propulsion|engine|rating" 0%nat -> W "OEW.OEW" 0%nat = hybrid_bare.
Proof.
  intros I S HF HP. unfold hybrid_bare. cbv zeta. destruct I as [<-|[<-|[]]].
  - destruct (hybrid_weigh kt kp M D tri nn p k W _ _ _ (or_intror (or_introl (conj eq_refl (conj eq_refl eq_refl)))) S) as (<- & <- & <- & <-).
    apply (oew_value kt kp tri nn (HybridTwinThermal M tri) p k W M D TwinSeriesHybridEmptyWeight [] hybrid_pt "OEW.OEW");
      [insub|exact S|intro; insub|vm_compute; reflexivity|exact C67_hybrid|exact HF|exact HP|reflexivity|two Hx|nones].
  - destruct (hybrid_weigh kt kp M D tri nn p k W _ _ _ (or_intror (or_intror (conj eq_refl (conj eq_refl eq_refl)))) S) as (<- & <- & <- & <-).
    apply (oew_value kt kp tri nn (HybridTwinActive M tri) p k W M D TwinSeriesHybridEmptyWeight [] hybrid_pt "OEW.OEW");
      [insub|exact S|intro; insub|vm_compute; reflexivity|exact C67_hybrid|exact HF|exact HP|reflexivity|two Hx|nones].
Qed.
(** The heat exchanger added to the thermal twins; [noz] is where the nozzle areas are read. *)
Definition hx_list (noz : string) : list (string * string) :=
  map (fun x => (x, x)) ["OEW"; "drag"; "OEW.OEW"; "drag.drag"; "propmodel.hx.component_weight"; "propmodel.duct.drag"; "propmodel.hx.frontal_area"; "hxadder.area_constraint";
    "ac|propulsion|thermal|hx|coolant_mass"; "nozzle_area.max"; noz].
Lemma hx_facts A noz i : (A = HybridTwinThermal M tri /\ noz = "ac|propulsion|thermal|duct|area_nozzle") \/ (A = HybridTwinActive M tri /\ noz = "propmodel.area_nozzle") ->
  flies A -> (i < nn)%nat ->
  W "OEW" 0%nat = W "OEW.OEW" 0%nat + W "propmodel.hx.component_weight" 0%nat + W "ac|propulsion|thermal|hx|coolant_mass" 0%nat /\
  W "drag" i = W "drag.drag" i + W "propmodel.duct.drag" i /\
  exists a, amax nn (W noz) = Ok a /\ W "hxadder.area_constraint" 0%nat = W "propmodel.hx.frontal_area" 0%nat - a.
Proof.
  intros H S Hi.
  assert (E : exists G U, solution G U /\ (forall x y, In (x, y) (hx_list noz) -> forall i, U x i = W y i) /\
    In (hx_adder nn) (g_subs G) /\ In (max_sub nn "nozzle_area") (g_subs G) /\
    forallb (fun c => String.eqb (source G (fst c)) (snd c)) [("hxadder.OEW_orig", "OEW.OEW"); ("hxadder.W_hx", "propmodel.hx.component_weight"); ("ac|propulsion|thermal|hx|coolant_mass", "ac|propulsion|thermal|hx|coolant_mass");
      ("hxadder.drag_orig", "drag.drag"); ("hxadder.drag_hx", "propmodel.duct.drag"); ("hxadder.hx_frontal_area", "propmodel.hx.frontal_area"); ("hxadder.nozzle_area", "nozzle_area.max"); ("nozzle_area.array", noz)] = true).
  { destruct H as [(-> & ->)|(-> & ->)].
    - destruct (ac_viewed kt kp tri nn (HybridTwinThermal M tri) p k W M D (hx_list "ac|propulsion|thermal|duct|area_nozzle") ltac:(insub) S ltac:(vm_compute; reflexivity)) as (U & SU & SEE).
      eexists. exists U. split; [exact SU|]. split; [exact SEE|]. split; [insub|]. split; [insub|reflexivity].
    - destruct (ac_viewed kt kp tri nn (HybridTwinActive M tri) p k W M D (hx_list "propmodel.area_nozzle") ltac:(insub) S ltac:(vm_compute; reflexivity)) as (U & SU & SEE).
      eexists. exists U. split; [exact SU|]. split; [exact SEE|]. split; [insub|]. split; [insub|reflexivity]. }
  destruct E as (G & U & SU & SEE & I1 & I2 & F). rewrite forallb_forall in F.
  assert (F' : forall a b, In (a, b) [("hxadder.OEW_orig", "OEW.OEW"); ("hxadder.W_hx", "propmodel.hx.component_weight"); ("ac|propulsion|thermal|hx|coolant_mass", "ac|propulsion|thermal|hx|coolant_mass");
      ("hxadder.drag_orig", "drag.drag"); ("hxadder.drag_hx", "propmodel.duct.drag"); ("hxadder.hx_frontal_area", "propmodel.hx.frontal_area"); ("hxadder.nozzle_area", "nozzle_area.max"); ("nozzle_area.array", noz)] -> source G a = b).
  { intros a b Hab. apply String.eqb_eq. exact (F (a, b) Hab). }
  pose proof (sol_adders G U "hxadder" _ _ _ _ 0%nat SU I1 ltac:(nth_sub 0%nat) Nat.lt_0_1) as A0.
  pose proof (sol_adders G U "hxadder" _ _ _ _ i SU I1 ltac:(nth_sub 1%nat) Hi) as A1.
  pose proof (sol_adders G U "hxadder" _ _ _ _ 0%nat SU I1 ltac:(nth_sub 2%nat) Nat.lt_0_1) as A2.
  pose proof (sol_rel G U _ SU I2) as A3. 
  unfold add_compute, add_resolve in A0, A1, A2.
  cbn [as_ins as_sf as_vec as_len as_out List.length repeat read_sizes Nat.eqb negb res_bind fst snd forallb] in A0, A1, A2. rewrite fits_refl in A1.
  cbn [fits Nat.eqb orb andb negb combine res_bind fold_left fst snd] in A0, A1, A2. rewrite bidx_row in A1 by exact Hi.
  injection A0 as A0. injection A1 as A1. injection A2 as A2.
  change (0 + U (source G "hxadder.OEW_orig") 0%nat * 1 + U (source G "hxadder.W_hx") 0%nat * 1 + U (source G "ac|propulsion|thermal|hx|coolant_mass") 0%nat * 1 = U "OEW" 0%nat) in A0.
  change (0 + U (source G "hxadder.drag_orig") i * 1 + U (source G "hxadder.drag_hx") i * 1 = U "drag" i) in A1.
  change (0 + U (source G "hxadder.hx_frontal_area") 0%nat * 1 + U (source G "hxadder.nozzle_area") 0%nat * - (1) = U "hxadder.area_constraint" 0%nat) in A2.
  change (amax nn (U (source G "nozzle_area.array")) = Ok (U "nozzle_area.max" 0%nat)) in A3.
  rewrite (F' "hxadder.OEW_orig" _ ltac:(insub)), (F' "hxadder.W_hx" _ ltac:(insub)), (F' "ac|propulsion|thermal|hx|coolant_mass" _ ltac:(insub)) in A0.
  rewrite (F' "hxadder.drag_orig" _ ltac:(insub)), (F' "hxadder.drag_hx" _ ltac:(insub)) in A1.
  rewrite (F' "hxadder.hx_frontal_area" _ ltac:(insub)), (F' "hxadder.nozzle_area" _ ltac:(insub)) in A2. rewrite (F' "nozzle_area.array" _ ltac:(insub)) in A3.
  assert (EN : U noz = W noz) by (apply functional_extensionality; apply SEE; unfold hx_list; insub). rewrite EN in A3. clear EN F F' H.
  unfold hx_list in SEE. cbn [map] in SEE. see SEE U A0. see SEE U A1. see SEE U A2. rewrite (SEE "nozzle_area.max" _ ltac:(insub)) in A3.
  split; [lra|]. split; [lra|]. exists (W "nozzle_area.max" 0%nat). split; [exact A3|lra].
Qed.

(** The 737 and the minimal aircraft. *)
Lemma b738_facts i : flies (B738 D tri) -> (i < nn)%nat ->
  let at_ f := f (W "throttle" i) (W "fltcond|h" i) (W "fltcond|M" i) in
  W "fuel_flow" i = 2 * at_ (dk_fuel D) /\ W "thrust" i = 2 * at_ (dk_thrust D) /\ W "OEW" 0%nat = W "ac|weights|OEW" 0%nat.
Proof.
  intros S Hi. destruct (ac_viewed kt kp tri nn (B738 D tri) p k W M D (map (fun x => (x, x)) ["fuel_flow"; "thrust"; "OEW"; "ac|weights|OEW"; "throttle"; "fltcond|h"; "fltcond|M"])
    ltac:(insub) S ltac:(vm_compute; reflexivity)) as (U & SU & SEE). cbn [map] in SEE. cbn [B738 ac_model] in SU.
  pose proof (sol_comp _ U nn "doubler" doubler _ _ "fuel_flow" _ _ i SU ltac:(insub) eq_refl Hi) as E1.
  pose proof (sol_comp _ U nn "doubler" doubler _ _ "thrust" _ _ i SU ltac:(insub) eq_refl Hi) as E2.
  pose proof (sol_comp _ U nn "OEW" passthru _ _ "OEW" _ _ 0%nat SU ltac:(insub) eq_refl Nat.lt_0_1) as E3.
  destruct (sol_rel _ U (CFM56 D nn "propmodel" _ _) SU ltac:(insub) i Hi) as (C1 & C2 & _).
  change (U "fuel_flow" i = 2 * U "propmodel.fuel_flow" i) in E1. change (U "thrust" i = 2 * U "propmodel.thrust" i) in E2.
  change (U "OEW" 0%nat = U "ac|weights|OEW" 0%nat) in E3.
  change (U "propmodel.thrust" i = dk_thrust D (U "throttle" i) (U "fltcond|h" i) (U "fltcond|M" i)) in C1.
  change (U "propmodel.fuel_flow" i = dk_fuel D (U "throttle" i) (U "fltcond|h" i) (U "fltcond|M" i)) in C2.
  rewrite C2 in E1. rewrite C1 in E2. clear C1 C2. see SEE U E1. see SEE U E2. see SEE U E3. auto.
Qed.
Lemma minimal_facts i : flies (minimal_integrator tri) -> (i < nn)%nat ->
  W "fuel_flow_calc.fuel_flow" i = W "ac|propulsion|TSFC" 0%nat * W "thrust" i /\ W "thrust" i = W "ac|propulsion|max_thrust" 0%nat * W "throttle" i /\
  W "drag" i = W "fltcond|q" i * W "ac|geom|wing|S_ref" 0%nat * W "fltcond|CL" i / W "ac|aero|L_over_D" 0%nat.
Proof.
  intros S Hi. destruct (ac_viewed kt kp tri nn (minimal_integrator tri) p k W M D
    (map (fun x => (x, x)) ["fuel_flow_calc.fuel_flow"; "thrust"; "drag"; "ac|propulsion|TSFC"; "ac|propulsion|max_thrust"; "throttle"; "fltcond|q"; "fltcond|CL"; "ac|geom|wing|S_ref"; "ac|aero|L_over_D"])
    ltac:(insub) S ltac:(vm_compute; reflexivity)) as (U & SU & SEE). cbn [map] in SEE. cbn [minimal_integrator ac_model] in SU.
  pose proof (sol_comp _ U nn "fuel_flow_calc" FuelFlow _ _ "fuel_flow" _ _ i SU ltac:(insub) eq_refl Hi) as E1.
  pose proof (sol_comp _ U nn "simple_aircraft" MinimalAircraft _ _ "thrust" _ _ i SU ltac:(insub) eq_refl Hi) as E2.
  pose proof (sol_comp _ U nn "simple_aircraft" MinimalAircraft _ _ "drag" _ _ i SU ltac:(insub) eq_refl Hi) as E3.
  change (U "fuel_flow_calc.fuel_flow" i = U "ac|propulsion|TSFC" 0%nat * U "thrust" i) in E1. 
  change (U "thrust" i = U "throttle" i * U "ac|propulsion|max_thrust" 0%nat) in E2.
  change (U "drag" i = U "fltcond|q" i * U "fltcond|CL" i * U "ac|geom|wing|S_ref" 0%nat / U "ac|aero|L_over_D" 0%nat) in E3.
  see SEE U E1. see SEE U E2. see SEE U E3. split; [exact E1|]. split; [rewrite E2; ring|rewrite E3; unfold Rdiv; ring].
Qed.
(** The electric single. *)
Lemma electric_facts i : flies (ElectricTBM M tri) -> (i < nn)%nat ->
  W "propmodel.motor1.elec_load" i = W "throttle" i * W "ac|propulsion|motor|rating" 0%nat /\
  (propeller_runs W i "prop1rpm" "ac|propulsion|propeller|diameter" ->
   W "thrust" i = propeller_thrust (eta_map M) (static_map M) (W "fltcond|rho" i) (W "fltcond|Utrue" i) (W "ac|propulsion|propeller|diameter" 0%nat)
     (W "prop1rpm" i) (97/100 * (W "throttle" i * W "ac|propulsion|motor|rating" 0%nat))) /\
  W "weight" i = W "ac|weights|MTOW" 0%nat.
Proof.
  intros S Hi. destruct (prop_viewed kt kp tri nn (ElectricTBM M tri) p k W M D (AllElectricIncompressible M nn tri) _ _
      [("thrust", "thrust"); ("throttle", "throttle"); ("motor1.elec_load", "propmodel.motor1.elec_load"); ("prop1.rpm", "prop1rpm"); ("fltcond|rho", "fltcond|rho"); ("fltcond|Utrue", "fltcond|Utrue");
       ("ac|propulsion|motor|rating", "ac|propulsion|motor|rating"); ("ac|propulsion|propeller|diameter", "ac|propulsion|propeller|diameter")]
      ltac:(insub) S ltac:(intro; insub) ltac:(vm_compute; reflexivity)) as (T & ST & SEE).
  destruct (electric_sys M nn tri T (or_intror ST)) as (G & SG & K1 & K2 & K3). destruct (electric_core M nn tri G T SG K1 K2 K3) as (_ & _ & B1 & _).
  destruct (B1 i Hi) as (L & _ & _ & _ & F). clear B1. unfold propeller_runs in *. see SEE T L. see SEE T F. split; [exact L|]. split; [exact F|]. clear T ST SEE G SG K1 K2 K3 L F.
  destruct (ac_viewed kt kp tri nn (ElectricTBM M tri) p k W M D [("weight", "weight"); ("ac|weights|MTOW", "ac|weights|MTOW")] ltac:(insub) S ltac:(vm_compute; reflexivity)) as (U & SU & SEE).
  assert (I : In (linear_interp nn "weight" [As "start_val" "ac|weights|MTOW"; As "end_val" "ac|weights|MTOW"] [As "vec" "weight"]) (g_subs (ac_model (ElectricTBM M tri) nn (told p k)))) by insub.
  assert (SO : source (ac_model (ElectricTBM M tri) nn (told p k)) "ac|weights|MTOW" = "ac|weights|MTOW") by reflexivity.
  pose proof (sol_rel _ U _ SU I i Hi) as H. unfold reads, writes in H. cbn [linear_interp gs_name gs_pin gs_pout] in H.
  change (gname "weight" [As "vec" "weight"] "vec") with "weight" in H.
  change (gname "weight" [As "start_val" "ac|weights|MTOW"; As "end_val" "ac|weights|MTOW"] "start_val") with "ac|weights|MTOW" in H.
  change (gname "weight" [As "start_val" "ac|weights|MTOW"; As "end_val" "ac|weights|MTOW"] "end_val") with "ac|weights|MTOW" in H.
  rewrite SO in H. see SEE U H. rewrite H. unfold lin_compute, linspace.
  destruct (Nat.eqb nn 1); [reflexivity|]. destruct (Nat.eqb i (nn - 1)); [reflexivity|]. unfold Rdiv. rewrite Rminus_diag_eq by reflexivity. ring.
Qed.
End Body.
