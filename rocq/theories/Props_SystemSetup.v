(** C66: the propulsion systems can be set up, and their design variables take effect. *)
From Coq Require Import Reals List Bool PeanoNat String Lia Lra.
From Coquelicot Require Import Coquelicot.
From Verif Require Import Base Py RSum Model_Algebra Model_Integrals Model_Atmos Model_Propulsion Model_Net Model_Thermal
  Model_HX Model_Ducts Model_HeatPipe Model_Systems Proofs_Net Proofs_Cs Proofs_Thermal Proofs_HX Proofs_Ducts Proofs_Systems Proofs_Exec Props_Ducts Props_Systems.
Import ListNotations.
Open Scope R_scope.
Open Scope string_scope.
Open Scope list_scope.

Theorem C66_setup M nn tri :
  setup (TurbopropPropulsionSystem M nn) = Ok (TurbopropPropulsionSystem M nn) /\
  setup (TwinTurbopropPropulsionSystem M nn) = Ok (TwinTurbopropPropulsionSystem M nn) /\
  setup (TwinSeriesHybridElectricPropulsionSystem M nn tri) = Ok (TwinSeriesHybridElectricPropulsionSystem M nn tri) /\
  setup (SingleSeriesHybridElectricPropulsionSystem M nn) = Ok (SingleSeriesHybridElectricPropulsionSystem M nn) /\
  setup (AllElectricCompressible M nn tri) = Ok (AllElectricCompressible M nn tri) /\
  setup (AllElectricIncompressible M nn tri) = Ok (AllElectricIncompressible M nn tri) /\
  setup (TwinSeriesHybridElectricThermalPropulsionSystem M nn tri) = Ok (TwinSeriesHybridElectricThermalPropulsionSystem M nn tri) /\
  setup (TwinSeriesHybridElectricThermalPropulsionRefrigerated M nn tri) = Ok (TwinSeriesHybridElectricThermalPropulsionRefrigerated M nn tri).
Proof. repeat split; reflexivity. Qed.
Print Assumptions C66_setup.
(** One system cannot: it promotes "fltcond_*", and the propeller has no such input. *)
Theorem C66_series_hybrid_setup_refuted M nn : setup (SeriesHybridElectricPropulsionSystem M nn) = Err RuntimeError.
Proof. reflexivity. Qed.
Print Assumptions C66_series_hybrid_setup_refuted.

(** ** Which inputs a subsystem's equations depend on *)
Definition local_rel (s : gsub) : Prop := forall (I I' O O' : env),
  (forall x i, In x (gs_ins s) -> I x i = I' x i) -> (forall o i, In o (gs_outs s) -> O o i = O' o i) -> gs_rel s I O -> gs_rel s I' O'.
Lemma lr_comp n name C pin pout : local_comp C -> local_rel (comp n name C pin pout).
Proof.
  intros L I I' O O' HI HO H o k f i A Hi. cbn [comp gs_ins gs_outs] in HI, HO.
  assert (Ho : In o (map fst (pc_outs C))). { apply assoc_In in A. apply (in_map fst) in A. exact A. }
  rewrite <- (HO o i Ho). rewrite (H o k f i A Hi). apply (comp_local n name C pin pout L); auto.
Qed.
Lemma lr_nested name g ins outs pin pout : local_rel (nested name g ins outs pin pout).
Proof.
  intros I I' O O' HI HO [W [SW [A B]]]. exists W. split; [exact SW|]. split.
  - intros x i Hx. rewrite A by exact Hx. now apply HI.
  - intros o i Ho. rewrite B by exact Ho. now apply HO.
Qed.
Lemma lr_relabel name l pin pout : local_rel (relabel name l pin pout).
Proof.
  intros I I' O O' HI HO H a b Hab i. rewrite <- (HO b i), <- (HI a i); [now apply H| |].
  - apply (in_map fst) in Hab. exact Hab.
  - apply (in_map snd) in Hab. exact Hab.
Qed.
Lemma lr_indep name outs pout : local_rel (indep name outs pout).
Proof. intros I I' O O' _ _ H. exact H. Qed.
Lemma lr_balance2 nn name out lhs rhs pin pout : local_rel (balance2 nn name out lhs rhs pin pout).
Proof. intros I I' O O' HI _ H i Hi. rewrite <- !HI; [now apply H| |]; cbn; auto. Qed.
Lemma mul_compute_ext s (I I' : env) r : (forall x i, In x (ms_ins s) -> I x i = I' x i) -> mul_compute s I r = mul_compute s I' r.
Proof.
  intro H. unfold mul_compute. destruct (mul_resolve s) as [[[v l] us]|e] eqn:E; [|reflexivity]. cbn [res_bind fst snd].
  assert (K : forall p, In p l -> In (fst (fst p)) (ms_ins s)).
  { unfold mul_resolve in E. destruct (negb _); [discriminate|]. destruct (negb _); [discriminate|]. destruct (read_sizes _ _) as [[w vs]|]; [|discriminate]. cbn [res_bind] in E.
    destruct (negb _); [discriminate|]. injection E as _ <- _. intros [[x y] z] Hp. apply in_combine_l in Hp. now apply in_combine_l in Hp. }
  f_equal. f_equal. clear E. generalize 1. induction l as [|p l IH]; intro z; [reflexivity|]. cbn [fold_left].
  cbv zeta. rewrite (H (fst (fst p))) by (apply K; now left). apply IH. intros q Hq. apply K. now right.
Qed.
Lemma lr_multiplier n name s pin pout : local_rel (multiplier n name s pin pout).
Proof.
  intros I I' O O' HI HO H i Hi. cbn [multiplier gs_ins gs_outs] in *. rewrite <- (HO (ms_out s) i) by now left. rewrite <- (H i Hi). symmetry.
  now apply mul_compute_ext.
Qed.
Lemma lr_adders name l pin pout : local_rel (adders name l pin pout).
Proof.
  intros I I' O O' HI HO H s Hs i Hi. cbn [adders gs_ins gs_outs] in *. rewrite <- (HO (as_out s) i) by (now apply in_map). rewrite <- (H s Hs i Hi). symmetry.
  apply add_sum_ext. intros x j Hx. apply HI. apply in_flat_map. exists s. auto.
Qed.
(** Changing variables nobody reads or writes, apart from a relabelling. *)
Lemma unread_change G V V' name l pin pout : solution G V ->
  (forall s, In s (g_subs G) -> s = relabel name l pin pout \/
    local_rel s /\ forallb (fun x => negb (mem x (in_names G s ++ out_names s))) ["ac|propulsion|thermal|duct|area_nozzle"; "area_nozzle"] = true) ->
  (forall x i, x <> "ac|propulsion|thermal|duct|area_nozzle" -> x <> "area_nozzle" -> V' x i = V x i) ->
  gs_rel (relabel name l pin pout) (reads G (relabel name l pin pout) V') (writes (relabel name l pin pout) V') -> solution G V'.
Proof.
  intros S Hs Hv Hr s I. destruct (Hs s I) as [->|[L N]]; [exact Hr|].
  rewrite forallb_forall in N.
  assert (A : forall x, In x (in_names G s ++ out_names s) -> forall i, V' x i = V x i).
  { intros x Hx i. apply Hv; intros ->; [specialize (N "ac|propulsion|thermal|duct|area_nozzle" ltac:(cbn; tauto))|specialize (N "area_nozzle" ltac:(cbn; tauto))];
      apply negb_true_iff in N; apply mem_In in Hx; congruence. }
  refine (L _ _ _ _ _ _ (S s I)).
  - intros x i Hx. unfold reads. symmetry. apply A. apply in_or_app. left. unfold in_names.
    apply (in_map (fun x => source G (gname (gs_name s) (gs_pin s) x))). exact Hx.
  - intros o i Ho. unfold writes. symmetry. apply A. apply in_or_app. right. unfold out_names. apply (in_map (gname (gs_name s) (gs_pout s))). exact Ho.
Qed.
Theorem C66_refrigerated_nozzle_area_refuted M nn tri V a :
  solution (TwinSeriesHybridElectricThermalPropulsionRefrigerated M nn tri) V ->
  solution (TwinSeriesHybridElectricThermalPropulsionRefrigerated M nn tri)
    (fun x i => if String.eqb x "ac|propulsion|thermal|duct|area_nozzle" || String.eqb x "area_nozzle" then a else V x i).
Proof.
  intro S. set (G := TwinSeriesHybridElectricThermalPropulsionRefrigerated M nn tri) in *.
  set (V' := fun (x : string) (i : nat) => if String.eqb x "ac|propulsion|thermal|duct|area_nozzle" || String.eqb x "area_nozzle" then a else V x i).
  eapply (unread_change G V V' "dvs"); [exact S| | |].
  - intros s I. unfold G, TwinSeriesHybridElectricThermalPropulsionRefrigerated in I. cbn [g_subs hybrid_subs app] in I.
    destruct I as [<-|I]; [left; reflexivity|]. right.
    repeat (destruct I as [<-|I]; [split; [first [apply lr_adders|apply lr_nested|apply lr_multiplier|apply lr_balance2|apply lr_relabel|apply lr_indep
      |apply lr_comp; first [apply local_motor|apply local_split|apply local_engine|apply local_generator|apply local_inc_duct]]|reflexivity]|]).
    destruct I.
  - intros x i N1 N2. unfold V'. apply String.eqb_neq in N1. apply String.eqb_neq in N2. now rewrite N1, N2.
  - intros x b Hab i. pose proof (relabel_eq G V _ _ S ltac:(nth_sub 0%nat) eq_refl x b Hab i) as E.
    unfold reads, writes. cbn [relabel gs_name gs_pin gs_pout]. rewrite !gname_star.
    cbn [hybrid_dvs coolant_dvs app In] in Hab.
    repeat (destruct Hab as [Hab|Hab]; [injection Hab as <- <-; first [exact E|reflexivity]|]). destruct Hab.
Qed.
Print Assumptions C66_refrigerated_nozzle_area_refuted.

(** The design variables (inputs of the relabelling "dvs") that no subsystem reads,
    neither under their own name nor under their label. *)
Definition dv_names (l : list gsub) : list (string * list string) :=
  match find (fun s => String.eqb (gs_name s) "dvs") l with
  | Some d => map (fun p => (fst p, [fst p; snd p])) (combine (gs_ins d) (gs_outs d))
  | None => []
  end.
Definition unread (G : group) : list string :=
  map fst (filter (fun p => forallb (fun x => negb (mem x (flat_map (in_names G) (filter (fun s => negb (String.eqb (gs_name s) "dvs")) (g_subs G))))) (snd p))
    (dv_names (g_subs G))).
Theorem C66_design_variables_read M nn tri :
  unread (TurbopropPropulsionSystem M nn) = [] /\ unread (TwinSeriesHybridElectricPropulsionSystem M nn tri) = [] /\
  unread (SingleSeriesHybridElectricPropulsionSystem M nn) = [] /\
  unread (AllElectricCompressible M nn tri) = [] /\ unread (AllElectricIncompressible M nn tri) = [] /\
  unread (TwinSeriesHybridElectricThermalPropulsionSystem M nn tri) = [] /\
  unread (TwinSeriesHybridElectricThermalPropulsionRefrigerated M nn tri) =
    ["ac|propulsion|thermal|hx|coolant_mass"; "ac|propulsion|thermal|duct|area_nozzle"].
Proof. repeat split; reflexivity. Qed.
Print Assumptions C66_design_variables_read.

(** In the passively cooled system the same variable is the duct's nozzle area: the air
    flow is in proportion to it. *)
Theorem C66_nozzle_area M nn tri V i : (i < nn)%nat ->
  let flow A := 0 <= V A i -> 0 <= V "fltcond|rho" i ^ 2 * V "fltcond|Utrue" i ^ 2 + 2 * V "fltcond|rho" i * V "hx.delta_p_cold" i ->
    V "duct.mdot" i = V A i * sqrt ((V "fltcond|rho" i ^ 2 * V "fltcond|Utrue" i ^ 2 + 2 * V "fltcond|rho" i * V "hx.delta_p_cold" i) / (115/100)) in
  (solution (TwinSeriesHybridElectricThermalPropulsionSystem M nn tri) V -> flow "ac|propulsion|thermal|duct|area_nozzle") /\
  (solution (TwinSeriesHybridElectricThermalPropulsionRefrigerated M nn tri) V -> flow "duct.area_nozzle").
Proof.
  intros Hi flow.
  assert (K : forall A, V "duct.mdot" i = unspurious (V A i * sqrt (unspurious (duct_interior (15/100) (V "fltcond|rho" i) (V "fltcond|Utrue" i) (V "hx.delta_p_cold" i)))) -> flow A).
  { intros A E HA HI. rewrite E. unfold duct_interior.
    set (x := V "fltcond|rho" i ^ 2 * V "fltcond|Utrue" i ^ 2 + 2 * V "fltcond|rho" i * V "hx.delta_p_cold" i) in *.
    replace (x / (1 + 15/100)) with (x / (115/100)) by (f_equal; lra).
    assert (0 <= x / (115/100)) by lra. unfold unspurious at 2. destruct Rlt_dec; [lra|].
    unfold unspurious. destruct Rlt_dec as [N|]; [|reflexivity]. exfalso. pose proof (sqrt_pos (x / (115/100))). nra. }
  split; intro S; apply K.
  - exact (sol_comp _ V _ _ _ _ _ "mdot" _ _ i S ltac:(nth_sub 17%nat) eq_refl Hi).
  - exact (sol_comp _ V _ _ _ _ _ "mdot" _ _ i S ltac:(nth_sub 18%nat) eq_refl Hi).
Qed.
Print Assumptions C66_nozzle_area.
