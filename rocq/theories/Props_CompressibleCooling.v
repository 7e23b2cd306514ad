(** C51: the heat exchanger works point by point.  C65 on converged states, the
    all-electric aircraft with a compressible duct. *)
From Coq Require Import Reals List Bool PeanoNat String Lia Lra.
From Coquelicot Require Import Coquelicot.
From Verif Require Import Props_DuctDesign Base Py RSum Spec_Integrals Spec_HX Spec_Ducts Spec_Systems Model_Algebra Model_Integrals Model_Atmos Model_Propulsion Model_Net Model_Thermal
  Model_HX Model_Ducts Model_HeatPipe Model_Systems Proofs_Net Proofs_Cs Proofs_Integrals Proofs_Thermal Proofs_HX Proofs_Ducts Proofs_Systems Proofs_Exec
  Props_Integrals Props_Thermal Props_HX Props_Ducts Props_DuctHX Props_Systems Props_SystemRuns Props_Cooling Props_CoolingRuns.
Import ListNotations.
Open Scope R_scope.
Open Scope string_scope.
Open Scope list_scope.

(** ** C51: point by point *)
(** The heat exchanger's variables that have one value for all points. *)
Definition hx_common : list string :=
  hx_scalars ++ ["n_wide_cold"; "n_long_cold"; "n_tall"] ++ map fst osf_outs.
Definition known_step (known : list string) (C : pcomp) : bool :=
  forallb (fun p => mem (fst p) known && Bool.eqb (mem (fst p) hx_common) (match snd p with Sca => true | Vec => false end)) (pc_ins C) &&
  forallb (fun p => Bool.eqb (mem (fst p) hx_common) (match fst (snd p) with Sca => true | Vec => false end) &&
    match fst (snd p) with Sca => forallb (fun q => match snd q with Sca => true | Vec => false end) (pc_ins C) | Vec => true end) (pc_outs C).
Fixpoint known_chain (known : list string) (l : list pcomp) : bool :=
  match l with [] => true | C :: r => known_step known C && known_chain (known ++ map fst (pc_outs C)) r end.
Definition hx_chain : list pcomp :=
  [OffsetStripFinGeometry; HydraulicDiameterReynoldsNumber; OffsetStripFinData; NusseltFromColburnJ; ConvectiveCoefficient; FinEfficiency; UAOverall 0 0;
   NTUMethod; CrossFlowNTUEffectiveness; NTUEffectivenessActualHeatTransfer; OutletTemperatures; PressureDrop (3/10) (-1/10) (3/10) (-1/10)].
Definition hx_given : list string := hx_scalars ++ hx_flows ++ ["T_in_cold"; "T_in_hot"].
Section Pointwise.
Variables (V V' : env) (i i' : nat).
Definition same (x : string) : Prop := if mem x hx_common then V x 0%nat = V' x 0%nat else V x i = V' x i'.
Definition obeys (nn : nat) (U : env) (C : pcomp) : Prop := forall o k f j, assoc o (pc_outs C) = Some (k, f) -> (j < size nn k)%nat -> U o j = vcompute C U o j.
Lemma same_step nn nn' C known : (i < nn)%nat -> (i' < nn')%nat -> local_comp C -> obeys nn V C -> obeys nn' V' C -> (forall x, In x known -> same x) -> known_step known C = true ->
  forall o, In o (map fst (pc_outs C)) -> same o.
Proof.
  intros Hi Hi' L O O' K S o Ho. unfold known_step in S. apply andb_prop in S. destruct S as [S1 S2].
  destruct (assoc o (pc_outs C)) as [[k f]|] eqn:A.
  2:{ exfalso. clear - Ho A. induction (pc_outs C) as [|[y d] l IH]; [exact Ho|]. cbn [assoc fst snd] in A. destruct (String.eqb_spec o y) as [->|N]; [discriminate|].
      destruct Ho as [E|Ho]; [cbn in E; congruence|]. now apply IH. }
  pose proof (assoc_In _ _ _ A) as I. rewrite forallb_forall in S1, S2. pose proof (S2 _ I) as Q. cbn [fst snd] in Q. apply andb_prop in Q. destruct Q as [Q1 Q2]. apply eqb_prop in Q1.
  assert (G : forall j j', (k = Vec -> j = i /\ j' = i') -> f (node C V j) = f (node C V' j')).
  { intros j j' Hj. apply (L o k f _ _ A). intros x Hx. unfold node. destruct (assoc x (pc_ins C)) as [kx|] eqn:B.
    - apply assoc_In in B. pose proof (S1 _ B) as T. cbn [fst snd] in T.
      apply andb_prop in T. destruct T as [T1 T2]. apply mem_In in T1. apply eqb_prop in T2. specialize (K x T1). unfold same in K. rewrite T2 in K.
      destruct kx; [|exact K]. destruct k; [destruct (Hj eq_refl) as [-> ->]; exact K|]. rewrite forallb_forall in Q2. discriminate (Q2 _ B).
    - exfalso. clear - Hx B. induction (pc_ins C) as [|[y d] l IH]; [exact Hx|]. cbn [assoc fst snd] in B. destruct (String.eqb_spec x y) as [->|N]; [discriminate|].
      destruct Hx as [E|Hx]; [cbn in E; congruence|]. now apply IH. }
  unfold same. rewrite Q1. destruct k.
  - rewrite (O o Vec f i A Hi), (O' o Vec f i' A Hi'). unfold vcompute, nval. rewrite A. apply G. auto.
  - rewrite (O o Sca f 0%nat A Nat.lt_0_1), (O' o Sca f 0%nat A Nat.lt_0_1). unfold vcompute, nval. rewrite A. apply G. discriminate.
Qed.
Lemma same_chain nn nn' l known : (i < nn)%nat -> (i' < nn')%nat -> (forall C, In C l -> local_comp C /\ obeys nn V C /\ obeys nn' V' C) ->
  (forall x, In x known -> same x) -> known_chain known l = true -> forall o, In o (flat_map (fun C => map fst (pc_outs C)) l) -> same o.
Proof.
  intros Hi Hi'. revert known. induction l as [|C l IH]; intros known H K S o Ho; [destruct Ho|]. cbn [known_chain] in S. apply andb_prop in S. destruct S as [S1 S2].
  destruct (H C (or_introl eq_refl)) as [L [O O']]. pose proof (same_step nn nn' C known Hi Hi' L O O' K S1) as T. cbn [flat_map] in Ho. apply in_app_or in Ho.
  destruct Ho as [Ho|Ho]; [now apply T|]. apply (IH (known ++ map fst (pc_outs C))); auto.
  - intros D HD. apply H. now right.
  - intros x Hx. apply in_app_or in Hx. destruct Hx; auto.
Qed.
End Pointwise.
(** Two converged heat exchangers with the same sizes, materials and fluids and, at a point
    each, the same flows and inlet temperatures deliver the same at these points,
    whatever happens at their other points: heat, effectiveness, outlet temperatures,
    pressure drops, and weight and size. *)
Theorem C51_pointwise nn nn' V V' i i' : solution (HXGroup nn) V -> solution (HXGroup nn') V' -> (i < nn)%nat -> (i' < nn')%nat ->
  (forall x, In x hx_scalars -> V x 0%nat = V' x 0%nat) -> (forall x, In x (hx_flows ++ ["T_in_cold"; "T_in_hot"]) -> V x i = V' x i') ->
  (forall x, In x ["effectiveness"; "NTU"; "heat_transfer"; "T_out_cold"; "T_out_hot"; "delta_p_cold"; "delta_p_hot"] -> V x i = V' x i') /\
  (forall x, In x ["component_weight"; "length_overall"; "height_overall"; "width_overall"; "frontal_area"] -> V x 0%nat = V' x 0%nat).
Proof.
  intros S S' Hi Hi' E1 E2. apply plain_of_checked in S. apply plain_of_checked in S'.
  assert (OB : forall n U, solution (HXPlain n) U -> forall C, In C hx_chain -> local_comp C /\ obeys n U C).
  { intros n U SU C HC. assert (OC : forall name, In (comp n name C [P "*"] [P "*"]) (g_subs (HXPlain n)) -> obeys n U C).
    { intros name HI o k f j A Hj. exact (star_rel_env (HXPlain n) U (comp n name C [P "*"] [P "*"]) eq_refl eq_refl eq_refl SU HI o k f j A Hj). }
    unfold hx_chain in HC. cbn [In] in HC.
    repeat (destruct HC as [<-|HC]; [split; [first [exact local_geo|exact local_re|exact local_data|exact local_nu|exact local_conv|exact local_fin|exact local_ua|exact local_ntu
            |exact local_cross|exact local_heat|exact local_out|apply local_drop]|eapply OC; cbn [HXPlain g_subs In]; tauto]|]). destruct HC. }
  assert (K0 : forall x, In x (hx_given ++ ["n_wide_cold"; "n_long_cold"; "n_tall"]) -> same V V' i i' x).
  { intros x Hx. unfold same. apply in_app_or in Hx. destruct Hx as [Hx|Hx].
    - unfold hx_given in Hx. apply in_app_or in Hx. destruct Hx as [Hx|Hx].
      + assert (M : mem x hx_common = true) by (apply mem_In; apply in_or_app; now left). rewrite M. now apply E1.
      + specialize (E2 x Hx). cbn [hx_flows app In] in Hx. repeat (destruct Hx as [<-|Hx]; [exact E2|]). destruct Hx.
    - destruct (plain_counts nn V S 0%nat) as [C1 [C2 C3]]. destruct (plain_counts nn' V' S' 0%nat) as [D1 [D2 D3]].
      cbn [In] in Hx. destruct Hx as [<-|[<-|[<-|[]]]]; cbn; rewrite ?C1, ?C2, ?C3, ?D1, ?D2, ?D3; apply E1; inl. }
  pose proof (same_chain V V' i i' nn nn' hx_chain _ Hi Hi' (fun C HC => conj (proj1 (OB nn V S C HC)) (conj (proj2 (OB nn V S C HC)) (proj2 (OB nn' V' S' C HC)))) K0 eq_refl) as T.
  split; intros x Hx; (assert (I : In x (flat_map (fun C => map fst (pc_outs C)) hx_chain)) by (cbn [In] in Hx; repeat (destruct Hx as [<-|Hx]; [apply mem_In; reflexivity|]); destruct Hx));
    specialize (T x I); cbn [In] in Hx; repeat (destruct Hx as [<-|Hx]; [exact T|]); destruct Hx.
Qed.
Print Assumptions C51_pointwise.

(** ** C65: the all-electric aircraft with a compressible duct runs steadily *)
(** The heat exchanger's and the free stream's data [X], [T], [p], [U] can be chosen, and
    the Mach numbers in the duct; the rest of the hypotheses are those of [C59_hx_design]
    for a liquid warmer than the air at the exchanger. *)
Definition compressible_base (D V0 : env) (thr Ts Tr Q : R) : env := fun x i =>
  if String.eqb x "throttle" then thr
  else if String.eqb x "fltcond|p" then D "p_inf" i
  else if String.eqb x "fltcond|T" then D "T_inf" i
  else if String.eqb x "fltcond|Utrue" then D "Utrue" i
  else if String.eqb x "mdot_coolant" then D "mdot_hot" i
  else if String.eqb x "rho_coolant" then D "rho_hot" i
  else if String.eqb x "motorheatsink.T_out" then D "T_in_hot" i
  else if mem x ["motorheatsink.T"; "motorheatsink.T_initial"; "motorheatsink.T_final"] then Ts
  else if mem x ["motorheatsink.base.dTdt"; "reservoir.rate.dTdt"] then 0
  else if String.eqb x "motorheatsink.hex.q" then Q
  else if mem x ["reservoir.T_out"; "reservoir.T_initial"; "reservoir.T_final"] then Tr
  else if String.prefix "duct." x then D (String.substring 5 (String.length x) x) i
  else V0 x i.
Theorem C65_compressible_steady Mp nn tri V0 T p U M1 M2 X : (0 < nn)%nat -> 0 < T -> 0 < p -> 0 < U -> 0 < M1 -> 0 < M2 ->
  (forall x, In x hx_scalars -> 0 < X x 0%nat) -> (forall x i, In x ["mdot_hot"; "rho_hot"; "T_in_hot"] -> 0 < X x 0%nat /\ X x i = X x 0%nat) ->
  let M := U / sqrt (gamma_air * R_air * T) in
  let Tt := T * (1 + (gamma_air - 1) / 2 * M ^ 2) in
  let pt := p * Rpower (1 + (gamma_air - 1) / 2 * M ^ 2) (gamma_air / (gamma_air - 1)) in
  let T2 := Tt * / (1 + (gamma_air - 1) / 2 * M2 ^ 2) in
  T2 < X "T_in_hot" 0%nat -> pt * sqrt ((Tt + X "T_in_hot" 0%nat - T2) / Tt) <= 10 ^ 8 ->
  0 < V0 "ac|propulsion|motor|rating" 0%nat ->
  (forall x, In x ["channel_width"; "channel_height"; "channel_length"; "n_parallel"] -> 0 < V0 x 0%nat) ->
  exists V, solution (AllElectricCompressible Mp nn tri) V /\ hx_positive nn (fun x => V (duct_in_system (hx_in_duct x))) /\ 0 < V "duct.cp" 0%nat /\
    (forall x i, In x (app hx_scalars ["mdot_hot"; "rho_hot"; "T_in_hot"]) -> V (duct_in_system (hx_in_duct x)) i = X x i) /\
    (forall x i, In x ["ac|propulsion|motor|rating"; "ac|weights|W_battery"; "ac|propulsion|propeller|diameter"; "duration"; "coolant_mass";
       "channel_width"; "channel_height"; "channel_length"; "n_parallel"] -> V x i = V0 x i) /\
    forall i, (i < nn)%nat -> V "fltcond|T" i = T /\ V "fltcond|p" i = p /\ V "fltcond|Utrue" i = U /\ V "duct.sta1.M" i = M1 /\ V "duct.sta2.M" i = M2 /\ 0 < V "throttle" i /\
      V "duct.sta2.T" i < V "reservoir.T_out" i < V "motorheatsink.T_out" i /\ V "motorheatsink.T_out" i < V "motorheatsink.T" i /\
      V "motorheatsink.T" i = V "motorheatsink.T_initial" 0%nat /\ V "reservoir.T_out" i = V "reservoir.T_initial" 0%nat.
Proof.
  intros Hn HT Hp HU HM1 HM2 HX HXv M Tt pt T2 Hhot Hlim Hr Hch. set (G := AllElectricCompressible Mp nn tri).
  destruct (C59_hx_design nn (98/100) T p U M1 M2 X HT Hp HU HM1 HM2 HX) as [D [SD [PD [CP [AD [BD CD]]]]]].
  { intros i _. split; [rewrite (proj2 (HXv "mdot_hot" i ltac:(inl)))|rewrite (proj2 (HXv "rho_hot" i ltac:(inl)))]; apply HXv; inl || exact 0%nat. }
  { intros i Hi. fold M Tt pt T2. rewrite (proj2 (HXv "T_in_hot" i ltac:(inl))). split; [lra|exact Hlim]. }
  fold M Tt pt T2 in BD.
  (* the exchanger inside the duct *)
  assert (HXI : exists W, solution (HXGroup nn) W /\ forall x i, In x (free_ins (HXGroup nn) ++ group_outs (HXGroup nn)) -> W x i = D (hx_in_duct x) i).
  { destruct (sol_nested _ _ "hx" _ _ _ _ _ SD ltac:(nth_sub 5%nat)) as [W [SW [HI HO]]]. exists W. split; [exact SW|]. intros x i Hx. apply in_app_or in Hx. destruct Hx as [Hx|Hx].
    - rewrite HI by exact Hx.
      assert (A : forallb (fun x => String.eqb (source (ImplicitCompressibleDuct nn (98/100)) (gname "hx" [As "mdot_cold" "mdot"; P "mdot_hot"; P "T_in_hot"; P "rho_hot"; P "ac|propulsion|thermal|hx|n_wide_cold"] x)) (hx_in_duct x)) (free_ins (HXGroup nn)) = true) by reflexivity.
      rewrite forallb_forall in A. specialize (A x Hx). apply String.eqb_eq in A. now rewrite A.
    - rewrite HO by exact Hx. assert (A : forallb (fun x => String.eqb (gname "hx" [P "T_out_hot"] x) (hx_in_duct x)) (group_outs (HXGroup nn)) = true) by reflexivity.
      rewrite forallb_forall in A. specialize (A x Hx). apply String.eqb_eq in A. now rewrite A. }
  destruct HXI as [W [SW EW]].
  assert (PW : hx_positive nn W).
  { split.
    - intros x Hx. rewrite EW; [now apply (proj1 PD)|]. apply in_or_app. left. assert (F : forallb (fun x => mem x (free_ins (HXGroup nn))) hx_scalars = true) by reflexivity.
      rewrite forallb_forall in F. apply mem_In. now apply F.
    - intros x j Hx Hj. rewrite EW; [now apply (proj2 PD)|]. apply in_or_app. left. assert (F : forallb (fun x => mem x (free_ins (HXGroup nn))) hx_flows = true) by reflexivity.
      rewrite forallb_forall in F. apply mem_In. now apply F. }
  set (md := X "mdot_hot" 0%nat). set (Th := X "T_in_hot" 0%nat) in *. set (Tr := D "T_out_hot" 0%nat).
  assert (Dmd : forall i, D "mdot_hot" i = md) by (intro i; rewrite (AD "mdot_hot" i ltac:(inl) : D "mdot_hot" i = _); apply HXv; inl).
  assert (DTh : forall i, D "T_in_hot" i = Th) by (intro i; rewrite (AD "T_in_hot" i ltac:(inl) : D "T_in_hot" i = _); apply HXv; inl).
  assert (DTr : forall i, (i < nn)%nat -> D "T_out_hot" i = Tr).
  { intros i Hi. destruct (C51_pointwise nn nn W W i 0%nat SW SW Hi Hn (fun _ _ => eq_refl)) as [Q _].
    - intros x Hx. cbn [hx_flows app In] in Hx.
      repeat (destruct Hx as [<-|Hx]; [rewrite !EW by (apply in_or_app; left; inl)|]); [..|destruct Hx].
      + exact (CD "mdot" i ltac:(inl)).
      + change (D "mdot_hot" i = D "mdot_hot" 0%nat). now rewrite !Dmd.
      + exact (CD "sta2.rho" i ltac:(inl)).
      + change (D "rho_hot" i = D "rho_hot" 0%nat). rewrite (AD "rho_hot" i ltac:(inl) : D "rho_hot" i = _), (AD "rho_hot" 0%nat ltac:(inl) : D "rho_hot" 0%nat = _). apply HXv. inl.
      + change (D "sta2.T" i = D "sta2.T" 0%nat). destruct (BD i) as (_&_&_&_&_&->). destruct (BD 0%nat) as (_&_&_&_&_&->). reflexivity.
      + change (D "T_in_hot" i = D "T_in_hot" 0%nat). now rewrite !DTh.
    - specialize (Q "T_out_hot" ltac:(inl)). rewrite !EW in Q by (apply in_or_app; right; inl). exact Q. }
  assert (BT : T2 < Tr < Th).
  { destruct (C51_second_law nn W 0%nat SW PW Hn) as [_ [[B _] _]]. rewrite !EW in B by (apply in_or_app; first [left; inl|right; inl]).
    change (D "sta2.T" 0%nat < D "T_in_hot" 0%nat -> D "sta2.T" 0%nat < D "T_out_hot" 0%nat < D "T_in_hot" 0%nat) in B.
    destruct (BD 0%nat) as (_&_&_&_&_&E). rewrite E, DTh in B. exact (B Hhot). }
  assert (P1 : 0 < md) by exact (proj1 (HXv "mdot_hot" 0%nat ltac:(inl))).
  set (r := V0 "ac|propulsion|motor|rating" 0%nat) in *. set (Q := md * 3801 * (Th - Tr)).
  set (UA := plate_UA default_k default_Nu (V0 "channel_width" 0%nat) (V0 "channel_height" 0%nat) (V0 "channel_length" 0%nat) (V0 "n_parallel" 0%nat)).
  set (eff := 1 - exp (- (UA / (md * 3801)))). set (Ts := Tr + (Th - Tr) / eff). set (thr := Q / (3/100 * r)).
  assert (PQ : 0 < Q) by (unfold Q; apply Rmult_lt_0_compat; lra).
  assert (PUA : 0 < UA).
  { unfold UA, plate_UA, default_Nu, default_k. pose proof (Hch "channel_width" ltac:(inl)). pose proof (Hch "channel_height" ltac:(inl)).
    pose proof (Hch "channel_length" ltac:(inl)). pose proof (Hch "n_parallel" ltac:(inl)).
    repeat first [lra | apply Rdiv_lt_0_compat | apply Rmult_lt_0_compat | apply Rplus_lt_0_compat]. }
  assert (PE : 0 < eff < 1).
  { unfold eff. assert (0 < UA / (md * 3801)) by (apply Rdiv_lt_0_compat; lra). pose proof (exp_pos (- (UA / (md * 3801)))).
    assert (exp (- (UA / (md * 3801))) < 1) by (rewrite <- exp_0; apply exp_increasing; lra). lra. }
  assert (PT : Th < Ts).
  { unfold Ts. assert ((Th - Tr) * eff < Th - Tr) by nra. assert (Th - Tr < (Th - Tr) / eff); [|lra].
    apply (Rmult_lt_reg_r eff); [lra|]. unfold Rdiv. rewrite Rmult_assoc, Rinv_l by lra. lra. }
  set (B := compressible_base D V0 thr Ts Tr Q).
  set (G' := {| g_subs := electric_subs Mp nn tri; g_conns := g_conns G |}).
  destruct (exec G' (electric_subs Mp nn tri) B) as [V [S HV]]; [unfold electric_subs; all_run|reflexivity|intros s K; exact K|].
  assert (F : forall x i, mem x (flat_map out_names (electric_subs Mp nn tri)) = false -> V x i = B x i).
  { intros x i A. apply HV. intro K. apply mem_In in K. congruence. }
  assert (NM : forall x i, In x (hx_scalars ++ hx_flows ++ ["T_in_cold"; "T_in_hot"]) -> V (duct_in_system (hx_in_duct x)) i = D (hx_in_duct x) i).
  { intros x i Hx. unfold hx_scalars, hx_flows in Hx. cbn [app In] in Hx. repeat (destruct Hx as [<-|Hx]; [rewrite F by reflexivity; reflexivity|]). destruct Hx. }
  exists V. split; [|split; [|split; [|split; [|split]]]].
  - intros s Hs. unfold G, AllElectricCompressible in Hs. cbn [g_subs] in Hs. apply in_app_or in Hs.
    destruct Hs as [Hs|Hs]; [exact (S s Hs)|]. cbn [In] in Hs. destruct Hs as [<-|[<-|[<-|[<-|[]]]]].
    + exact Logic.I.
    + apply heatsink_steady; [exact Hn| |].
      * intros i Hi. change (V "mdot_coolant" i <> 0 /\ V "motor1.heat_out" i = V "motorheatsink.hex.q" i /\
          (1 - exp (- (plate_UA default_k default_Nu (V "channel_width" 0%nat) (V "channel_height" 0%nat) (V "channel_length" 0%nat) (V "n_parallel" 0%nat) /
          (V "mdot_coolant" i * 3801)))) * (V "mdot_coolant" i * 3801) * (V "motorheatsink.T_initial" 0%nat - V "reservoir.T_out" i) = V "motorheatsink.hex.q" i /\
          V "motorheatsink.base.dTdt" i = 0 /\ V "motorheatsink.T" i = V "motorheatsink.T_initial" 0%nat /\
          V "motorheatsink.T_out" i = V "reservoir.T_out" i + V "motorheatsink.hex.q" i / V "mdot_coolant" i / 3801).
        pose proof (sol_comp G' V _ _ _ _ _ "heat_out" _ _ i S ltac:(nth_sub 1%nat) eq_refl Hi) as L.
        change (V "motor1.heat_out" i = V "throttle" i * V "motor1_rating" 0%nat * (1 - 97/100)) in L.
        pose proof (relabel_eq G' V _ _ S ltac:(nth_sub 0%nat) eq_refl _ _ ltac:(nth_sub 0%nat) 0%nat) as E.
        change (V "motor1_rating" 0%nat = V "ac|propulsion|motor|rating" 0%nat) in E.
        rewrite L, E. rewrite !F by reflexivity.
        change (B "mdot_coolant" i) with (D "mdot_hot" i). change (B "motorheatsink.T_out" i) with (D "T_in_hot" i). rewrite Dmd, DTh.
        change (md <> 0 /\ thr * r * (1 - 97/100) = Q /\ eff * (md * 3801) * (Ts - Tr) = Q /\ 0 = 0 /\ Ts = Ts /\ Th = Tr + Q / md / 3801).
        repeat split; try lra.
        -- unfold thr. field. lra.
        -- unfold Ts, Q. field. lra.
        -- unfold Q. field. lra.
      * change (V "motorheatsink.T_final" 0%nat = V "motorheatsink.T_initial" 0%nat). now rewrite !F by reflexivity.
    + exists D. split; [exact SD|]. split.
      * intros x i Hx. cbn in Hx. repeat (destruct Hx as [<-|Hx]; [match goal with |- D ?y i = _ => let z := eval vm_compute in (duct_in_system y) in
          change (D y i = V z i); rewrite F by reflexivity; reflexivity end|]). destruct Hx.
      * intros o i Ho. cbn in Ho. repeat (destruct Ho as [<-|Ho]; [match goal with |- D ?y i = _ => let z := eval vm_compute in (String.append "duct." y) in
          change (D y i = V z i); rewrite F by reflexivity; reflexivity end|]). destruct Ho.
    + apply tank_steady; [exact Hn| |].
      * intros i Hi. change (V "duct.T_out_hot" i = V "reservoir.T_initial" 0%nat /\ V "reservoir.rate.dTdt" i = 0 /\ V "reservoir.T_out" i = V "reservoir.T_initial" 0%nat).
        rewrite !F by reflexivity. split; [exact (DTr i Hi)|split; reflexivity].
      * change (V "reservoir.T_final" 0%nat = V "reservoir.T_initial" 0%nat). now rewrite !F by reflexivity.
  - split.
    + intros x Hx. rewrite NM; [exact (proj1 PD x Hx)|apply in_or_app; now left].
    + intros x i Hx Hi. rewrite NM; [exact (proj2 PD x i Hx Hi)|apply in_or_app; right; apply in_or_app; now left].
  - rewrite F by reflexivity. exact CP.
  - intros x i Hx. rewrite NM; [now apply AD|]. apply in_app_or in Hx. destruct Hx as [Hx|Hx]; [apply in_or_app; now left|].
    cbn [In] in Hx. repeat (destruct Hx as [<-|Hx]; [inl|]). destruct Hx.
  - intros x i Hx. cbn [In] in Hx. repeat (destruct Hx as [<-|Hx]; [rewrite F by reflexivity; reflexivity|]). destruct Hx.
  - intros i Hi. rewrite !F by reflexivity. destruct (BD i) as (B1&B2&B3&B4&B5&B6).
    change (D "T_inf" i = T /\ D "p_inf" i = p /\ D "Utrue" i = U /\ D "sta1.M" i = M1 /\ D "sta2.M" i = M2 /\ 0 < thr /\ D "sta2.T" i < Tr < D "T_in_hot" i /\ D "T_in_hot" i < Ts /\ Ts = Ts /\ Tr = Tr).
    rewrite B6, DTh. assert (0 < thr) by (unfold thr; apply Rdiv_lt_0_compat; lra). repeat split; try assumption; lra.
Qed.
Print Assumptions C65_compressible_steady.
(** The hypotheses hold for the exchanger of [C59_hx_met] at sea level and 170 m/s. *)
Example C65_compressible_case Mp nn tri : (0 < nn)%nat -> exists V, solution (AllElectricCompressible Mp nn tri) V /\ 0 < V "throttle" 0%nat /\ V "fltcond|Utrue" 0%nat = 170.
Proof.
  intro Hn. pose proof design_numbers as [X P]. cbv zeta in X, P.
  destruct (C65_compressible_steady Mp nn tri (fun _ _ => 1) 288 101325 170 (1/2) (1/10) hx_example) as [V [S [_ [_ [_ [_ H]]]]]]; try lra; try exact Hn; try (intros; lra).
  - intros x Hx. now apply (proj1 (proj1 C51_met)).
  - intros x i Hx. cbn [In] in Hx. repeat (destruct Hx as [<-|Hx]; [unfold hx_example; cbn; split; [lra|try reflexivity]|]). destruct Hx.
  - set (x := 1 + (gamma_air - 1) / 2 * (170 / sqrt (gamma_air * R_air * 288)) ^ 2) in *. clearbody x.
    change (hx_example "T_in_hot" 0%nat) with 340. unfold gamma_air. lra.
  - set (x := 1 + (gamma_air - 1) / 2 * (170 / sqrt (gamma_air * R_air * 288)) ^ 2) in *.
    set (y := Rpower x (gamma_air / (gamma_air - 1))) in *. clearbody y. clearbody x.
    change (hx_example "T_in_hot" 0%nat) with 340. unfold gamma_air.
    apply Rle_trans with (101325 * (125/100) * sqrt (2 ^ 2)).
    + apply Rmult_le_compat; [lra|apply sqrt_pos|lra|]. apply sqrt_le_1_alt. apply (Rmult_le_reg_r (288 * x)); [lra|].
      unfold Rdiv at 1. rewrite Rmult_assoc, Rinv_l by lra. lra.
    + rewrite sqrt_pow2 by lra. lra.
  - exists V. split; [exact S|]. destruct (H 0%nat Hn) as (_&_&E&_&_&E2&_). split; assumption.
Qed.
