(** Groups without cycles: running their subsystems in a suitable order solves them,
    whatever the inputs. *)
From Coq Require Import Reals List Bool PeanoNat String Lia Lra FunctionalExtensionality.
From Coquelicot Require Import Coquelicot.
From Verif Require Import Base Py RSum Model_Algebra Model_Integrals Model_Atmos Model_Propulsion Model_Net Model_Thermal
  Model_HX Model_Ducts Model_HeatPipe Model_Systems Proofs_Net Proofs_Cs Proofs_Thermal Proofs_HX Proofs_Ducts Proofs_Systems.
Import ListNotations.
Open Scope R_scope.
Open Scope string_scope.
Open Scope list_scope.

(** The subsystem's outputs can be computed from its inputs. *)
Definition runs_by (s : gsub) (f : env -> env) : Prop :=
  local s f /\ forall I O, (forall o i, In o (gs_outs s) -> O o i = f I o i) -> gs_rel s I O.
Definition functional (s : gsub) : Prop := exists f, runs_by s f.

Lemma functional_list l : List.Forall functional l -> exists fs, map fst fs = l /\ forall p, In p fs -> runs_by (fst p) (snd p).
Proof.
  induction 1 as [|s l [f Hf] Hl [fs [E H]]].
  - exists []. split; [reflexivity|]. intros p [].
  - exists ((s, f) :: fs). split; [cbn; now rewrite E|]. intros p [<-|Hp]; [exact Hf|now apply H].
Qed.
Lemma run_solves g order fs V0 : map fst fs = order -> (forall p, In p fs -> runs_by (fst p) (snd p)) -> ordered g order = true ->
  incl (g_subs g) order -> solution g (run g fs V0) /\ forall x i, ~ In x (flat_map out_names order) -> run g fs V0 x i = V0 x i.
Proof.
  intros E H O Inc. split.
  - intros s Hs. apply Inc in Hs. rewrite <- E in Hs. apply in_map_iff in Hs. destruct Hs as [p [<- Hp]].
    destruct (H p Hp) as [L R]. apply R. intros o i Ho. apply feed_forward; auto.
    + now rewrite E.
    + intros q Hq. exact (proj1 (H q Hq)).
  - intros x i N. apply run_other. now rewrite E.
Qed.
Lemma exec g order V0 : List.Forall functional order -> ordered g order = true -> incl (g_subs g) order ->
  exists V, solution g V /\ forall x i, ~ In x (flat_map out_names order) -> V x i = V0 x i.
Proof. intros F O Inc. destruct (functional_list order F) as [fs [E H]]. exists (run g fs V0). now apply (run_solves g order fs). Qed.

(** ** Subsystems *)
Lemma fun_comp n name C pin pout : local_comp C -> functional (comp n name C pin pout).
Proof. intro L. exists (vcompute C). split; [now apply comp_local|]. intros I O H. now apply comp_rel. Qed.
Lemma fun_relabel name l pin pout : no_dup (map snd l) = true -> functional (relabel name l pin pout).
Proof. intro N. exists (relabel_fun l). split; [apply relabel_local|]. intros I O H. now apply relabel_ok. Qed.
Lemma fun_table nn name ins out f pin pout : (forall e e', (forall x, In x ins -> e x = e' x) -> f e = f e') -> functional (table nn name ins out f pin pout).
Proof.
  intro L. exists (fun I o i => f (fun x => I x i)). split.
  - intros I I' o i _ H. cbn [table gs_ins] in H. apply L. intros x Hx. now apply H.
  - intros I O H i Hi. apply H. now left.
Qed.
Lemma fun_weight : functional weight_units.
Proof.
  exists (fun I o i => pound * vcompute (WeightCalc 4) (fun x i => if String.eqb x "power_rating" then I x i / hp else I x i / foot) "component_weight" 0).
  split.
  - intros I I' o i _ H. cbn [weight_units gs_ins] in H. f_equal. unfold vcompute, nval.
    destruct (assoc "component_weight" (pc_outs (WeightCalc 4))) as [[k f]|] eqn:A; [|reflexivity].
    assert (A2 := A). apply assoc_In in A2. unfold WeightCalc in A2. cbn [pc_outs In] in A2. each_in A2. cbv beta. unfold node.
    cbn [WeightCalc pc_ins assoc fst snd String.eqb Ascii.eqb Bool.eqb]. rewrite (H "power_rating" 0%nat), (H "diameter" 0%nat) by (cbn; auto). reflexivity.
  - intros I O H. apply H. now left.
Qed.
Lemma fun_mul n name s pin pout : (forall I i, (i < n)%nat -> exists v, mul_compute s I i = Ok v) ->
  (forall (I I' : env) i, (forall x j, In x (ms_ins s) -> I x j = I' x j) -> mul_compute s I i = mul_compute s I' i) -> functional (multiplier n name s pin pout).
Proof.
  intros K L. exists (fun I o i => match mul_compute s I i with Ok v => v | _ => 0 end). split.
  - intros I I' o i _ H. now rewrite (L I I').
  - intros I O H i Hi. cbn [multiplier gs_outs] in H. rewrite (H (ms_out s) i) by now left. destruct (K I i Hi) as [v E]. now rewrite E.
Qed.
Lemma fun_active n name out pin pout : functional (multiplier n name (active_throttle n out) pin pout).
Proof.
  exists (fun I _ i => I "throttle" i * I "propulsor_active" i). split.
  - intros I I' o i _ H. cbn [multiplier active_throttle gs_ins ms_ins] in H. now rewrite !H by (cbn; auto).
  - intros I O H i Hi. rewrite active_value by exact Hi. f_equal. symmetry. apply H. now left.
Qed.
Lemma fun_soc n name pin pout : functional (multiplier n name (soc_divider n) pin pout).
Proof.
  exists (fun I _ i => - (I "elec_load" i / I "max_energy" 0%nat)). split.
  - intros I I' o i _ H. cbn [multiplier soc_divider gs_ins ms_ins] in H. now rewrite !H by (cbn; auto).
  - intros I O H i Hi. rewrite soc_rate_value by exact Hi. f_equal. symmetry. apply H. now left.
Qed.
Lemma fun_integrator nn tri name q rate start final pin pout : q <> final -> functional (integrator nn tri name q rate start final pin pout).
Proof.
  intro N. exists (fun I o i => if String.eqb o q then integ_q nn tri (TDuration (I "duration" 0%nat)) false (I start 0%nat) (I rate) i
    else integ_q_final nn tri (TDuration (I "duration" 0%nat)) false (I start 0%nat) (I rate)). split.
  - intros I I' o i _ H. cbn [integrator gs_ins] in H.
    assert (E : I rate = I' rate) by (extensionality j; apply H; cbn; auto). rewrite E, !(H "duration"), !(H start) by (cbn; auto). reflexivity.
  - intros I O H. cbn [integrator gs_outs] in H. split.
    + intros i Hi. rewrite (H q i) by (cbn; auto). now rewrite String.eqb_refl.
    + rewrite (H final 0%nat) by (cbn; auto). destruct (String.eqb_spec final q); [congruence|reflexivity].
Qed.
Lemma add_sum_ext s (I I' : env) r : (forall x i, In x (as_ins s) -> I x i = I' x i) -> add_compute s I r = add_compute s I' r.
Proof.
  intro H. unfold add_compute. destruct (add_resolve s) as [[v l]|e] eqn:E; [|reflexivity]. cbn [res_bind snd].
  assert (K : forall p, In p l -> In (fst (fst p)) (as_ins s)).
  { unfold add_resolve in E. destruct (negb _); [discriminate|]. destruct (read_sizes _ _) as [[w vs]|]; [|discriminate]. cbn [res_bind] in E.
    destruct (negb _); [discriminate|]. injection E as _ <-. intros [[x y] z] Hp. apply in_combine_l in Hp. now apply in_combine_l in Hp. }
  f_equal. clear E. generalize 0. induction l as [|p l IH]; intro z; [reflexivity|]. cbn [fold_left].
  rewrite H by (apply K; now left). apply IH. intros q Hq. apply K. now right.
Qed.
Lemma fun_adders name l pin pout : no_dup (map as_out l) = true -> (forall s, In s l -> forall I i, (i < rows (as_vec s))%nat -> exists v, add_compute s I i = Ok v) ->
  functional (adders name l pin pout).
Proof.
  intros N K. exists (fun I o i => match find (fun s => String.eqb o (as_out s)) l with
    | Some s => match add_compute s I i with Ok v => v | _ => 0 end | None => 0 end). split.
  - intros I I' o i Ho H. cbn [adders gs_ins] in H. destruct (find _ l) as [s|] eqn:F; [|reflexivity]. apply find_some in F.
    rewrite (add_sum_ext s I I'); [reflexivity|]. intros x j Hx. apply H. apply in_flat_map. exists s. tauto.
  - intros I O H s Hs i Hi. cbn [adders gs_outs] in H. rewrite (H (as_out s) i) by (now apply in_map).
    assert (F : find (fun s' => String.eqb (as_out s) (as_out s')) l = Some s).
    { clear H K. induction l as [|t l IH]; [contradiction|]. cbn [map no_dup] in N. apply andb_prop in N. destruct N as [N1 N2]. cbn [find].
      destruct Hs as [->|Hs]; [now rewrite String.eqb_refl|]. destruct (String.eqb_spec (as_out s) (as_out t)) as [E|]; [|now apply IH].
      exfalso. apply negb_true_iff in N1. apply (in_map as_out) in Hs. apply mem_In in Hs. congruence. }
    rewrite F. destruct (K s Hs I i Hi) as [v E]. now rewrite E.
Qed.
(** A group whose subsystems run in the order [order], as a subsystem. *)
Lemma fun_nested name g ins outs pin pout order : List.Forall functional order -> ordered g order = true -> incl (g_subs g) order ->
  disjoint ins (flat_map out_names order) = true -> functional (nested name g ins outs pin pout).
Proof.
  intros F O Inc D. destruct (functional_list order F) as [fs [E H]].
  set (cut := fun (I : env) x i => if mem x ins then I x i else 0).
  exists (fun I => run g fs (cut I)). split.
  - intros I I' o i _ A. cbn [nested gs_ins] in A. assert (C : cut I = cut I').
    { extensionality x. extensionality j. unfold cut. destruct (mem x ins) eqn:M; [|reflexivity]. apply A. now apply mem_In. }
    now rewrite C.
  - intros I W HW. destruct (run_solves g order fs (cut I) E H O Inc) as [S K]. exists (run g fs (cut I)). split; [exact S|]. split.
    + intros x i Hx. rewrite K by (exact (disjoint_spec _ _ _ D Hx)). unfold cut. apply mem_In in Hx. now rewrite Hx.
    + intros o i Ho. symmetry. now apply HW.
Qed.

(** ** The components of the propulsion systems *)
Lemma local_motor o : local_comp (SimpleMotor o). Proof. local_auto SimpleMotor. Qed.
Lemma local_split o : local_comp (SplitFraction o). Proof. local_auto SplitFraction. Qed.
Lemma local_engine p o : local_comp (SimpleTurboshaft p o). Proof. local_auto SimpleTurboshaft. Qed.
Lemma local_generator o : local_comp (SimpleGenerator o). Proof. local_auto SimpleGenerator. Qed.
Lemma local_inc_duct l c : local_comp (ExplicitIncompressibleDuct l c). Proof. local_auto ExplicitIncompressibleDuct. Qed.
Lemma local_prop : local_comp PropCoefficients. Proof.
  intros o k f e e' A H. apply assoc_In in A. unfold PropCoefficients in A, H. cbn [pc_outs pc_ins map fst In] in A, H.
  each_in A; cbv beta; unfold prop_cp, prop_J; rewrite !H by tauto; reflexivity.
Qed.
Lemma local_thrust : local_comp ThrustCalc.
Proof.
  intros o k f e e' A H. apply assoc_In in A. unfold ThrustCalc in A, H. cbn [pc_outs pc_ins map fst In] in A, H.
  each_in A. unfold prop_thrust, prop_ct, ct1, ct2; repeat match goal with |- context [e ?x] => rewrite (H x) by tauto end; reflexivity.
Qed.
Lemma local_battery a b c d : local_comp (SimpleBattery a b c d). Proof. local_auto SimpleBattery. Qed.
Lemma fun_propeller name M nn pin pout : functional (subgroup name (SimplePropeller M nn) pin pout).
Proof.
  unfold subgroup. apply (fun_nested _ _ _ _ _ _ (g_subs (SimplePropeller M nn))); [|reflexivity|intros s H; exact H|reflexivity].
  unfold SimplePropeller. cbn [g_subs]. repeat (apply List.Forall_cons || apply List.Forall_nil).
  - apply fun_comp, local_prop.
  - apply fun_table. intros e e' H. now rewrite !H by (cbn; auto).
  - apply fun_table. intros e e' H. now rewrite !H by (cbn; auto).
  - apply fun_comp, local_thrust.
  - apply fun_weight.
Qed.
Lemma fun_battery name nn tri eta pin pout : functional (subgroup name (SOCBattery nn tri eta) pin pout).
Proof.
  unfold subgroup. apply (fun_nested _ _ _ _ _ _ (g_subs (SOCBattery nn tri eta))); [|reflexivity|intros s H; exact H|reflexivity].
  unfold SOCBattery. cbn [g_subs]. repeat (apply List.Forall_cons || apply List.Forall_nil).
  - apply fun_comp, local_battery.
  - apply fun_soc.
  - apply fun_integrator. discriminate.
Qed.
