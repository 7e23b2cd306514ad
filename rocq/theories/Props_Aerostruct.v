(** C93: the aerostructural analysis of a wing. *)
From Coq Require Import Reals List Bool PeanoNat String Lia Lra ZArith.
From Verif Require Import Base Py Model_Algebra Model_Atmos Proofs_Atmos Props_Atmos Model_Aero Model_Net Proofs_Net Model_Thermal Model_Ducts Proofs_Fleet Model_Mesh Spec_Mesh Proofs_Mesh Props_Mesh
  Model_Training Spec_Training Model_Polar Spec_Polar Props_Polar Props_VLM Model_Aerostruct Spec_Aerostruct.
Import ListNotations.
Open Scope string_scope.
Open Scope list_scope.
Open Scope R_scope.

(** The connections and promotions are in order, with and without weight relief. *)
Theorem C93_connected : forall T A kt kp o, Model_Net.setup (wing_group T A o) = Ok (wing_group T A o) /\ Model_Net.setup (Aerostruct T A kt kp o) = Ok (Aerostruct T A kt kp o).
Proof.
  intros. split; [vm_compute; reflexivity|]. unfold Aerostruct, point_sub. destruct (relief (structure_dict o)) eqn:E; vm_compute; reflexivity.
Qed.
Print Assumptions C93_connected.

(** ** The analysis *)
Ltac same_arrays := unfold arrays_of, box_ins, beam_ins; cbn [map fst snd app]; repeat (apply (f_equal2 (@cons (string * list R))); [apply (f_equal2 (@pair string (list R)));
  [reflexivity|first [reflexivity|unfold entries; apply (f_equal2 (@map nat R)); [reflexivity|apply (f_equal (seq 0)); lia]]]|]); try reflexivity.
Lemma beam_sizes ny : beam_outs ny = beam_results ny.
Proof. unfold beam_outs, beam_results. replace (ny * 3)%nat with (3 * ny)%nat by lia. replace ((ny - 1) * 12 * 12)%nat with (144 * (ny - 1))%nat by lia. reflexivity. Qed.
Lemma relief_eq {B} (x y : B) s : match assoc "struct_weight_relief" s with Some (SBool false) => x | _ => y end = if relief s then y else x.
Proof. unfold relief. destruct (assoc _ s) as [[?|[]|?|?]|]; reflexivity. Qed.
(** Where the inputs of the point come from. *)
Definition point_sources (x : string) : string :=
  match assoc x [("v", "airspeed.Utrue"); ("rho", "density.fltcond|rho"); ("re", "Re_calc.re"); ("speed_of_sound", "sound_speed.fltcond|a"); ("Mach_number", "fltcond|M"); ("alpha", "fltcond|alpha");
    ("W0", "W0"); ("load_factor", "load_factor"); ("coupled.load_factor", "load_factor"); ("total_perf.wing_structural_mass", "ac|weights|W_wing"); ("empty_cg", "empty_cg");
    ("coupled.wing.mesh", "wing.mesh"); ("coupled.wing.local_stiff_transformed", "wing.local_stiff_transformed"); ("coupled.wing.nodes", "wing.nodes"); ("wing_perf.nodes", "wing.nodes");
    ("total_perf.wing_cg_location", "wing.cg_location"); ("wing_perf.t_over_c", "wing.t_over_c"); ("wing_perf.spar_thickness", "wing.spar_thickness"); ("wing_perf.A_enc", "wing.A_enc");
    ("wing_perf.Qz", "wing.Qz"); ("wing_perf.J", "wing.J"); ("wing_perf.htop", "wing.htop"); ("wing_perf.hbottom", "wing.hbottom"); ("wing_perf.hfront", "wing.hfront"); ("wing_perf.hrear", "wing.hrear");
    ("total_perf.L_equals_W.fuelburn", "aerostruct_point.fuelburn"); ("coupled.wing.element_mass", "wing.element_mass")] with Some y => y | None => x end.
Lemma arrays_seen g s V l nm : forallb (fun p => String.eqb (source g (gname (gs_name s) (gs_pin s) (fst p))) (nm (fst p))) l = true ->
  arrays_of (reads g s V) l = map (fun p => (fst p, map (V (nm (fst p))) (seq 0 (snd p)))) l.
Proof. intro H. rewrite forallb_forall in H. unfold arrays_of. apply map_ext_in. intros p Hp. specialize (H p Hp). apply String.eqb_eq in H. unfold reads. rewrite H. reflexivity. Qed.
Section Analysis.
  Variables (T : tools) (A : structures) (o : structure_options) (V W : env).
  Hypothesis S : solution (wing_group T A o) W.
  Hypothesis SEE : forall x y, In (x, y) [("S", "ac|geom|wing|S_ref"); ("AR", "ac|geom|wing|AR"); ("taper", "ac|geom|wing|taper"); ("sweep", "ac|geom|wing|c4sweep");
    ("ac|geom|wing|twist", "ac|geom|wing|twist"); ("ac|geom|wing|toverc", "ac|geom|wing|toverc"); ("skin_thickness_cp", "ac|geom|wing|skin_thickness"); ("spar_thickness_cp", "ac|geom|wing|spar_thickness")] ->
    forall i, W x i = V y i.
  Definition beam_values (x : string) : nat -> R := if String.eqb x "structural_mass" then W "ac|weights|W_wing" else W x.
  Lemma wing_solved : wing_structure T A o V (W "mesh") (W "t_over_c") W beam_values.
  Proof.
    assert (EV : forall x y, In (x, y) [("S", "ac|geom|wing|S_ref"); ("AR", "ac|geom|wing|AR"); ("taper", "ac|geom|wing|taper"); ("sweep", "ac|geom|wing|c4sweep");
      ("ac|geom|wing|twist", "ac|geom|wing|twist"); ("ac|geom|wing|toverc", "ac|geom|wing|toverc"); ("skin_thickness_cp", "ac|geom|wing|skin_thickness"); ("spar_thickness_cp", "ac|geom|wing|spar_thickness")] ->
      V y = W x) by (intros x y H; apply FunctionalExtensionality.functional_extensionality; intro i; symmetry; exact (SEE x y H i)).
    constructor.
    - exists (as_mesh (so_y o + 1) (W "mesh_gen.mesh")), (W "twist_bsp.twist").
      rewrite (EV "S" "ac|geom|wing|S_ref"), (EV "AR" "ac|geom|wing|AR"), (EV "taper" "ac|geom|wing|taper"), (EV "sweep" "ac|geom|wing|c4sweep"), (EV "ac|geom|wing|twist" "ac|geom|wing|twist") by (cbn; tauto).
      split; [|split].
      + exact (sol_rel _ W _ S (or_intror (or_intror (or_introl eq_refl)))).
      + exact (sol_rel _ W _ S (or_introl eq_refl)).
      + exact (sol_rel _ W _ S (or_intror (or_intror (or_intror (or_introl eq_refl))))).
    - rewrite (EV "ac|geom|wing|toverc" "ac|geom|wing|toverc") by (cbn; tauto). pose proof (sol_rel _ W _ S (or_intror (or_introl eq_refl))) as R.
      replace (so_y o) with (so_y o + 1 - 1)%nat by lia. exact R.
    - intros x i Hx Hi. rewrite (EV "skin_thickness_cp" "ac|geom|wing|skin_thickness"), (EV "spar_thickness_cp" "ac|geom|wing|spar_thickness") by (cbn; tauto).
      pose proof (sol_rel _ W _ S (or_intror (or_intror (or_intror (or_intror (or_introl eq_refl)))))) as R. specialize (R x (so_y o + 1 - 1)%nat i).
      assert (I : In (x, (so_y o + 1 - 1)%nat) (box_outs (so_y o + 1))) by (apply (in_map (fun x => (x, (so_y o + 1 - 1)%nat))); exact Hx). specialize (R I ltac:(lia)).
      match type of R with ?l = _ => assert (EW : l = W x i) end.
      { cbn [box_results In] in Hx. repeat (destruct Hx as [<-|Hx]; [reflexivity|]). destruct Hx. }
      rewrite <- EW. etransitivity; [exact R|]. clear. f_equal. same_arrays.
    - intros z k i Hx Hi. pose proof (sol_rel _ W _ S (or_intror (or_intror (or_intror (or_intror (or_intror (or_introl eq_refl))))))) as R.
      specialize (R z k i ltac:(rewrite beam_sizes; exact Hx) Hi).
      cbn [beam_results In] in Hx.
      match type of R with ?l = _ => assert (EW : l = beam_values z i) end.
      { repeat (destruct Hx as [Hx|Hx]; [injection Hx as <- _; reflexivity|]). destruct Hx. }
      rewrite <- EW. etransitivity; [exact R|]. clear. f_equal. same_arrays.
  Qed.
End Analysis.

Lemma wing_part T A kt kp o V : solution (Aerostruct T A kt kp o) V ->
  exists W, solution (wing_group T A o) W /\ (forall x y, In (x, y) [("S", "ac|geom|wing|S_ref"); ("AR", "ac|geom|wing|AR"); ("taper", "ac|geom|wing|taper"); ("sweep", "ac|geom|wing|c4sweep");
    ("ac|geom|wing|twist", "ac|geom|wing|twist"); ("ac|geom|wing|toverc", "ac|geom|wing|toverc"); ("skin_thickness_cp", "ac|geom|wing|skin_thickness"); ("spar_thickness_cp", "ac|geom|wing|spar_thickness")] ->
    forall i, W x i = V y i) /\ (forall i, W "ac|weights|W_wing" i = V "ac|weights|W_wing" i) /\
    forall x i, mem x (["mesh"; "t_over_c"; "nodes"; "local_stiff_transformed"; "cg_location"; "element_mass"] ++ box_results) = true -> W x i = V (String.append "wing." x) i.
Proof.
  intro S. unfold Aerostruct, point_sub in S. destruct (relief (structure_dict o)).
    all: destruct (subgroup_in _ V "wing" _ _ _ S (or_intror (or_intror (or_intror (or_intror (or_intror (or_intror (or_introl eq_refl)))))))) as (W & SW & SEE);
      exists W; split; [exact SW|]; split; [|split].
    1, 4: intros x y Hx j; cbn [In] in Hx; repeat (destruct Hx as [Hx|Hx]; [injection Hx as <- <-; apply SEE; vm_compute; reflexivity|]); destruct Hx.
    1, 3: intro j; apply SEE; vm_compute; reflexivity.
    all: intros x j Hx; apply mem_In in Hx; cbn [app box_results In] in Hx; repeat (destruct Hx as [<-|Hx]; [apply SEE; vm_compute; reflexivity|]); destruct Hx.
Qed.

(** The results are those of OpenAeroStruct for the wing with these design variables, in the air of the mission at this
    altitude and temperature increment, flown at this Mach number, angle of attack and load factor. *)
Theorem C93_analysis : forall T A kt kp o V, temp_coeffs kt -> pressure_coeffs kp -> solution (Aerostruct T A kt kp o) V ->
  let h := V "fltcond|h" 0%nat in let M := V "fltcond|M" 0%nat in
  h < (28816/100) / (65/10000) -> - (21665/100) < V "fltcond|TempIncrement" 0%nat ->
  forall mission b i, mission "fltcond|h" i = h -> mission "fltcond|TempIncrement" i = V "fltcond|TempIncrement" 0%nat ->
  let air := run_atmos kt kp b mission in
  let a := air "fltcond|a" i in let v := M * a in let rho := air "fltcond|rho" i in
  let re := rho * v / (1792398/10^11 - 3329134/10^16 * h) in
  (M = air "fltcond|M" i -> v = air "fltcond|Utrue" i) /\ 0 < rho /\ 0 < a /\
  exists m toverc box beam fuel, wing_structure T A o V m toverc box beam /\ V "ac|weights|W_wing" 0%nat = beam "structural_mass" 0%nat /\
    st_point A (so_x o + 1) (so_y o + 1) (structure_dict o) (point_inputs o v rho re a V m toverc box beam fuel)
      [("CL", [V "fltcond|CL" 0%nat]); ("CD", [V "fltcond|CD" 0%nat]); ("wing_perf.failure", [V "failure" 0%nat]); ("fuelburn", [fuel])].
Proof.
  intros T A kt kp o V Ht Hp S h M Hh HT mission b i Eh ET air a v rho re.
  assert (Tpos : - (21665/100) < mission "fltcond|TempIncrement" i) by (rewrite ET; exact HT).
  assert (Hm : mission "fltcond|h" i < (28816/100) / (65/10000)) by (rewrite Eh; exact Hh).
  destruct (C22_density kt kp b mission i Ht Hp Hm Tpos) as (P1 & P2 & _). destruct (C23_group kt kp b mission i Ht Hp Hm Tpos) as (A1 & _ & A3 & _). fold air in P1, P2, A1, A3. fold rho in P2.
  assert (FL : V "temp.fltcond|T" 0%nat = snd (temp_comp_compute kt V None) 0%nat /\ snd (press_comp_compute kp V None) 0%nat = Some (V "pressure.fltcond|p" 0%nat) /\
    V "density.fltcond|rho" 0%nat = V "pressure.fltcond|p" 0%nat / Rgas / V "temp.fltcond|T" 0%nat /\ V "sound_speed.fltcond|a" 0%nat = sqrt (14/10 * Rgas * V "temp.fltcond|T" 0%nat) /\
    V "airspeed.Utrue" 0%nat = M * V "sound_speed.fltcond|a" 0%nat /\ V "Re_calc.re" 0%nat = V "density.fltcond|rho" 0%nat * V "airspeed.Utrue" 0%nat / viscosity h).
  { unfold Aerostruct, point_sub in S. destruct (relief (structure_dict o)).
    all: split; [exact (sol_rel _ V _ S (or_introl eq_refl))|]; split; [exact (sol_rel _ V _ S (or_intror (or_introl eq_refl)))|];
      split; [exact (sol_rel _ V _ S (or_intror (or_intror (or_introl eq_refl))) "fltcond|rho" Vec _ 0%nat eq_refl (le_n 1))|];
      split; [exact (sol_rel _ V _ S (or_intror (or_intror (or_intror (or_introl eq_refl)))) "fltcond|a" Vec _ 0%nat eq_refl (le_n 1))|];
      split; [exact (sol_rel _ V _ S (or_intror (or_intror (or_intror (or_intror (or_introl eq_refl))))) "Utrue" Vec _ 0%nat eq_refl (le_n 1))|
              exact (sol_rel _ V _ S (or_intror (or_intror (or_intror (or_intror (or_intror (or_introl eq_refl)))))) "re" Vec _ 0%nat eq_refl (le_n 1))]. }
  destruct FL as (R1 & R2 & R3 & R4 & R5 & R6).
  assert (ET' : V "temp.fltcond|T" 0%nat = air "fltcond|T" i).
  { etransitivity; [exact R1|]. transitivity (compute_temp kt (mission "fltcond|h" i) (get_masks (mission "fltcond|h" i)) + mission "fltcond|TempIncrement" i); [rewrite Eh, ET; reflexivity|].
    unfold air, run_atmos. destruct b; reflexivity. }
  assert (Ep' : V "pressure.fltcond|p" 0%nat = air "fltcond|p" i).
  { change (compute_pressure kp h (get_masks h) = Some (V "pressure.fltcond|p" 0%nat)) in R2. rewrite <- Eh in R2.
    transitivity (num (compute_pressure kp (mission "fltcond|h" i) (get_masks (mission "fltcond|h" i)))); [rewrite R2; reflexivity|]. unfold air, run_atmos. destruct b; reflexivity. }
  assert (Er : V "density.fltcond|rho" 0%nat = rho) by (rewrite R3, ET', Ep'; unfold rho, air, run_atmos; destruct b; reflexivity).
  assert (Ea : V "sound_speed.fltcond|a" 0%nat = a) by (rewrite R4, ET'; unfold a, air, run_atmos; destruct b; reflexivity).
  assert (Ev : V "airspeed.Utrue" 0%nat = v) by (rewrite R5, Ea; reflexivity).
  assert (Mu : viscosity h = 1792398/10^11 - 3329134/10^16 * h) by (unfold viscosity; field).
  assert (Ere : V "Re_calc.re" 0%nat = re) by (rewrite R6, Er, Ev, Mu; reflexivity).
  split; [intros EM; unfold v; rewrite EM; exact A3|]. split; [exact P2|]. split; [exact A1|].
  pose proof (wing_part T A kt kp o V S) as WG.
  destruct WG as (W & SW & SEE & EW & EN).
  exists (W "mesh"), (W "t_over_c"), W, (beam_values W), (V "aerostruct_point.fuelburn" 0%nat). split; [exact (wing_solved T A o V W SW SEE)|]. split; [symmetry; exact (EW 0%nat)|].
  assert (FE : forall x, mem x (["mesh"; "t_over_c"; "nodes"; "local_stiff_transformed"; "cg_location"; "element_mass"] ++ box_results) = true -> W x = V (String.append "wing." x))
    by (intros x Hx; apply FunctionalExtensionality.functional_extensionality; intro j; exact (EN x j Hx)).
  assert (FW : W "ac|weights|W_wing" = V "ac|weights|W_wing") by (apply FunctionalExtensionality.functional_extensionality; exact EW).
  unfold point_inputs. cbv zeta. cbn [map]. unfold beam_values. cbn [String.eqb Ascii.eqb Bool.eqb]. rewrite FW, !FE by reflexivity. rewrite <- Er, <- Ere, <- Ea, <- Ev.
  rewrite relief_eq. clear - S. unfold Aerostruct, point_sub in S. destruct (relief (structure_dict o)).
  all: pose proof (sol_rel _ V _ S (or_intror (or_intror (or_intror (or_intror (or_intror (or_intror (or_intror (or_introl eq_refl))))))))) as R;
    cbv beta zeta iota delta [gs_rel] in R; rewrite (arrays_seen _ _ _ _ point_sources) in R by (vm_compute; reflexivity);
    match type of R with st_point _ _ _ _ ?l1 ?l2 => match goal with |- st_point _ _ _ _ ?k1 ?k2 =>
      assert (E1 : l1 = k1); [|assert (E2 : l2 = k2); [|rewrite <- E1, <- E2; exact R]] end end; clear;
    [cbn [app]; unfold point_ins; cbn [map app]; same_arrays|reflexivity].
Qed.
Print Assumptions C93_analysis.

(** ** The wing *)
(** Before it is turned, the wing has the planform of the design. *)
Theorem C93_planform : forall T A o V m toverc box beam, wing_structure T A o V m toverc box beam -> (1 <= so_x o)%nat -> (1 <= so_y o)%nat ->
  let S_ref := V "ac|geom|wing|S_ref" 0%nat in let AR := V "ac|geom|wing|AR" 0%nat in let taper := V "ac|geom|wing|taper" 0%nat in let sweep := V "ac|geom|wing|c4sweep" 0%nat in
  0 < S_ref -> 0 < AR -> 0 <= taper -> cos (sweep * PI / 180) <> 0 ->
  let nx := (so_x o + 1)%nat in let ny := (so_y o + 1)%nat in
  exists w twist, on_mesh nx ny (as_mesh ny m) (t_rotate T nx ny w twist) /\ (forall j, (j < ny)%nat -> twist j = t_spline T (so_twist o) ny (V "ac|geom|wing|twist") j) /\
  planform w nx ny = S_ref /\ streamwise_columns w nx ny /\
  (let span := 2 * (py w 0 (ny - 1) - py w 0 0) in py w 0 (ny - 1) = 0 /\ 0 < span /\ span ^ 2 / S_ref = AR) /\
  chord w nx 0 = taper * chord w nx (ny - 1) /\
  (forall j, (j < ny)%nat -> quarter w nx j = tan (sweep * PI / 180) * - py w 0 j).
Proof.
  intros T A o V m0 toverc box beam WS Hx Hy S_ref AR taper sweep HS HA Ht Hc nx ny. destruct (ws_mesh _ _ _ _ _ _ _ _ WS) as (m & twist & M & TW & RO). exists m, twist. split; [exact RO|]. split; [exact TW|].
  fold nx ny S_ref AR taper sweep in M. set (t := {| tz_S := S_ref; tz_AR := AR; tz_taper := taper; tz_sweep := sweep |}) in *.
  assert (P : proper_trapezoid t) by (repeat split; try assumption; unfold deg2rad; cbn; intros E; apply Hc; rewrite <- E; f_equal; field).
  assert (Hnx : (1 < nx)%nat) by (unfold nx; lia). assert (Hny : (1 < ny)%nat) by (unfold ny; lia).
  assert (Ch : forall j, (j < ny)%nat -> chord m nx j = chord (trapezoid_mesh nx ny t) nx j) by (intros j Hj; unfold chord, px; rewrite !M by lia; reflexivity).
  assert (Py : forall j, (j < ny)%nat -> py m 0 j = py (trapezoid_mesh nx ny t) 0 j) by (intros j Hj; unfold py; apply M; lia).
  destruct (C75_shape nx ny t Hnx Hny P) as (S1 & S2 & S3 & S4).
  assert (PL : planform m nx ny = S_ref) by (rewrite (as_mesh_planform m (trapezoid_mesh nx ny t)) by assumption; exact (C75_area nx ny t Hnx Hny P)).
  split; [exact PL|]. split; [|split; [|split]].
  - intros ix j Hi Hj. destruct (S1 ix j Hi Hj) as [Z Y]. unfold pz, py in *. rewrite !M by lia. split; assumption.
  - rewrite !Py by lia. rewrite (C75_area nx ny t Hnx Hny P) in S2. exact S2.
  - rewrite !Ch by lia. destruct S3 as [S3 S3']. unfold taper. change (V "ac|geom|wing|taper" 0%nat) with (tz_taper t). rewrite <- S3'. field. lra.
  - intros j Hj. unfold quarter in *. rewrite Ch, Py by assumption. unfold px. rewrite M by lia. exact (S4 j Hj).
Qed.
Print Assumptions C93_planform.

(** The weight of the wing is that of its design: altitude, speed, angle of attack, loads and weights do not enter. *)
Theorem C93_weight : forall T A kt kp kt' kp' o V V', turns_points T -> solution (Aerostruct T A kt kp o) V -> solution (Aerostruct T A kt' kp' o) V' ->
  (forall x, In x wing_design -> V x = V' x) -> V "ac|weights|W_wing" 0%nat = V' "ac|weights|W_wing" 0%nat.
Proof.
  intros T A kt kp kt' kp' o V V' TP S S' D. destruct (wing_part _ _ _ _ _ _ S) as (W & SW & SEE & EW & _). destruct (wing_part _ _ _ _ _ _ S') as (W' & SW' & SEE' & EW' & _).
  destruct (wing_solved T A o V W SW SEE) as [(p & t & P1 & P2 & P3) C2 C3 C4]. destruct (wing_solved T A o V' W' SW' SEE') as [(p' & t' & P1' & P2' & P3') C2' C3' C4'].
  rewrite <- EW, <- EW'. set (nx := (so_x o + 1)%nat) in *. set (ny := (so_y o + 1)%nat) in *.
  assert (EM : entries (3 * (nx * ny)) (W "mesh") = entries (3 * (nx * ny)) (W' "mesh")).
  { assert (ON : on_mesh nx ny (as_mesh ny (W "mesh")) (as_mesh ny (W' "mesh"))).
    { intros ix j d Hi Hj Hd. rewrite (P3 ix j d Hi Hj Hd), (P3' ix j d Hi Hj Hd). apply TP; try assumption.
      - intros a b c Ha Hb Hc'. rewrite (P1 a b c Ha Hb Hc'), (P1' a b c Ha Hb Hc'). rewrite !D by (cbn; tauto). reflexivity.
      - intros q Hq. rewrite (P2 q Hq), (P2' q Hq), (D "ac|geom|wing|twist") by (cbn; tauto). reflexivity. }
    unfold entries. apply map_ext_in. intros r Hr. apply in_seq in Hr. assert (Hny : (0 < ny)%nat) by (unfold ny; lia).
    assert (B : (r / 3 < nx * ny)%nat) by (apply Nat.div_lt_upper_bound; lia).
    specialize (ON (r / 3 / ny)%nat ((r / 3) mod ny)%nat (r mod 3)%nat ltac:(apply Nat.div_lt_upper_bound; lia) ltac:(apply Nat.mod_upper_bound; lia) ltac:(apply Nat.mod_upper_bound; lia)).
    unfold as_mesh, flat in ON. replace (3 * (r / 3 / ny * ny + (r / 3) mod ny) + r mod 3)%nat with r in ON; [exact ON|].
    pose proof (Nat.div_mod r 3 ltac:(lia)). pose proof (Nat.div_mod (r / 3) ny ltac:(lia)). nia. }
  assert (ET : entries (so_y o) (W "t_over_c") = entries (so_y o) (W' "t_over_c")).
  { unfold entries. apply map_ext_in. intros r Hr. apply in_seq in Hr. rewrite C2, C2' by lia. rewrite (D "ac|geom|wing|toverc") by (cbn; tauto). reflexivity. }
  assert (EB : forall x, In x box_results -> entries (so_y o) (W x) = entries (so_y o) (W' x)).
  { intros x Hx. unfold entries. apply map_ext_in. intros r Hr. apply in_seq in Hr. rewrite (C3 x r Hx), (C3' x r Hx) by lia. fold nx ny. rewrite EM, ET, (D "ac|geom|wing|skin_thickness"), (D "ac|geom|wing|spar_thickness") by (cbn; tauto). reflexivity. }
  specialize (C4 "structural_mass" 1%nat 0%nat ltac:(cbn; tauto) ltac:(lia)). specialize (C4' "structural_mass" 1%nat 0%nat ltac:(cbn; tauto) ltac:(lia)).
  change (W "ac|weights|W_wing" 0%nat = W' "ac|weights|W_wing" 0%nat). change (beam_values W "structural_mass" 0%nat = beam_values W' "structural_mass" 0%nat). rewrite C4, C4'. fold nx ny. rewrite EM.
  cbn [map]. rewrite !EB by (cbn; tauto). reflexivity.
Qed.
Print Assumptions C93_weight.

(** ** The defaults *)
(** The box of the default airfoil runs from 10 % to 60 % of the chord, its upper side is above its lower side everywhere and
    its greatest height is the thickness ratio that OpenAeroStruct is told. *)
Theorem C93_airfoil : forall k, (k < 51)%nat -> let t := nth k upper_y 0 - nth k lower_y 0 in
  nth k upper_x 0 = (10 + INR k) / 100 /\ nth k lower_x 0 = (10 + INR k) / 100 /\ 0 < t <= 12/100 /\
  (exists j, (j < 51)%nat /\ nth j upper_y 0 - nth j lower_y 0 = 12/100) /\
  forall o, so_surf o = None -> assoc "original_wingbox_airfoil_t_over_c" (structure_dict o) = Some (SNum (12/100)) /\ List.length upper_y = 51%nat /\ List.length lower_y = 51%nat.
Proof.
  intros k Hk t. assert (EX : exists j, (j < 51)%nat /\ nth j upper_y 0 - nth j lower_y 0 = 12/100) by (exists 28%nat; split; [lia|cbv [nth upper_y lower_y map Z.opp]; lra]).
  assert (D : forall o, so_surf o = None -> assoc "original_wingbox_airfoil_t_over_c" (structure_dict o) = Some (SNum (12/100)) /\ List.length upper_y = 51%nat /\ List.length lower_y = 51%nat).
  { intros o E. unfold structure_dict. rewrite E. repeat split. }
  unfold t. clear t. do 51 (destruct k as [|k]; [cbv [nth upper_x lower_x upper_y lower_y map INR Z.opp]; split; [lra|split; [lra|split; [lra|split; [exact EX|exact D]]]]|]). lia.
Qed.
Print Assumptions C93_airfoil.

(** The options of the user replace the defaults, all others stay. *)
Theorem C93_options : forall o k, match so_surf o with None => assoc k (structure_dict o) = assoc k (default_structure o)
  | Some u => is_dict u -> assoc k (structure_dict o) = match assoc k u with Some v => Some v | None => assoc k (default_structure o) end end.
Proof. intros o k. unfold structure_dict. destruct (so_surf o) as [u|]; [|reflexivity]. intro D. apply puts_assoc. exact D. Qed.
Print Assumptions C93_options.

(** ** The analysis can be run *)
(** Every design of a wing has a structure. *)
Lemma wing_exists T A o (x : env) : exists W, solution (wing_group T A o) W /\
  forall a b, In (a, b) [("S", "ac|geom|wing|S_ref"); ("AR", "ac|geom|wing|AR"); ("taper", "ac|geom|wing|taper"); ("sweep", "ac|geom|wing|c4sweep"); ("ac|geom|wing|twist", "ac|geom|wing|twist");
    ("ac|geom|wing|toverc", "ac|geom|wing|toverc"); ("skin_thickness_cp", "ac|geom|wing|skin_thickness"); ("spar_thickness_cp", "ac|geom|wing|spar_thickness")] -> W a = x b.
Proof.
  set (nx := (so_x o + 1)%nat). set (ny := (so_y o + 1)%nat). set (s := structure_dict o).
  set (tw := t_spline T (so_twist o) ny (x "ac|geom|wing|twist")). set (tc := t_spline T (so_toverc o) (ny - 1) (x "ac|geom|wing|toverc")).
  set (pl := Model_Mesh.flatten ny (trapezoid_mesh nx ny {| tz_S := x "ac|geom|wing|S_ref" 0%nat; tz_AR := x "ac|geom|wing|AR" 0%nat; tz_taper := x "ac|geom|wing|taper" 0%nat; tz_sweep := x "ac|geom|wing|c4sweep" 0%nat |})).
  set (me := Model_Mesh.flatten ny (t_rotate T nx ny (as_mesh ny pl) tw)).
  set (bx := st_box A nx ny s [("mesh", map me (seq 0 (nx * ny * 3))); ("t_over_c", map tc (seq 0 (ny - 1)));
    ("skin_thickness_cp", map (x "ac|geom|wing|skin_thickness") (seq 0 (so_skin o))); ("spar_thickness_cp", map (x "ac|geom|wing|spar_thickness") (seq 0 (so_spar o)))]).
  set (bm := st_beam A nx ny s (("mesh", map me (seq 0 (nx * ny * 3))) :: map (fun z => (z, map (bx z) (seq 0 (ny - 1)))) ["A"; "Iy"; "Iz"; "J"; "A_int"])).
  set (W := fun k => match assoc k ([("twist_bsp.twist", tw); ("t_over_c", tc); ("mesh_gen.mesh", pl); ("mesh", me)] ++ map (fun z => (z, bx z)) box_results ++
    [("nodes", bm "nodes"); ("local_stiff_transformed", bm "local_stiff_transformed"); ("ac|weights|W_wing", bm "structural_mass"); ("cg_location", bm "cg_location"); ("element_mass", bm "element_mass");
     ("S", x "ac|geom|wing|S_ref"); ("AR", x "ac|geom|wing|AR"); ("taper", x "ac|geom|wing|taper"); ("sweep", x "ac|geom|wing|c4sweep");
     ("skin_thickness_cp", x "ac|geom|wing|skin_thickness"); ("spar_thickness_cp", x "ac|geom|wing|spar_thickness")]) with Some f => f | None => x k end).
  exists W. split.
  - intros g [<- | [<- | [<- | [<- | [<- | [<- | []]]]]]].
    + intros j Hj. reflexivity.
    + intros j Hj. reflexivity.
    + intros ix j d Hi Hj Hd. change (as_mesh ny pl ix j d = trapezoid_mesh nx ny {| tz_S := x "ac|geom|wing|S_ref" 0%nat; tz_AR := x "ac|geom|wing|AR" 0%nat; tz_taper := x "ac|geom|wing|taper" 0%nat; tz_sweep := x "ac|geom|wing|c4sweep" 0%nat |} ix j d).
      unfold as_mesh, pl. apply flatten_at; assumption.
    + intros ix j d Hi Hj Hd. change (as_mesh ny me ix j d = t_rotate T nx ny (as_mesh ny pl) tw ix j d). unfold as_mesh at 1. unfold me. apply flatten_at; assumption.
    + intros f k i Hf Hi. unfold box_outs in Hf. cbn [map In] in Hf. repeat (destruct Hf as [Hf|Hf]; [injection Hf as <- _; reflexivity|]). destruct Hf.
    + intros f k i Hf Hi. unfold beam_outs in Hf. cbn [In] in Hf. repeat (destruct Hf as [Hf|Hf]; [injection Hf as <- _; reflexivity|]). destruct Hf.
  - intros a b H. cbn [In] in H. repeat (destruct H as [H|H]; [injection H as <- <-; reflexivity|]). destruct H.
Qed.

(** If OpenAeroStruct converges for the structure, the whole analysis has a result for every design, altitude and speed. *)
Theorem C93_solvable : forall T A kt kp o x, pressure_coeffs kp -> x "fltcond|h" 0%nat < (28816/100) / (65/10000) ->
  (forall v rho re a m toverc box beam, exists fuel CL CD failure,
    st_point A (so_x o + 1) (so_y o + 1) (structure_dict o) (point_inputs o v rho re a x m toverc box beam fuel) [("CL", [CL]); ("CD", [CD]); ("wing_perf.failure", [failure]); ("fuelburn", [fuel])]) ->
  exists V, solution (Aerostruct T A kt kp o) V /\
    forall y, In y (["fltcond|h"; "fltcond|TempIncrement"; "fltcond|M"; "fltcond|alpha"; "W0"; "load_factor"; "empty_cg"] ++ wing_design) -> V y = x y.
Proof.
  intros T A kt kp o x Hp Hh HC. destruct (wing_exists T A o x) as (W & SW & IN). destruct (press_positive kp (x "fltcond|h" 0%nat) Hp Hh) as [p [Ep Pp]].
  set (h := x "fltcond|h" 0%nat) in *. set (t := compute_temp kt h (get_masks h) + x "fltcond|TempIncrement" 0%nat). set (rho := p / Rgas / t). set (a := sqrt (14/10 * Rgas * t)).
  set (v := x "fltcond|M" 0%nat * a). set (re := rho * v / viscosity h).
  destruct (HC v rho re a (W "mesh") (W "t_over_c") W (beam_values W)) as (fuel & CL & CD & failure & PT). clear HC.
  set (V := fun k => match assoc k ([("temp.fltcond|T", fun _ : nat => t); ("pressure.fltcond|p", fun _ => p); ("density.fltcond|rho", fun _ => rho); ("sound_speed.fltcond|a", fun _ => a);
     ("airspeed.Utrue", fun _ => v); ("Re_calc.re", fun _ => re); ("fltcond|CL", fun _ => CL); ("fltcond|CD", fun _ => CD); ("failure", fun _ => failure); ("aerostruct_point.fuelburn", fun _ => fuel);
     ("ac|weights|W_wing", W "ac|weights|W_wing")] ++
     map (fun z => (String.append "wing." z, W z)) (["twist_bsp.twist"; "mesh_gen.mesh"; "mesh"; "t_over_c"; "nodes"; "local_stiff_transformed"; "cg_location"; "element_mass"] ++ box_results)) with Some f => f | None => x k end).
  exists V. split; [|intros y Hy; cbn [In app wing_design] in Hy; repeat (destruct Hy as [<-|Hy]; [reflexivity|]); destruct Hy].
  assert (FR : free_ins (wing_group T A o) = ["ac|geom|wing|twist"; "ac|geom|wing|toverc"; "S"; "AR"; "taper"; "sweep"; "skin_thickness_cp"; "spar_thickness_cp"]) by (vm_compute; reflexivity).
  assert (GO : group_outs (wing_group T A o) = (["twist_bsp.twist"; "t_over_c"; "mesh_gen.mesh"; "mesh"] ++ box_results ++ ["nodes"; "local_stiff_transformed"; "ac|weights|W_wing"; "cg_location"; "element_mass"])%list) by (vm_compute; reflexivity).
  unfold Aerostruct, point_sub. unfold point_inputs in PT. rewrite relief_eq in PT. destruct (relief (structure_dict o)).
  all: intros g [<- | [<- | [<- | [<- | [<- | [<- | [<- | [<- | []]]]]]]]].
  all: try reflexivity.
  all: try (change (compute_pressure kp h (get_masks h) = Some p); exact Ep).
  all: try (intros f k F i E Hi; cbn in E; match type of E with context [String.eqb f ?n] => destruct (String.eqb_spec f n) as [->|N]; [|discriminate E] end; injection E as <- <-; cbn in Hi; assert (i = 0%nat) by lia; subst i; reflexivity).
  all: try (exists W; split; [exact SW|]; split; [rewrite FR|rewrite GO]; intros z i Hz; cbn [In app box_results] in Hz;
    repeat (destruct Hz as [<-|Hz]; [first [reflexivity|match goal with |- ?w ?a ?j = reads ?g ?s _ ?a ?j => let b := eval vm_compute in (Model_Net.source g (gname (gs_name s) (gs_pin s) a)) in change (w a j = x b j); rewrite (IN a b) by (cbn; tauto); reflexivity end]|]); destruct Hz).
  all: cbv beta zeta iota delta [gs_rel]; rewrite (arrays_seen _ _ _ _ point_sources) by (vm_compute; reflexivity);
    match type of PT with st_point _ _ _ _ ?l1 ?l2 => match goal with |- st_point _ _ _ _ ?k1 ?k2 =>
      assert (E1 : l1 = k1); [|assert (E2 : l2 = k2); [|rewrite <- E1, <- E2; exact PT]] end end; clear;
    [cbn [app]; unfold point_ins; cbn [map app]; same_arrays|reflexivity].
Qed.
Print Assumptions C93_solvable.

(** The hypotheses can be met: a wing of 20 m² at sea level and Mach 0.5, with a lift that grows with the angle of attack. *)
Definition flat_wing : env := fun k _ => match assoc k [("ac|geom|wing|S_ref", 20); ("ac|geom|wing|AR", 10); ("ac|geom|wing|taper", 1/2); ("fltcond|M", 1/2); ("fltcond|alpha", 3); ("load_factor", 1)] with Some v => v | None => 0 end.
Definition linear_lift : structures := {| st_box := fun _ _ _ ins _ i => nth i (match assoc "t_over_c" ins with Some l => l | None => [] end) 0;
  st_beam := fun _ _ _ ins _ i => fold_right Rplus 0 (match assoc "A" ins with Some l => l | None => [] end);
  st_point := fun _ _ _ ins outs => match assoc "alpha" ins with Some [al] => assoc "CL" outs = Some [al / 10] | _ => False end |}.
Example C93_met : forall T o, exists kt kp V, temp_coeffs kt /\ pressure_coeffs kp /\ solution (Aerostruct T linear_lift kt kp o) V /\
  V "fltcond|h" 0%nat < (28816/100) / (65/10000) /\ - (21665/100) < V "fltcond|TempIncrement" 0%nat /\ 0 < V "ac|geom|wing|S_ref" 0%nat /\ 0 < V "ac|geom|wing|AR" 0%nat /\
  0 <= V "ac|geom|wing|taper" 0%nat /\ cos (V "ac|geom|wing|c4sweep" 0%nat * PI / 180) <> 0 /\ V "fltcond|M" 0%nat = 1/2 /\ V "fltcond|CL" 0%nat = 3/10.
Proof.
  intros T o. destruct coeffs_exist as [[kt Ht] [kp Hp]]. exists kt, kp.
  destruct (C93_solvable T linear_lift kt kp o flat_wing Hp) as (V & S & E).
  - cbn. lra.
  - intros. exists 0, (3/10), 0, 0. change (Some [3/10] = Some [3/10]). reflexivity.
  - assert (V0 : forall y, In y (["fltcond|h"; "fltcond|TempIncrement"; "fltcond|M"; "fltcond|alpha"; "W0"; "load_factor"; "empty_cg"] ++ wing_design) -> V y 0%nat = flat_wing y 0%nat) by (intros y Hy; rewrite E by exact Hy; reflexivity).
    exists V. split; [exact Ht|]. split; [exact Hp|]. split; [exact S|].
    destruct (C93_analysis T linear_lift kt kp o V Ht Hp S) with (mission := fun k (_ : nat) => V k 0%nat) (b := true) (i := 0%nat) as (_ & _ & _ & m & tc & bx & bm & fuel & _ & _ & PT); try reflexivity; try (rewrite V0 by (cbn; tauto); cbn; lra).
    rewrite !V0 by (cbn; tauto). cbn in PT. rewrite (V0 "fltcond|alpha") in PT by (cbn; tauto). injection PT as PT. rewrite PT.
    unfold flat_wing. cbn [assoc String.eqb Ascii.eqb Bool.eqb]. replace (0 * PI / 180) with 0 by field. rewrite cos_0. repeat split; lra.
Qed.
Print Assumptions C93_met.
(** Turning each point by its own twist, as OpenAeroStruct does about an axis, takes the points of the mesh and the twists at them. *)
Example C93_turns_case : forall v st sp su, turns_points {| t_vlm := v; t_struct := st; t_rotate := fun _ _ m tw ix j d => if Nat.eqb d 2 then m ix j 2%nat - m ix j 0%nat * sin (tw j) else m ix j d; t_spline := sp; t_surrogate := su |}.
Proof. intros v st sp su nx ny m m' t t' E F ix j d Hi Hj Hd. cbn [t_rotate]. rewrite (F j Hj), !E by lia. reflexivity. Qed.
