(** C81, C82: the drag polars of VLMDragPolar and AerostructDragPolar. *)
From Coq Require Import Reals List Bool PeanoNat String Lia Lra FunctionalExtensionality.
From Verif Require Import Base Py Model_Algebra Model_Aero Model_Net Proofs_Net Model_Systems Model_Mesh Spec_Mesh Proofs_Mesh Props_Mesh Props_Sections Props_SectionInterp Model_Training
  Spec_Training Proofs_Training Props_Training Model_Polar Spec_Polar.
Import ListNotations.
Open Scope string_scope.
Open Scope list_scope.
Open Scope R_scope.

(** ** Reading the groups *)
Lemma close_same g o x x' y : same_inputs g o x x' -> close g o x y <-> close g o x' y.
Proof. intros S. split; intros C k n i I Hi; [rewrite <- (S k n i I Hi) | rewrite (S k n i I Hi)]; exact (C k n i I Hi). Qed.

(** The table of the training component, read off a solution. *)
Lemma training_rel g sv es o pin pout I O : gs_rel (training_sub g sv es o pin pout) I O ->
  positive_tol g o -> usable g sv o es I ->
  exists x0, close g o I x0 /\ (same_inputs g o x0 I \/ In x0 (flat_map inputs_of es)) /\
    (forall f, In f (tabulated g) -> tabulates sv o x0 f (extra g f (I "ac|aero|CD_nonwing" 0%nat)) (as_table (count (o_alpha o)) (count (o_alt o)) (O f))) /\
    (g = OASData -> exists r, analysed sv o x0 0 0 0 = Some r /\ O "W_wing" 0%nat = a_out r "W_wing").
Proof.
  intros (D & a & b & c & HD & Sh & Tb & W) TP (Same & NP & NF).
  destruct (C79_history_partial g sv o es I true D TP Same NP NF HD) as [x0 [I0 [C0 [T0 W0]]]].
  assert (E : (a, b, c) = (count (o_Mach o), count (o_alpha o), count (o_alt o))).
  { unfold own_shape in Sh. unfold count. destruct (o_Mach o); [discriminate|]. destruct (o_alpha o); [discriminate|]. destruct (o_alt o); [discriminate|]. cbn in *. congruence. }
  injection E; intros Ec Eb Ea. exists x0. split; [exact C0|]. split; [|split].
  - destruct I0 as [-> | I0]; [left; intros k n i _ _; reflexivity | right; exact I0].
  - intros f If i j k G. destruct (T0 f i j k) as [r [A B]]; [destruct g; exact If | exact G |]. exists r. split; [exact A|]. rewrite <- B.
    destruct G as [G1 [G2 G3]]. rewrite <- Eb, <- Ec. apply Tb; [exact If | subst; exact G1 | subst; exact G2 | subst; exact G3].
  - intros HO. destruct (W0 HO) as [r [A B]]. exists r. split; [exact A|]. rewrite (W HO). exact B.
Qed.

(** ** The arrays behind the flat variables *)
Lemma seq_from m c : map (fun k => (m + k)%nat) (seq 0 c) = seq m c.
Proof. induction m as [|m IH]; [apply map_id|]. rewrite <- seq_shift, <- IH, map_map. reflexivity. Qed.
Lemma rows_listed (v : nat -> R) c n : forall s, flat_map (fun i => map (fun k => v (i * c + k)%nat) (seq 0 c)) (seq s n) = map v (seq (s * c) (n * c)).
Proof.
  induction n as [|n IH]; intros s; [reflexivity|]. cbn [seq flat_map]. rewrite IH. replace (S n * c)%nat with (c + n * c)%nat by lia. rewrite seq_app, map_app. f_equal.
  - rewrite <- (seq_from (s * c) c), map_map. reflexivity.
  - f_equal. f_equal. lia.
Qed.
(** Tables and meshes are stored row by row, as numpy and OpenMDAO store arrays: the entries listed in the order
    of their indices are the entries of the variable in their order. *)
Theorem C81_row_major : forall v a b c,
  flat_map (fun i => flat_map (fun j => map (fun k => as_table b c v i j k) (seq 0 c)) (seq 0 b)) (seq 0 a) = map v (seq 0 (a * b * c)) /\
  flat_map (fun ix => flat_map (fun j => map (fun d => as_mesh b v ix j d) (seq 0 3)) (seq 0 b)) (seq 0 a) = map v (seq 0 (a * b * 3)).
Proof.
  assert (G : forall (v : nat -> R) a b c, flat_map (fun i => flat_map (fun j => map (fun k => v ((i * b + j) * c + k)%nat) (seq 0 c)) (seq 0 b)) (seq 0 a) = map v (seq 0 (a * b * c))).
  { intros v a b c. induction a as [|a IH]; [reflexivity|]. rewrite seq_S, flat_map_app, IH. cbn [flat_map Nat.add]. rewrite app_nil_r.
    replace (S a * b * c)%nat with (a * b * c + b * c)%nat by lia. rewrite seq_app, map_app. f_equal. cbn [Nat.add].
    pose proof (rows_listed (fun r => v (a * b * c + r)%nat) c b 0) as E. cbn [Nat.mul] in E.
    rewrite <- (seq_from (a * b * c)), map_map, <- E. apply flat_map_ext. intro j. apply map_ext. intro k. f_equal. lia. }
  intros v a b c. split; [exact (G v a b c)|]. rewrite <- (G v a b 3%nat). apply flat_map_ext. intro i. apply flat_map_ext. intro j. apply map_ext. intro d. unfold as_mesh, flat. f_equal. lia.
Qed.

(** ** C81: VLMDragPolar *)

(** Accepted exactly when the training values are arrays and the panel counts fit the geometry;
    then all connections and promotions are in order. *)
Theorem C81_vlm_setup : forall T es p,
  (exists g, VLMDragPolar T es p = Ok g) <->
  arrays (vlm_options p) /\
  match v_geo p, v_y p with
  | Trapezoidal, VInt _ => True
  | Trapezoidal, VList _ => False
  | Sectioned, VInt _ => (2 <= v_sections p)%nat
  | Sectioned, VList l => (2 <= v_sections p)%nat /\ List.length l = (v_sections p - 1)%nat
  | Meshed, _ => True
  end.
Proof.
  intros T es p. unfold VLMDragPolar, arrays. cbn [o_Mach o_alpha o_alt vlm_options].
  destruct (v_alpha p) as [a|a]; [split; [intros [g H]; discriminate H | intros [[_ [[x H] _]] _]; discriminate H]|].
  destruct (v_Mach p) as [m|m]; [split; [intros [g H]; discriminate H | intros [[[x H] _] _]; discriminate H]|].
  destruct (v_alt p) as [h|h]; [split; [intros [g H]; discriminate H | intros [[_ [_ [x H]]] _]; discriminate H]|].
  cbn [numpy_values res_bind].
  assert (Q : forall (r : res (list nat)) (P : Prop), ((exists l, r = Ok l) <-> P) -> ((exists g, res_bind r (fun l => Ok (vlm_group T es p l m a h)) = Ok g) <->
     ((exists l, NdArray m = NdArray l) /\ (exists l, NdArray a = NdArray l) /\ (exists l, NdArray h = NdArray l)) /\ P)).
  { intros r P E. destruct r as [l|e]; cbn [res_bind].
    - split; [intros _; split; [repeat split; eauto | apply E; eauto] | eauto].
    - split; [intros [g H]; discriminate H | intros [_ H]; apply E in H; destruct H as [l H]; discriminate H]. }
  apply Q. destruct (v_geo p), (v_y p) as [n|l].
  - cbn. split; [auto | eauto].
  - split; [intros [x H]; discriminate H | tauto].
  - split; [intros [l H]; apply C76_setup in H; tauto | intros H]. exists (repeat n (v_sections p - 1)). apply C76_setup. split; [exact H|]. split; [apply repeat_length|]. intros a0 Ha. now apply repeat_spec in Ha.
  - split; [intros [l' H]; apply C76_setup in H; destruct H as (A & B & ->); split; assumption | intros [H1 H2]]. exists l. apply C76_setup. split; [exact H1|]. split; [exact H2 | reflexivity].
  - split; [auto | eauto].
  - split; [auto | eauto].
Qed.
Print Assumptions C81_vlm_setup.

Lemma vlm_ok T es p g : VLMDragPolar T es p = Ok g -> exists l m a h,
  v_Mach p = NdArray m /\ v_alpha p = NdArray a /\ v_alt p = NdArray h /\ g = vlm_group T es p l m a h /\
  match v_geo p, v_y p with
  | Trapezoidal, VList _ => False
  | Trapezoidal, VInt n => l = [n]
  | Sectioned, y => panels (v_sections p) y = Ok l
  | Meshed, _ => l = []
  end.
Proof.
  unfold VLMDragPolar. destruct (v_alpha p) as [a|a]; [discriminate|]. destruct (v_Mach p) as [m|m]; [discriminate|]. destruct (v_alt p) as [h|h]; [discriminate|].
  cbn [numpy_values res_bind]. intros H.
  assert (Q : exists l, (match v_geo p, v_y p with Trapezoidal, VList _ => Err ValueError | Trapezoidal, VInt n => panels 2 (VInt n) | Sectioned, y => panels (v_sections p) y | Meshed, _ => Ok [] end) = Ok l
                        /\ vlm_group T es p l m a h = g).
  { destruct (match v_geo p, v_y p with Trapezoidal, VList _ => Err ValueError | Trapezoidal, VInt n => panels 2 (VInt n) | Sectioned, y => panels (v_sections p) y | Meshed, _ => Ok [] end) as [l|e]; [|discriminate H].
    exists l. split; [reflexivity|]. cbn [res_bind] in H. now injection H. }
  destruct Q as [l [Q <-]]. exists l, m, a, h. repeat (split; [reflexivity|]). destruct (v_geo p), (v_y p); try assumption; try discriminate Q; try (now injection Q as <-).
Qed.

(** All promotions and connections of an accepted group are in order. *)
Theorem C81_vlm_connected : forall T es p g, VLMDragPolar T es p = Ok g -> Model_Net.setup g = Ok g.
Proof.
  intros T es p g H. destruct (vlm_ok _ _ _ _ H) as (l & m & a & h & _ & _ & _ & -> & _). destruct p as [nn geo x y ns tw vec ? ? ? ?]. destruct geo, vec; reflexivity.
Qed.
Print Assumptions C81_vlm_connected.

(** The inputs of the training component are the wing. *)
Lemma vlm_training_reads T es p l m a h V : 
  same_inputs VLMData (vlm_options p) (reads (vlm_group T es p l m a h) (nth (match v_geo p with Meshed => 0 | _ => 4 end) (g_subs (vlm_group T es p l m a h)) (alpha_balance 0 "")) V) (wing p V).
Proof.
  intros k n i I _. cbn [design In] in I. destruct p as [nn geo x y ns tw vec ? ? ? ?].
  destruct geo; cbv [v_geo]; destruct I as [[= <- _] | [[= <- _] | [[= <- _] | []]]]; reflexivity.
Qed.

(** *** What a converged drag polar says *)
Theorem C81_vlm_drag : forall T es p g V, VLMDragPolar T es p = Ok g -> solution g V ->
  usable VLMData (t_vlm T) (vlm_options p) es (wing p V) ->
  exists x0 CLt CDt, close VLMData (vlm_options p) (wing p V) x0 /\
    (same_inputs VLMData (vlm_options p) x0 (wing p V) \/ In x0 (flat_map inputs_of es)) /\
    tabulates (t_vlm T) (vlm_options p) x0 "CL_train" 0 CLt /\ tabulates (t_vlm T) (vlm_options p) x0 "CD_train" 0 CDt /\
    forall i, (i < v_nn p)%nat ->
      let look t := t_surrogate T (values (v_Mach p)) (values (v_alpha p)) (values (v_alt p)) t (V "fltcond|M" i) (V "alpha_bal.alpha" i) (V "fltcond|h" i) in
      look CLt = V "fltcond|CL" i /\
      V "drag" i = V "fltcond|q" i * V "ac|geom|wing|S_ref" 0%nat * (look CDt + V "ac|aero|CD_nonwing" (if v_vec p then i else 0%nat)).
Proof.
  intros T es p g V H S U. destruct (vlm_ok _ _ _ _ H) as (l & m & a & h & Em & Ea & Eh & -> & _). clear H.
  pose proof (vlm_training_reads T es p l m a h V) as SI.
  set (G := vlm_group T es p l m a h) in *.
  set (tr := nth (match v_geo p with Meshed => 0 | _ => 4 end) (g_subs G) (alpha_balance 0 "")) in *.
  assert (Itr : In tr (g_subs G)) by (unfold tr, G; destruct p as [nn geo x y ns tw vec ? ? ? ?]; destruct geo; cbn; tauto).
  assert (Etr : tr = training_sub VLMData (t_vlm T) es (vlm_options p)
       ([P "fltcond|TempIncrement"] ++ match v_geo p with Meshed => [P "ac|geom|wing|toverc"; P "ac|geom|wing|OAS_mesh"] | _ => [] end) [])
    by (unfold tr, G; destruct p as [nn geo x y ns tw vec ? ? ? ?]; destruct geo; reflexivity).
  assert (R1 := sol_rel G V tr S Itr). rewrite Etr in R1 at 1. apply training_rel in R1; [| intros HO; discriminate HO |].
  2:{ destruct U as [U1 [U2 U3]]. split; [exact U1|]. split; [intros C; apply U2; apply (close_same _ _ _ _ _ SI); exact C | intros y Iy C; apply (U3 y Iy); apply (close_same _ _ _ _ _ SI); exact C]. }
  destruct R1 as (x0 & C0 & I0 & T0 & _). exists x0, (as_table (List.length a) (List.length h) (V "training_data.CL_train")), (as_table (List.length a) (List.length h) (V "training_data.CD_train")).
  assert (Ca : count (o_alpha (vlm_options p)) = List.length a) by (cbn; rewrite Ea; reflexivity).
  assert (Ch : count (o_alt (vlm_options p)) = List.length h) by (cbn; rewrite Eh; reflexivity).
  assert (W : forall f, writes tr V f = V (String.append "training_data." f)) by (intros f; rewrite Etr; reflexivity).
  split; [apply (close_same _ _ _ _ _ SI); exact C0|]. split; [|split; [|split]].
  - destruct I0 as [I0|I0]; [left | right; exact I0]. intros k n i Ik Hi. rewrite (I0 k n i Ik Hi). apply (SI k n i Ik Hi).
  - specialize (T0 "CL_train" (or_introl eq_refl)). rewrite Ca, Ch, W in T0. exact T0.
  - specialize (T0 "CD_train" (or_intror (or_introl eq_refl))). rewrite Ca, Ch, W in T0. exact T0.
  - intros i Hi look.
    assert (Sur : forall f t, In (f, t) [("CL", "CL_train"); ("CD", "CD_train")] ->
              V (String.append "aero_surrogate." f) i = look (as_table (List.length a) (List.length h) (V (String.append "training_data." t)))).
    { intros f t Ift.
      assert (Is : In (surrogate_sub T (v_nn p) m a h [("CL", "CL_train"); ("CD", "CD_train")] [P "fltcond|M"; P "fltcond|h"] []) (g_subs G)) by (unfold G; cbn; apply in_or_app; right; cbn; tauto).
      assert (R2 := sol_rel G V _ S Is f t i Ift Hi). unfold look. rewrite Em, Ea, Eh. cbn [values].
      destruct p as [nn geo x y ns tw vec ? ? ? ?]. destruct geo; (destruct Ift as [[= <- <-] | [[= <- <-] | []]]; exact R2). }
    split.
    + assert (Ib : In (alpha_balance (v_nn p) "CL_VLM") (g_subs G)) by (unfold G; cbn; apply in_or_app; right; cbn; tauto).
      assert (R3 := sol_rel G V _ S Ib i Hi). assert (SC := Sur "CL" "CL_train" (or_introl eq_refl)). cbn [String.append] in SC. rewrite <- SC.
      destruct p as [nn geo x y ns tw vec ? ? ? ?]. destruct geo; exact R3.
    + assert (Id : In (comp (v_nn p) "drag_calc" (VLMDrag (v_vec p)) [As "q" "fltcond|q"; S_as; As "CD_nonwing" "ac|aero|CD_nonwing"] [P "drag"]) (g_subs G)) by (unfold G; cbn; apply in_or_app; right; cbn; tauto).
      assert (R4 := sol_rel G V _ S Id "drag" Vec _ i eq_refl Hi). assert (SC := Sur "CD" "CD_train" (or_intror (or_introl eq_refl))). cbn [String.append] in SC. rewrite <- SC.
      destruct p as [nn geo x y ns tw vec ? ? ? ?]. destruct geo, vec; exact R4.
Qed.
Print Assumptions C81_vlm_drag.

Lemma panels_y p : (points_y p - 1 = half_span_panels p)%nat.
Proof. unfold points_y, half_span_panels. destruct (v_geo p), (v_y p); apply Nat.add_sub. Qed.
Lemma points_panels p : points_y p = (half_span_panels p + 1)%nat.
Proof. unfold points_y, half_span_panels. destruct (v_geo p), (v_y p); reflexivity. Qed.

(** At a training point the drag is that of the analysis itself. *)
Theorem C81_vlm_at_training_points : forall T es p g V i a b c, VLMDragPolar T es p = Ok g -> solution g V ->
  usable VLMData (t_vlm T) (vlm_options p) es (wing p V) ->
  interpolates T (values (v_Mach p)) (values (v_alpha p)) (values (v_alt p)) ->
  (i < v_nn p)%nat -> in_grid (vlm_options p) a b c ->
  V "fltcond|M" i = nth a (values (v_Mach p)) 0 -> V "alpha_bal.alpha" i = nth b (values (v_alpha p)) 0 -> V "fltcond|h" i = nth c (values (v_alt p)) 0 ->
  exists x0 r, close VLMData (vlm_options p) (wing p V) x0 /\
    t_vlm T (v_x p) (half_span_panels p) (v_surf p) x0 (V "fltcond|M" i) (V "alpha_bal.alpha" i) (V "fltcond|h" i) = Some r /\
    V "fltcond|CL" i = a_out r "CL_train" /\
    V "drag" i = V "fltcond|q" i * V "ac|geom|wing|S_ref" 0%nat * (a_out r "CD_train" + V "ac|aero|CD_nonwing" (if v_vec p then i else 0%nat)).
Proof.
  intros T es p g V i a b c H S U In Hi G E1 E2 E3. destruct (C81_vlm_drag T es p g V H S U) as (x0 & CLt & CDt & C0 & _ & TL & TD & Q).
  destruct (Q i Hi) as [Q1 Q2]. destruct (TL a b c G) as [r [A B]]. destruct (TD a b c G) as [r' [A' B']]. rewrite A in A'. injection A' as <-.
  rewrite E1, E2, E3 in Q1, Q2. destruct G as [G1 [G2 G3]]. rewrite In in Q1, Q2 by assumption.
  exists x0, r. split; [exact C0|]. split; [rewrite E1, E2, E3, <- panels_y; exact A|]. rewrite B in Q1. rewrite B' in Q2. split; [lra|]. rewrite Q2. ring.
Qed.
Print Assumptions C81_vlm_at_training_points.

(** A larger lift coefficient at the same speed and altitude means a larger angle of attack,
    when the lift curve of the surrogate rises. *)
Theorem C81_vlm_angle : forall T es p g V i j, VLMDragPolar T es p = Ok g -> solution g V ->
  usable VLMData (t_vlm T) (vlm_options p) es (wing p V) ->
  (forall x0 t al al', close VLMData (vlm_options p) (wing p V) x0 -> tabulates (t_vlm T) (vlm_options p) x0 "CL_train" 0 t -> al < al' ->
     t_surrogate T (values (v_Mach p)) (values (v_alpha p)) (values (v_alt p)) t (V "fltcond|M" i) al (V "fltcond|h" i) <
     t_surrogate T (values (v_Mach p)) (values (v_alpha p)) (values (v_alt p)) t (V "fltcond|M" i) al' (V "fltcond|h" i)) ->
  (i < v_nn p)%nat -> (j < v_nn p)%nat -> V "fltcond|M" i = V "fltcond|M" j -> V "fltcond|h" i = V "fltcond|h" j ->
  (V "fltcond|CL" i < V "fltcond|CL" j <-> V "alpha_bal.alpha" i < V "alpha_bal.alpha" j).
Proof.
  intros T es p g V i j H S U Mono Hi Hj EM Eh. destruct (C81_vlm_drag T es p g V H S U) as (x0 & CLt & CDt & C0 & _ & TL & _ & Q).
  destruct (Q i Hi) as [Qi _]. destruct (Q j Hj) as [Qj _]. rewrite <- EM, <- Eh in Qj. rewrite <- Qi, <- Qj. split; intros L.
  - destruct (Rtotal_order (V "alpha_bal.alpha" i) (V "alpha_bal.alpha" j)) as [A | [A | A]]; [exact A | rewrite A in L; lra | pose proof (Mono x0 CLt _ _ C0 TL A); lra].
  - exact (Mono x0 CLt _ _ C0 TL L).
Qed.
Print Assumptions C81_vlm_angle.

(** *** The wing that is analysed *)
Lemma as_mesh_planform m m' nx ny : (1 < nx)%nat -> (1 < ny)%nat -> (forall ix j d, (ix < nx)%nat -> (j < ny)%nat -> (d < 3)%nat -> m ix j d = m' ix j d) ->
  planform m nx ny = planform m' nx ny.
Proof.
  intros Hx Hy E. unfold planform. f_equal. apply RSum.rsum_ext. intros j Hj. unfold chord, px, py. rewrite !E by lia. reflexivity.
Qed.

Theorem C81_trapezoid : forall T es p g V n, VLMDragPolar T es p = Ok g -> solution g V -> v_geo p = Trapezoidal -> v_y p = VInt n -> (1 <= v_x p)%nat -> (1 <= n)%nat ->
  let S_ref := V "ac|geom|wing|S_ref" 0%nat in let AR := V "ac|geom|wing|AR" 0%nat in let taper := V "ac|geom|wing|taper" 0%nat in let sweep := V "ac|geom|wing|c4sweep" 0%nat in
  0 < S_ref -> 0 < AR -> 0 <= taper -> cos (sweep * PI / 180) <> 0 ->
  let nx := (v_x p + 1)%nat in let ny := (n + 1)%nat in let m := as_mesh ny (V "ac|geom|wing|OAS_mesh") in
  planform m nx ny = S_ref /\ streamwise_columns m nx ny /\
  (let span := 2 * (py m 0 (ny - 1) - py m 0 0) in py m 0 (ny - 1) = 0 /\ 0 < span /\ span ^ 2 / S_ref = AR) /\
  chord m nx 0 = taper * chord m nx (ny - 1) /\
  (forall j, (j < ny)%nat -> quarter m nx j = tan (sweep * PI / 180) * - py m 0 j) /\
  (forall ix j d, (ix < nx)%nat -> (j < ny)%nat -> (d < 3)%nat ->
     exists tw, (forall j', (j' < ny)%nat -> tw j' = t_spline T (v_twist p) ny (V "ac|geom|wing|twist") j') /\
       as_mesh ny (V "twisted_mesh") ix j d = t_rotate T nx ny m tw ix j d).
Proof.
  intros T es p g V n H S Eg Ey Hx Hy S_ref AR taper sweep HS HA Ht Hc nx ny m. destruct (vlm_ok _ _ _ _ H) as (l & mm & a & h & _ & _ & _ & -> & _). clear H.
  destruct p as [nn geo x y ns tw vec ? ? ? ?]. cbn in Eg, Ey, Hx. subst geo y.
  set (t := {| tz_S := S_ref; tz_AR := AR; tz_taper := taper; tz_sweep := sweep |}).
  assert (P : proper_trapezoid t) by (repeat split; try assumption; unfold deg2rad; cbn; intros E; apply Hc; rewrite <- E; f_equal; field).
  assert (M : forall ix j d, (ix < nx)%nat -> (j < ny)%nat -> (d < 3)%nat -> m ix j d = trapezoid_mesh nx ny t ix j d).
  { assert (R1 := sol_rel _ V _ S (or_introl eq_refl)). exact R1. }
  assert (Hnx : (1 < nx)%nat) by (unfold nx; cbn; lia). assert (Hny : (1 < ny)%nat) by (unfold ny; lia).
  assert (Ch : forall j, (j < ny)%nat -> chord m nx j = chord (trapezoid_mesh nx ny t) nx j) by (intros j Hj; unfold chord, px; rewrite !M by lia; reflexivity).
  assert (Py : forall j, (j < ny)%nat -> py m 0 j = py (trapezoid_mesh nx ny t) 0 j) by (intros j Hj; unfold py; apply M; lia).
  destruct (C75_shape nx ny t Hnx Hny P) as (S1 & S2 & S3 & S4).
  assert (PL : planform m nx ny = S_ref) by (rewrite (as_mesh_planform m (trapezoid_mesh nx ny t)) by assumption; exact (C75_area nx ny t Hnx Hny P)).
  split; [exact PL|]. split; [|split; [|split; [|split]]].
  - intros ix j Hi Hj. destruct (S1 ix j Hi Hj) as [Z Y]. unfold pz, py in *. rewrite !M by lia. split; assumption.
  - rewrite !Py by lia. rewrite (C75_area nx ny t Hnx Hny P) in S2. exact S2.
  - rewrite !Ch by lia. destruct S3 as [S3 S3']. unfold taper. change (V "ac|geom|wing|taper" 0%nat) with (tz_taper t). rewrite <- S3'. field. lra.
  - intros j Hj. unfold quarter in *. rewrite Ch, Py by assumption. unfold px. rewrite M by lia. exact (S4 j Hj).
  - intros ix j d Hi Hj Hd. exists (V "twist_bsp.twist"). split.
    + assert (R2 := sol_rel _ V _ S (or_intror (or_introl eq_refl))). exact R2.
    + assert (R3 := sol_rel _ V _ S (or_intror (or_intror (or_introl eq_refl)))). exact (R3 ix j d Hi Hj Hd).
Qed.
Print Assumptions C81_trapezoid.

Lemma panels_total ns y l : panels ns y = Ok l -> total l = match y with VInt n => ((ns - 1) * n)%nat | VList l' => total l' end.
Proof.
  intros H. apply C76_setup in H. destruct H as (_ & L & A). destruct y as [n|l']; [|now rewrite A].
  rewrite <- L. clear L. unfold total. induction l as [|b l IH]; [reflexivity|]. cbn. rewrite (A b (or_introl eq_refl)) at 1. f_equal. apply IH. intros c Hc. apply A. now right.
Qed.

(** Wing through sections: scaled to the reference area, twist interpolated along the span. *)
Theorem C81_sections : forall T es p g V, VLMDragPolar T es p = Ok g -> solution g V -> v_geo p = Sectioned -> (1 <= v_x p)%nat ->
  match v_y p with VInt n => (1 <= n)%nat | VList l => List.Forall (fun n => (1 <= n)%nat) l end ->
  let s := {| sec_n := v_sections p; sec_x := V "ac|geom|wing|x_LE_sec"; sec_y := V "ac|geom|wing|y_sec"; sec_c := V "ac|geom|wing|chord_sec" |} in
  let S_ref := V "ac|geom|wing|S_ref" 0%nat in
  0 < sections_planform s -> 0 < S_ref ->
  exists l, panels (v_sections p) (v_y p) = Ok l /\ regions_ok s l /\
  let nx := (v_x p + 1)%nat in let ny := (half_span_panels p + 1)%nat in let m := as_mesh ny (V "ac|geom|wing|OAS_mesh") in
  let f := sqrt (S_ref / sections_planform s) in
  ny = (column l (v_sections p - 1) + 1)%nat /\
  planform m nx ny = S_ref /\ streamwise_columns m nx ny /\
  (forall i, (i < v_sections p)%nat -> py m 0 (column l i) = f * full_y s i /\ px m 0 (column l i) = f * sec_x s i /\ chord m nx (column l i) = f * sec_c s i) /\
  (forall ix j d, (ix < nx)%nat -> (j < ny)%nat -> (d < 3)%nat ->
     exists tw, (forall i j', (i + 1 < v_sections p)%nat -> full_y s i <> full_y s (i + 1)%nat -> (column l i <= j' <= column l (i + 1))%nat ->
         tw j' = between (py m 0 (column l i)) (py m 0 (column l (i + 1))) (V "ac|geom|wing|twist" i) (V "ac|geom|wing|twist" (i + 1)%nat) (py m 0 j')) /\
       as_mesh ny (V "twisted_mesh") ix j d = t_rotate T nx ny m tw ix j d).
Proof.
  intros T es p g V H S Eg Hx Hl s S_ref HP HS. destruct (vlm_ok _ _ _ _ H) as (l & mm & a & h & _ & _ & _ & -> & Q). clear H. rewrite Eg in Q.
  assert (Q' : panels (v_sections p) (v_y p) = Ok l) by (destruct (v_y p); exact Q). clear Q.
  exists l. split; [exact Q'|].
  assert (RO : regions_ok s l).
  { pose proof Q' as C. apply C76_setup in C. destruct C as (C1 & C2 & C3). split; [exact C1|]. split; [exact C2|]. destruct (v_y p) as [n|l']; [|now rewrite C3].
    apply List.Forall_forall. intros b Hb. rewrite (C3 b Hb). exact Hl. }
  split; [exact RO|]. intros nx ny m f.
  assert (Eny : ny = (total l + 1)%nat). { unfold ny. rewrite <- points_panels. unfold points_y. rewrite Eg, (panels_total _ _ _ Q'). destruct (v_y p); reflexivity. }
  assert (Ecol : ny = (column l (v_sections p - 1) + 1)%nat).
  { rewrite Eny. f_equal. destruct RO as (C1 & C2 & C3). cbn [sec_n s] in C2. unfold column. rewrite <- C2, firstn_all. reflexivity. }
  split; [exact Ecol|].
  assert (M : forall ix j d, (ix < nx)%nat -> (j < ny)%nat -> (d < 3)%nat -> m ix j d = section_mesh nx l s (Some S_ref) ix j d).
  { destruct p as [nn geo x y ns tw vec ? ? ? ?]. cbn in Eg, s. subst geo. assert (R1 := sol_rel _ V _ S (or_introl eq_refl)). unfold m. rewrite Eny. exact R1. }
  assert (Hnx : (1 < nx)%nat) by (unfold nx; lia). assert (Hsec : (2 <= v_sections p)%nat) by apply RO.
  assert (Hcol : forall i, (i < v_sections p)%nat -> (column l i < ny)%nat).
  { intros i Hi. rewrite Ecol. rewrite !(R_col l s RO) by (cbn; lia). pose proof (start_mono l i (v_sections p - 1) ltac:(lia)). lia. }
  assert (Hny : (1 < ny)%nat). { specialize (Hcol 1%nat ltac:(lia)). rewrite (R_col l s RO) in Hcol by (cbn; lia). pose proof (R_len l s RO 0 ltac:(cbn; lia)). pose proof (start_S l 0) as X. change (0 + 1)%nat with 1%nat in X. change (region_start l 0) with 0%nat in X. lia. }
  assert (Kf : scaling s (Some S_ref) = f) by reflexivity.
  assert (Kp : f <> 0). { unfold f. pose proof (sqrt_lt_R0 (S_ref / sections_planform s) (Rdiv_lt_0_compat _ _ HS HP)). lra. }
  split; [|split; [|split]].
  - rewrite (as_mesh_planform m (section_mesh nx l s (Some S_ref))) by assumption. apply (C76_area nx l s (Some S_ref) ny Hnx RO Ecol HP). lra.
  - intros ix j Hi Hj. destruct (C76_flat_columns nx l s (Some S_ref) ny RO Ecol ix j Hi Hj) as [Z Y]. unfold pz, py in *. rewrite !M by lia. split; assumption.
  - intros i Hi. destruct (C76_sections nx l s (Some S_ref) i 0 Hnx RO Hi) as (A1 & A2 & A3). rewrite Kf in *. specialize (Hcol i Hi). unfold chord, px, py in *. rewrite !M by lia. split; [exact A1|]. split; [exact A2 | exact A3].
  - intros ix j d Hi Hj Hd. exists (V "twist_sec.property_node"). split.
    + intros i j' Hi' Hy Hc. assert (Hj' : (j' < ny)%nat) by (pose proof (Hcol (i + 1)%nat Hi'); lia).
      assert (R2 : V "twist_sec.property_node" j' = property_node true l (v_sections p) (V "ac|geom|wing|twist") j').
      { destruct p as [nn geo x y ns tw vec ? ? ? ?]. cbn in Eg. subst geo. assert (R2 := sol_rel _ V _ S (or_intror (or_introl eq_refl))). apply R2. rewrite <- Eny. exact Hj'. }
      rewrite R2. rewrite <- Kf in Kp. change (v_sections p) with (sec_n s). rewrite (C78_linear_on_sections nx l s (Some S_ref) (V "ac|geom|wing|twist") i j' 0 RO Hi' Hy Kp Hc).
      unfold py. rewrite !M by (try apply Hcol; lia). reflexivity.
    + assert (RR : forall ix j d, (ix < v_x p + 1)%nat -> (j < points_y p)%nat -> (d < 3)%nat ->
        as_mesh (points_y p) (V "twisted_mesh") ix j d = t_rotate T (v_x p + 1) (points_y p) (as_mesh (points_y p) (V "ac|geom|wing|OAS_mesh")) (V "twist_sec.property_node") ix j d).
      { destruct p as [nn geo x y ns tw vec ? ? ? ?]. cbn in Eg. subst geo. exact (sol_rel _ V _ S (or_intror (or_intror (or_introl eq_refl)))). }
      rewrite points_panels in RR. exact (RR ix j d Hi Hj Hd).
Qed.
Print Assumptions C81_sections.

(** *** The hypotheses are met: a given mesh, one training point, one node *)
Definition toy_tools : tools := {| t_vlm := toy; t_struct := toy; t_rotate := fun _ _ m _ => m; t_spline := fun _ _ f j => f j;
  t_surrogate := fun _ _ _ t _ al _ => t 0%nat 0%nat 0%nat + (al - 2) |}.
Definition toy_polar : polar := {| v_nn := 1; v_geo := Meshed; v_x := 1; v_y := VInt 2; v_sections := 2; v_twist := 4; v_vec := false;
  v_Mach := NdArray [1/2]; v_alpha := NdArray [2]; v_alt := NdArray [0]; v_surf := [("with_wave", SBool true)] |}.
Definition toy_values : env := fun k _ =>
  match assoc k [("fltcond|TempIncrement", 10); ("fltcond|M", 1/2); ("alpha_bal.alpha", 2); ("fltcond|h", 0); ("fltcond|CL", 20510); ("fltcond|q", 3); ("ac|geom|wing|S_ref", 4);
    ("training_data.CL_train", 20510); ("training_data.CD_train", 20510); ("aero_surrogate.CL", 20510); ("aero_surrogate.CD", 20510); ("drag", 3 * 4 * (20510 + 1))] with
  | Some v => v | None => 1 end.
Lemma toy_table g o es I : arrays o -> is_dict (o_surf o) -> es = [Setup o] -> (positive_tol g o) -> in_grid o 0 0 0 -> nth 0 (values (o_Mach o)) 0 = 1/2 ->
  I "fltcond|TempIncrement" 0%nat = 10 -> match g with VLMData => True | OASData => o_tol o <= 1 end ->
  ~ close g o I placeholder /\
  exists D, snd (compute g toy o I true (after g toy es fresh)) = Ok D /\ forall f, In f (tabulated g) -> D f 0%nat 0%nat 0%nat = 510 + 10000 * INR (o_y o) + extra g f (I "ac|aero|CD_nonwing" 0%nat).
Proof.
  intros Ar Di -> TP G EM ET Tl.
  assert (Same : forall e, In e [Setup o] -> options_of e = o) by (intros e [<- | []]; reflexivity).
  assert (NP : ~ close g o I placeholder).
  { intros C. specialize (C "fltcond|TempIncrement" 1%nat 0%nat). rewrite ET in C. assert (Q : Rabs (10 - - (42)) < match g with VLMData => / 10 ^ 13 | OASData => o_tol o end) by (apply C; [destruct g; cbn; tauto | lia]).
    rewrite Rabs_right in Q by lra. assert (/ 10 ^ 13 < 1) by (rewrite <- Rinv_1; apply Rinv_lt_contravar; lra). destruct g; lra. }
  split; [exact NP|].
  destruct (C79_answers g toy o [Setup o] I Ar Di Same (or_introl eq_refl)) as [D HD]; [intros _; exact G | intros i j k _ Q; discriminate Q |].
  exists D. split; [exact HD|]. intros f If. pose proof (C79_new_inputs g toy o [Setup o] I true D TP Same NP ltac:(intros y []) HD) as [T _].
  destruct (T f 0%nat 0%nat 0%nat) as [r [A E]]; [destruct g; exact If | exact G |]. rewrite E. unfold analysed, toy in A. rewrite EM, ET in A. injection A; intros; subst r. cbn [a_out]. lra.
Qed.
Example C81_vlm_case : exists g, VLMDragPolar toy_tools [Setup (vlm_options toy_polar)] toy_polar = Ok g /\ solution g toy_values /\
  usable VLMData (t_vlm toy_tools) (vlm_options toy_polar) [Setup (vlm_options toy_polar)] (wing toy_polar toy_values) /\
  interpolates toy_tools (values (v_Mach toy_polar)) (values (v_alpha toy_polar)) (values (v_alt toy_polar)).
Proof.
  set (o := vlm_options toy_polar). set (G := vlm_group toy_tools [Setup o] toy_polar [] [1/2] [2] [0]). exists G.
  assert (Ar : arrays o) by (repeat split; cbn; eauto).
  assert (Di : is_dict (o_surf o)) by (repeat constructor; cbn; tauto).
  assert (TP : positive_tol VLMData o) by (intros Q; discriminate Q).
  assert (Gr : in_grid o 0 0 0) by (unfold in_grid; cbn; lia).
  split; [reflexivity|]. split; [|split].
  - intros s [<- | [<- | [<- | [<- | []]]]].
    + destruct (toy_table VLMData o [Setup o] (reads G (nth 0 (g_subs G) (alpha_balance 0 "")) toy_values) Ar Di eq_refl TP Gr eq_refl eq_refl Logic.I) as [_ (D & HD & TV)].
      exists D, 1%nat, 1%nat, 1%nat. split; [exact HD|]. split; [reflexivity|]. split; [|discriminate].
      intros f i j k If Hi Hj Hk. replace i with 0%nat by lia. replace j with 0%nat by lia. replace k with 0%nat by lia. rewrite (TV f If). destruct If as [<- | [<- | []]]; cbn; ring.
    + intros f t i [[= <- <-] | [[= <- <-] | []]] Hi; cbn; ring.
    + intros i Hi. reflexivity.
    + intros f k F i E Hi. cbn in E. destruct (String.eqb_spec f "drag") as [->|N]; [|discriminate E]. injection E as <- <-. reflexivity.
  - split; [intros e [<- | []]; reflexivity|]. split; [|intros y []].
    exact (proj1 (toy_table VLMData o [Setup o] (wing toy_polar toy_values) Ar Di eq_refl TP Gr eq_refl eq_refl Logic.I)).
  - intros t i j k Hi Hj Hk. cbn in *. replace i with 0%nat by lia. replace j with 0%nat by lia. replace k with 0%nat by lia. cbn. ring.
Qed.

(** ** C81: AerostructDragPolar *)
Theorem C81_aerostruct_setup : forall T es nn o, (exists g, AerostructDragPolar T es nn o = Ok g) <-> arrays o.
Proof.
  intros T es nn o. unfold AerostructDragPolar, arrays. destruct (o_alpha o) as [a|a]; [split; [intros [g H]; discriminate H | intros [_ [[x H] _]]; discriminate H]|].
  destruct (o_Mach o) as [m|m]; [split; [intros [g H]; discriminate H | intros [[x H] _]; discriminate H]|].
  destruct (o_alt o) as [h|h]; [split; [intros [g H]; discriminate H | intros [_ [_ [x H]]]; discriminate H]|].
  cbn. split; [repeat split; eauto | eauto].
Qed.
Print Assumptions C81_aerostruct_setup.
Lemma aerostruct_ok T es nn o g : AerostructDragPolar T es nn o = Ok g -> exists m a h,
  o_Mach o = NdArray m /\ o_alpha o = NdArray a /\ o_alt o = NdArray h /\ g = aerostruct_group T es nn o m a h.
Proof.
  unfold AerostructDragPolar. destruct (o_alpha o) as [a|a]; [discriminate|]. destruct (o_Mach o) as [m|m]; [discriminate|]. destruct (o_alt o) as [h|h]; [discriminate|].
  cbn. intros [= <-]. exists m, a, h. repeat split.
Qed.
Theorem C81_aerostruct_connected : forall T es nn o g, AerostructDragPolar T es nn o = Ok g -> Model_Net.setup g = Ok g.
Proof. intros T es nn o g H. destruct (aerostruct_ok _ _ _ _ _ H) as (m & a & h & _ & _ & _ & ->). reflexivity. Qed.
Print Assumptions C81_aerostruct_connected.

Theorem C81_aerostruct_drag : forall T es nn o g V, AerostructDragPolar T es nn o = Ok g -> solution g V -> positive_tol OASData o ->
  usable OASData (t_struct T) o es V ->
  exists x0 CLt CDt Ft, close OASData o V x0 /\ (same_inputs OASData o x0 V \/ In x0 (flat_map inputs_of es)) /\
    tabulates (t_struct T) o x0 "CL_train" 0 CLt /\ tabulates (t_struct T) o x0 "CD_train" (V "ac|aero|CD_nonwing" 0%nat) CDt /\ tabulates (t_struct T) o x0 "failure_train" 0 Ft /\
    (exists r, analysed (t_struct T) o x0 0 0 0 = Some r /\ V "ac|weights|W_wing" 0%nat = a_out r "W_wing") /\
    forall i, (i < nn)%nat ->
      let look t := t_surrogate T (values (o_Mach o)) (values (o_alpha o)) (values (o_alt o)) t (V "fltcond|M" i) (V "alpha_bal.alpha" i) (V "fltcond|h" i) in
      look CLt = V "fltcond|CL" i /\ V "failure" i = look Ft /\
      V "drag" i = V "fltcond|q" i * V "ac|geom|wing|S_ref" 0%nat * look CDt.
Proof.
  intros T es nn o g V H S TP U. destruct (aerostruct_ok _ _ _ _ _ H) as (m & a & h & Em & Ea & Eh & ->). clear H.
  set (G := aerostruct_group T es nn o m a h) in *.
  set (tr := nth 0 (g_subs G) (alpha_balance 0 "")).
  assert (R1 := sol_rel G V tr S (or_introl eq_refl)).
  assert (SI : same_inputs OASData o (reads G tr V) V).
  { intros k n i I _. cbn [design In] in I. repeat (destruct I as [[= <- _] | I]; [reflexivity|]). destruct I. }
  apply training_rel in R1; [| exact TP |].
  2:{ destruct U as [U1 [U2 U3]]. split; [exact U1|]. split; [intros C; apply U2; apply (close_same _ _ _ _ _ SI); exact C | intros y Iy C; apply (U3 y Iy); apply (close_same _ _ _ _ _ SI); exact C]. }
  destruct R1 as (x0 & C0 & I0 & T0 & W0).
  assert (Ca : count (o_alpha o) = List.length a) by (rewrite Ea; reflexivity).
  assert (Ch : count (o_alt o) = List.length h) by (rewrite Eh; reflexivity).
  rewrite Ca, Ch in T0.
  exists x0, (as_table (List.length a) (List.length h) (V "training_data.CL_train")), (as_table (List.length a) (List.length h) (V "training_data.CD_train")), (as_table (List.length a) (List.length h) (V "training_data.failure_train")).
  split; [apply (close_same _ _ _ _ _ SI); exact C0|]. split; [|split; [|split; [|split; [|split]]]].
  - destruct I0 as [I0|I0]; [left | right; exact I0]. intros k n i Ik Hi. rewrite (I0 k n i Ik Hi). apply (SI k n i Ik Hi).
  - exact (T0 "CL_train" (or_introl eq_refl)).
  - exact (T0 "CD_train" (or_intror (or_introl eq_refl))).
  - exact (T0 "failure_train" (or_intror (or_intror (or_introl eq_refl)))).
  - exact (W0 eq_refl).
  - intros i Hi look.
    assert (Sur := sol_rel G V _ S (or_intror (or_introl eq_refl))). cbn [gs_rel surrogate_sub] in Sur.
    unfold look. rewrite Em, Ea, Eh. cbn [values]. split; [|split].
    + assert (R3 := sol_rel G V _ S (or_intror (or_intror (or_introl eq_refl))) i Hi). etransitivity; [symmetry; exact (Sur "CL" "CL_train" i (or_introl eq_refl) Hi) | exact R3].
    + exact (Sur "failure" "failure_train" i (or_intror (or_intror (or_introl eq_refl))) Hi).
    + assert (R4 := sol_rel G V _ S (or_intror (or_intror (or_intror (or_introl eq_refl)))) "drag" Vec _ i eq_refl Hi).
      assert (SC := Sur "CD" "CD_train" i (or_intror (or_introl eq_refl)) Hi). 
      etransitivity; [exact R4|]. change (V "fltcond|q" i * V "ac|geom|wing|S_ref" 0%nat * V "aero_surrogate.CD" i = 
         V "fltcond|q" i * V "ac|geom|wing|S_ref" 0%nat * t_surrogate T m a h (as_table (List.length a) (List.length h) (V "training_data.CD_train")) (V "fltcond|M" i) (V "alpha_bal.alpha" i) (V "fltcond|h" i)).
      f_equal. exact SC.
Qed.
Print Assumptions C81_aerostruct_drag.

(** The drag of the rest of the aircraft is added to that of the wing, as for VLMDragPolar. *)
Theorem C81_aerostruct_nonwing : forall T es nn o g V, AerostructDragPolar T es nn o = Ok g -> solution g V -> positive_tol OASData o ->
  usable OASData (t_struct T) o es V -> commutes_with_constants T (values (o_Mach o)) (values (o_alpha o)) (values (o_alt o)) ->
  exists x0 wing_CD, close OASData o V x0 /\ tabulates (t_struct T) o x0 "CD_train" 0 wing_CD /\
    forall i, (i < nn)%nat ->
      V "drag" i = V "fltcond|q" i * V "ac|geom|wing|S_ref" 0%nat *
        (t_surrogate T (values (o_Mach o)) (values (o_alpha o)) (values (o_alt o)) wing_CD (V "fltcond|M" i) (V "alpha_bal.alpha" i) (V "fltcond|h" i) + V "ac|aero|CD_nonwing" 0%nat).
Proof.
  intros T es nn o g V H S TP U CC. destruct (C81_aerostruct_drag T es nn o g V H S TP U) as (x0 & CLt & CDt & Ft & C0 & _ & _ & TD & _ & _ & Q).
  exists x0, (fun i j k => CDt i j k - V "ac|aero|CD_nonwing" 0%nat). split; [exact C0|]. split.
  - intros i j k Gr. destruct (TD i j k Gr) as [r [A B]]. exists r. split; [exact A|]. rewrite B. ring.
  - intros i Hi. destruct (Q i Hi) as (_ & _ & Q3). rewrite Q3. f_equal. rewrite <- CC. f_equal.
    apply functional_extensionality; intros a. apply functional_extensionality; intros b. apply functional_extensionality; intros c. ring.
Qed.
Print Assumptions C81_aerostruct_nonwing.

Definition toy_struct_values : env := fun k _ =>
  match assoc k [("fltcond|TempIncrement", 10); ("fltcond|M", 1/2); ("alpha_bal.alpha", 2); ("fltcond|h", 0); ("fltcond|CL", 20510); ("fltcond|q", 3); ("ac|geom|wing|S_ref", 4);
    ("training_data.CL_train", 20510); ("training_data.CD_train", 20511); ("training_data.failure_train", 20510); ("aero_surrogate.CL", 20510); ("aero_surrogate.CD", 20511);
    ("failure", 20510); ("ac|weights|W_wing", 20510); ("drag", 3 * 4 * (20510 + 1))] with
  | Some v => v | None => 1 end.
Example C81_aerostruct_case : let o := one_point 2 (1/2) in exists g, AerostructDragPolar toy_tools [Setup o] 1 o = Ok g /\ solution g toy_struct_values /\
  positive_tol OASData o /\ usable OASData (t_struct toy_tools) o [Setup o] toy_struct_values /\
  commutes_with_constants toy_tools (values (o_Mach o)) (values (o_alpha o)) (values (o_alt o)).
Proof.
  intros o. set (G := aerostruct_group toy_tools [Setup o] 1 o [1/2] [2] [0]). exists G.
  assert (Gr : in_grid o 0 0 0) by (unfold in_grid; cbn; lia).
  assert (Tl : o_tol o <= 1) by (cbn; lra).
  split; [reflexivity|]. split; [|split; [apply toy_positive | split]].
  - intros s [<- | [<- | [<- | [<- | []]]]].
    + set (I := reads G (nth 0 (g_subs G) (alpha_balance 0 "")) toy_struct_values).
      destruct (toy_table OASData o [Setup o] I (one_point_arrays _ _) (one_point_dict _ _) eq_refl (toy_positive _ _ _) Gr eq_refl eq_refl Tl) as [NP (D & HD & TV)].
      exists D, 1%nat, 1%nat, 1%nat. split; [exact HD|]. split; [reflexivity|]. split.
      * intros f i j k If Hi Hj Hk. replace i with 0%nat by lia. replace j with 0%nat by lia. replace k with 0%nat by lia. rewrite (TV f If). destruct If as [<- | [<- | [<- | []]]]; cbn; ring.
      * intros _. pose proof (C79_new_inputs OASData toy o [Setup o] I true D (toy_positive _ _ _) ltac:(intros e [<- | []]; reflexivity) NP ltac:(intros y []) HD) as [_ W].
        destruct (W eq_refl) as [r [A E]]. rewrite E. unfold analysed, toy in A. injection A; intros; subst r. cbn. lra.
    + intros f t i [[= <- <-] | [[= <- <-] | [[= <- <-] | []]]] Hi; cbn; ring.
    + intros i Hi. reflexivity.
    + intros f k F i E Hi. cbn in E. destruct (String.eqb_spec f "drag") as [->|N]; [|discriminate E]. injection E as <- <-. cbn. ring.
  - split; [intros e [<- | []]; reflexivity|]. split; [|intros y []].
    exact (proj1 (toy_table OASData o [Setup o] toy_struct_values (one_point_arrays _ _) (one_point_dict _ _) eq_refl (toy_positive _ _ _) Gr eq_refl eq_refl Tl)).
  - intros t c M al H. cbn. ring.
Qed.

(** ** C82: thickness ratio of the panels *)

(** Wing through sections: each strip has the mean of the straight-line values at its edges. *)
Theorem C82_sections : forall T es p g V, VLMDragPolar T es p = Ok g -> solution g V -> v_geo p = Sectioned -> (1 <= v_x p)%nat ->
  match v_y p with VInt n => (1 <= n)%nat | VList l => List.Forall (fun n => (1 <= n)%nat) l end ->
  let s := {| sec_n := v_sections p; sec_x := V "ac|geom|wing|x_LE_sec"; sec_y := V "ac|geom|wing|y_sec"; sec_c := V "ac|geom|wing|chord_sec" |} in
  0 < sections_planform s -> 0 < V "ac|geom|wing|S_ref" 0%nat ->
  exists l, panels (v_sections p) (v_y p) = Ok l /\
  let ny := (half_span_panels p + 1)%nat in let m := as_mesh ny (V "ac|geom|wing|OAS_mesh") in let tc := V "ac|geom|wing|toverc" in
  forall i j, (i + 1 < v_sections p)%nat -> full_y s i <> full_y s (i + 1)%nat -> (column l i <= j < column l (i + 1))%nat ->
    let line y := between (py m 0 (column l i)) (py m 0 (column l (i + 1))) (tc i) (tc (i + 1)%nat) y in
    wing p V "ac|geom|wing|toverc" j = (line (py m 0 j) + line (py m 0 (j + 1))) / 2.
Proof.
  intros T es p g V H S Eg Hx Hl s HP HS.
  assert (RR : forall l, panels (v_sections p) (v_y p) = Ok l -> forall j, (j < total l)%nat -> wing p V "ac|geom|wing|toverc" j = panel_toverc true l (v_sections p) (V "ac|geom|wing|toverc") j).
  { intros l' El. destruct (vlm_ok _ _ _ _ H) as (l & mm & a & h & _ & _ & _ & -> & Q). rewrite Eg in Q.
    assert (Q' : panels (v_sections p) (v_y p) = Ok l) by (destruct (v_y p); exact Q). rewrite El in Q'. injection Q' as ->.
    unfold wing. rewrite Eg. clear - S Eg. destruct p as [nn geo x y ns tw vec ? ? ? ?]. cbn in Eg. subst geo. exact (sol_rel _ V _ S (or_intror (or_intror (or_intror (or_introl eq_refl))))). }
  destruct (C81_sections T es p g V H S Eg Hx Hl HP HS) as (l & El & RO & Ecol & _ & _ & _ & _). fold s in RO.
  exists l. split; [exact El|]. intros ny m tc i j Hi Hy Hj line.
  assert (Hsec : (2 <= v_sections p)%nat) by apply RO.
  assert (Hcol : (column l (i + 1) <= column l (v_sections p - 1))%nat).
  { rewrite !(R_col l s RO) by (cbn; lia). apply start_mono. lia. }
  assert (M : forall j, (j < ny)%nat -> py m 0 j = py (section_mesh (v_x p + 1) l s (Some (V "ac|geom|wing|S_ref" 0%nat))) 0 j).
  { assert (Epp : ny = (total l + 1)%nat). { unfold ny. rewrite <- points_panels. unfold points_y. rewrite Eg, (panels_total _ _ _ El). destruct (v_y p); reflexivity. }
    unfold m. rewrite Epp. intros j' Hj'. destruct (vlm_ok _ _ _ _ H) as (l' & mm & a & h & _ & _ & _ & -> & Q). rewrite Eg in Q.
    assert (Q' : panels (v_sections p) (v_y p) = Ok l') by (destruct (v_y p); exact Q). rewrite El in Q'. injection Q' as <-.
    clear - S Eg Hj' Hx. destruct p as [nn geo x y ns tw vec ? ? ? ?]. cbn in Eg, s. subst geo. unfold py. apply (sol_rel _ V _ S (or_introl eq_refl) 0%nat j' 1%nat); [cbn; lia | exact Hj' | lia]. }
  assert (Tot : total l = column l (v_sections p - 1)).
  { destruct RO as (C1 & C2 & C3). unfold column, total. cbn [s sec_n] in C2. rewrite <- C2, firstn_all. reflexivity. }
  rewrite (RR l El) by lia. rewrite C78_panel_average; [| exact RO | lia].
  assert (Kp : scaling s (Some (V "ac|geom|wing|S_ref" 0%nat)) <> 0).
  { cbn. pose proof (sqrt_lt_R0 (V "ac|geom|wing|S_ref" 0%nat / sections_planform s) (Rdiv_lt_0_compat _ _ HS HP)). lra. }
  change (v_sections p) with (sec_n s).
  rewrite !(C78_linear_on_sections (v_x p + 1) l s (Some (V "ac|geom|wing|S_ref" 0%nat)) _ i _ 0 RO Hi Hy Kp) by lia.
  unfold line. rewrite !M by lia. reflexivity.
Qed.
Print Assumptions C82_sections.

(** Trapezoidal wing: what the strips get, against the straight line between tip and root. *)
Theorem C82_trapezoid : forall T es p g V n, VLMDragPolar T es p = Ok g -> solution g V -> v_geo p = Trapezoidal -> v_y p = VInt n -> (1 <= n)%nat ->
  let tip := V "ac|geom|wing|toverc" 0%nat in let root := V "ac|geom|wing|toverc" 1%nat in
  forall j, (j < n)%nat -> wing p V "ac|geom|wing|toverc" j = tip + (root - tip) * ((cosine_step n j + cosine_step n (j + 1)) / 2).
Proof.
  intros T es p g V n H S Eg Ey Hn tip root j Hj. destruct (vlm_ok _ _ _ _ H) as (l & mm & a & h & _ & _ & _ & -> & Q). clear H. rewrite Eg, Ey in Q. subst l.
  assert (PK : panels_ok 2 [n]) by (repeat split; [lia|repeat constructor; lia]).
  assert (RR : wing p V "ac|geom|wing|toverc" j = panel_toverc true [n] 2 (V "ac|geom|wing|toverc") j).
  { unfold wing. rewrite Eg. clear Ey. destruct p as [nn geo x y ns tw vec ? ? ? ?]. cbn in Eg. subst geo. apply (sol_rel _ V _ S (or_intror (or_intror (or_intror (or_introl eq_refl)))) j). cbn. lia. }
  rewrite RR. change j with (region_start [n] 0 + j)%nat at 1. rewrite (panel_at true 2 [n]) by (cbn; lia). change (ny_of [n] 0) with n. cbn [frac]. fold tip. change (V "ac|geom|wing|toverc" (0 + 1)%nat) with root.
  rewrite !step_frac by lia. replace (n + 1 - 1)%nat with n by lia. reflexivity.
Qed.
Print Assumptions C82_trapezoid.

Lemma documented_even : forall T es p g V n, VLMDragPolar T es p = Ok g -> solution g V -> v_geo p = Trapezoidal -> v_y p = VInt n -> (1 <= v_x p)%nat -> (1 <= n)%nat ->
  0 < V "ac|geom|wing|S_ref" 0%nat -> 0 < V "ac|geom|wing|AR" 0%nat ->
  forall tip root j, (j < n)%nat ->
  documented_toverc (as_mesh (n + 1) (V "ac|geom|wing|OAS_mesh")) n tip root j = tip + (root - tip) * ((INR j + INR (j + 1)) / (2 * INR n)).
Proof.
  intros T es p g V n H S Eg Ey Hx Hn HS HA tip root j Hj. destruct (vlm_ok _ _ _ _ H) as (l & mm & a & h & _ & _ & _ & -> & _). clear H.
  destruct p as [nn geo x y ns tw vec ? ? ? ?]. cbn in Eg, Ey, Hx. subst geo y.
  set (t := {| tz_S := V "ac|geom|wing|S_ref" 0%nat; tz_AR := V "ac|geom|wing|AR" 0%nat; tz_taper := V "ac|geom|wing|taper" 0%nat; tz_sweep := V "ac|geom|wing|c4sweep" 0%nat |}).
  assert (M : forall j, (j < n + 1)%nat -> py (as_mesh (n + 1) (V "ac|geom|wing|OAS_mesh")) 0 j = py (trapezoid_mesh (x + 1) (n + 1) t) 0 j).
  { intros j' Hj'. unfold py. apply (sol_rel _ V _ S (or_introl eq_refl) 0%nat j' 1%nat); [cbn; lia | exact Hj' | lia]. }
  assert (B : 0 < half_span t). { unfold half_span. cbn. apply Rdiv_lt_0_compat; [apply sqrt_lt_R0; now apply Rmult_lt_0_compat | lra]. }
  assert (HN : 0 < INR n) by (apply lt_0_INR; lia).
  unfold documented_toverc, between. rewrite !M by lia. rewrite !trapezoid_y by lia. replace (n + 1 - 1)%nat with n by lia. rewrite plus_INR. cbn [INR]. field. lra.
Qed.

(** Right when the ratio is the same at tip and root, and for up to two strips. *)
Theorem C82_trapezoid_partial : forall T es p g V n, VLMDragPolar T es p = Ok g -> solution g V -> v_geo p = Trapezoidal -> v_y p = VInt n -> (1 <= v_x p)%nat -> (1 <= n)%nat ->
  0 < V "ac|geom|wing|S_ref" 0%nat -> 0 < V "ac|geom|wing|AR" 0%nat ->
  let tip := V "ac|geom|wing|toverc" 0%nat in let root := V "ac|geom|wing|toverc" 1%nat in
  (n <= 2)%nat \/ tip = root ->
  forall j, (j < n)%nat -> wing p V "ac|geom|wing|toverc" j = documented_toverc (as_mesh (n + 1) (V "ac|geom|wing|OAS_mesh")) n tip root j.
Proof.
  intros T es p g V n H S Eg Ey Hx Hn HS HA tip root C j Hj. rewrite (documented_even T es p g V n H S Eg Ey Hx Hn HS HA) by exact Hj.
  rewrite (C82_trapezoid T es p g V n H S Eg Ey Hn) by exact Hj. fold tip root. destruct C as [C | ->]; [|ring]. do 2 f_equal.
  unfold cosine_step. assert (E : (n = 1 /\ j = 0 \/ n = 2 /\ j = 0 \/ n = 2 /\ j = 1)%nat) by lia. destruct E as [[-> ->] | [[-> ->] | [-> ->]]]; cbn [Nat.add INR].
  - replace (PI * (0 / 1)) with 0 by field. replace (PI * (1 / 1)) with PI by field. rewrite cos_0, cos_PI. field.
  - replace (PI * (0 / (1 + 1))) with 0 by field. replace (PI * (1 / (1 + 1))) with (PI / 2) by field. rewrite cos_0, cos_PI2. field.
  - replace (PI * (1 / (1 + 1))) with (PI / 2) by field. replace (PI * ((1 + 1) / (1 + 1))) with PI by field. rewrite cos_PI, cos_PI2. field.
Qed.
Print Assumptions C82_trapezoid_partial.

Lemma cos_small n : (3 <= n)%nat -> 1 - cos (PI / INR n) < 2 / INR n.
Proof.
  intros Hn. assert (HN : 3 <= INR n) by (change 3 with (INR 3) || (replace 3 with (INR 3) by (cbn; lra)); apply le_INR; exact Hn).
  destruct (Nat.eq_dec n 3) as [->|N3].
  - replace (INR 3) with 3 by (cbn; lra). rewrite cos_PI3. lra.
  - assert (HN4 : 4 <= INR n) by (replace 4 with (INR 4) by (cbn; lra); apply le_INR; lia). clear HN.
    pose proof PI_RGT_0 as P0. pose proof PI_4 as P4.
    set (y := PI / INR n / 2). replace (PI / INR n) with (2 * y) by (unfold y; field; lra). rewrite cos_2a_sin.
    assert (Hy : 0 < y) by (unfold y; apply Rdiv_lt_0_compat; [apply Rdiv_lt_0_compat; lra | lra]).
    pose proof (sin_lt_x y Hy) as L.
    assert (Sp : 0 < sin y). { apply sin_gt_0; [exact Hy|]. unfold y. unfold Rdiv. rewrite Rmult_assoc. rewrite <- (Rmult_1_r PI) at 2. apply Rmult_lt_compat_l; [exact P0|].
      assert (/ INR n <= / 4) by (apply Rinv_le_contravar; lra). assert (0 < / INR n) by (apply Rinv_0_lt_compat; lra). lra. }
    assert (Sq : sin y * sin y < y * y) by nra.
    assert (Y : y * y <= / INR n).
    { unfold y. replace (PI / INR n / 2 * (PI / INR n / 2)) with ((PI * PI / 16) * (4 / INR n) * / INR n) by (field; lra).
      assert (0 < / INR n) by (apply Rinv_0_lt_compat; lra). rewrite <- (Rmult_1_l (/ INR n)) at 2. apply Rmult_le_compat_r; [lra|].
      assert (PI * PI / 16 <= 1) by nra. assert (4 / INR n <= 1) by (apply Rmult_le_reg_r with (INR n); [lra|]; unfold Rdiv; rewrite Rmult_assoc, Rinv_l; lra).
      assert (0 < 4 / INR n) by (apply Rdiv_lt_0_compat; lra). assert (0 < PI * PI / 16) by nra. nra. }
    unfold Rdiv. lra.
Qed.
(** With three or more strips and different ratios at tip and root, the strip at the tip
    never gets the documented value. *)
Theorem C82_trapezoid_tip_strip : forall T es p g V n, VLMDragPolar T es p = Ok g -> solution g V -> v_geo p = Trapezoidal -> v_y p = VInt n -> (1 <= v_x p)%nat -> (3 <= n)%nat ->
  0 < V "ac|geom|wing|S_ref" 0%nat -> 0 < V "ac|geom|wing|AR" 0%nat ->
  let tip := V "ac|geom|wing|toverc" 0%nat in let root := V "ac|geom|wing|toverc" 1%nat in
  tip <> root ->
  wing p V "ac|geom|wing|toverc" 0%nat <> documented_toverc (as_mesh (n + 1) (V "ac|geom|wing|OAS_mesh")) n tip root 0.
Proof.
  intros T es p g V n H S Eg Ey Hx Hn HS HA tip root D. rewrite (documented_even T es p g V n H S Eg Ey Hx ltac:(lia) HS HA) by lia.
  rewrite (C82_trapezoid T es p g V n H S Eg Ey) by lia. fold tip root. intros E.
  assert (HN : 0 < INR n) by (apply lt_0_INR; lia). assert (E' : (cosine_step n 0 + cosine_step n (0 + 1)) / 2 = (INR 0 + INR (0 + 1)) / (2 * INR n)).
  { apply Rmult_eq_reg_l with (root - tip); [lra | lra]. }
  unfold cosine_step in E'. cbn [Nat.add INR] in E'. replace (PI * (0 / INR n)) with 0 in E' by (field; lra). replace (PI * (1 / INR n)) with (PI / INR n) in E' by (field; lra). rewrite cos_0 in E'.
  pose proof (cos_small n Hn) as C. assert (Q : (0 + 1) / (2 * INR n) = 2 / INR n / 4) by (field; lra). rewrite Q in E'. lra.
Qed.
Print Assumptions C82_trapezoid_tip_strip.

(** A converged trapezoidal wing with three strips. *)
Definition toy_trapezoid : polar := {| v_nn := 1; v_geo := Trapezoidal; v_x := 1; v_y := VInt 3; v_sections := 2; v_twist := 4; v_vec := false;
  v_Mach := NdArray [1/2]; v_alpha := NdArray [2]; v_alt := NdArray [0]; v_surf := [("with_wave", SBool true)] |}.
Definition toy_ratios : nat -> R := fun i => match i with O => 10/100 | _ => 20/100 end.
Definition toy_mesh : nat -> R := Model_Mesh.flatten 4 (trapezoid_mesh 2 4 {| tz_S := 4; tz_AR := 1; tz_taper := 1; tz_sweep := 0 |}).
Definition toy_trapezoid_values : env := fun k =>
  match assoc k [("ac|geom|wing|OAS_mesh", toy_mesh); ("twisted_mesh", toy_mesh); ("ac|geom|wing|toverc", toy_ratios); ("t_over_c_interp.panel_toverc", panel_toverc true [3%nat] 2 toy_ratios)] with
  | Some f => f
  | None => fun _ =>
    match assoc k [("fltcond|TempIncrement", 10); ("fltcond|M", 1/2); ("alpha_bal.alpha", 2); ("fltcond|h", 0); ("fltcond|CL", 30510); ("fltcond|q", 3); ("ac|geom|wing|S_ref", 4); ("ac|geom|wing|c4sweep", 0);
      ("training_data.CL_train", 30510); ("training_data.CD_train", 30510); ("aero_surrogate.CL", 30510); ("aero_surrogate.CD", 30510); ("drag", 3 * 4 * (30510 + 1))] with
    | Some v => v | None => 1 end
  end.
Lemma toy_trapezoid_solution : exists g, VLMDragPolar toy_tools [Setup (vlm_options toy_trapezoid)] toy_trapezoid = Ok g /\ solution g toy_trapezoid_values.
Proof.
  set (o := vlm_options toy_trapezoid). set (G := vlm_group toy_tools [Setup o] toy_trapezoid [3%nat] [1/2] [2] [0]). exists G.
  assert (Ar : arrays o) by (repeat split; cbn; eauto).
  assert (Di : is_dict (o_surf o)) by (repeat constructor; cbn; tauto).
  assert (TP : positive_tol VLMData o) by (intros Q; discriminate Q).
  assert (Gr : in_grid o 0 0 0) by (unfold in_grid; cbn; lia).
  split; [reflexivity|]. intros s [<- | [<- | [<- | [<- | [<- | [<- | [<- | [<- | []]]]]]]]].
  - intros ix j d Hi Hj Hd. cbn in Hj. change (points_y toy_trapezoid) with 4%nat. exact (flatten_at 4 _ ix j d Hj Hd).
  - intros j Hj. reflexivity.
  - intros ix j d Hi Hj Hd. reflexivity.
  - intros j Hj. reflexivity.
  - destruct (toy_table VLMData o [Setup o] (reads G (nth 4 (g_subs G) (alpha_balance 0 "")) toy_trapezoid_values) Ar Di eq_refl TP Gr eq_refl eq_refl Logic.I) as [_ (D & HD & TV)].
    exists D, 1%nat, 1%nat, 1%nat. split; [exact HD|]. split; [reflexivity|]. split; [|discriminate].
    intros f i j k If Hi Hj Hk. replace i with 0%nat by lia. replace j with 0%nat by lia. replace k with 0%nat by lia. rewrite (TV f If). destruct If as [<- | [<- | []]]; cbn; ring.
  - intros f t i [[= <- <-] | [[= <- <-] | []]] Hi; cbn; ring.
  - intros i Hi. reflexivity.
  - intros f k F i E Hi. cbn in E. destruct (String.eqb_spec f "drag") as [->|N]; [|discriminate E]. injection E as <- <-. reflexivity.
Qed.
(** The documented interpolation is not what the code does. *)
Theorem C82_trapezoid_refuted : ~ (forall T es p g V n, VLMDragPolar T es p = Ok g -> solution g V -> v_geo p = Trapezoidal -> v_y p = VInt n -> (1 <= v_x p)%nat -> (1 <= n)%nat ->
  0 < V "ac|geom|wing|S_ref" 0%nat -> 0 < V "ac|geom|wing|AR" 0%nat ->
  forall j, (j < n)%nat -> wing p V "ac|geom|wing|toverc" j =
    documented_toverc (as_mesh (n + 1) (V "ac|geom|wing|OAS_mesh")) n (V "ac|geom|wing|toverc" 0%nat) (V "ac|geom|wing|toverc" 1%nat) j).
Proof.
  intros A. destruct toy_trapezoid_solution as [g [H S]].
  apply (C82_trapezoid_tip_strip toy_tools _ toy_trapezoid g toy_trapezoid_values 3 H S eq_refl eq_refl); [cbn; lia | lia | cbn; lra | cbn; lra | cbn; lra |].
  apply (A toy_tools _ toy_trapezoid g toy_trapezoid_values 3%nat H S eq_refl eq_refl); [cbn; lia | lia | cbn; lra | cbn; lra | lia].
Qed.
Print Assumptions C82_trapezoid_refuted.
