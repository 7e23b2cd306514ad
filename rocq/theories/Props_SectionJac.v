(** C77: exact partials of the mesh through given sections, for any history of calls. *)
From Coq Require Import Reals List Bool PeanoNat Lia Lra.
From Coquelicot Require Import Coquelicot.
From Verif Require Import RSum Py Model_Algebra Model_Vectors Model_Aero Model_Mesh Spec_Mesh Proofs_Mesh Proofs_MeshSparse Proofs_Deriv Props_Sections.
Import ListNotations.
Open Scope R_scope.

Definition delta (a b : nat) : R := if Nat.eqb a b then 1 else 0.
Lemma set_D a c k : is_derive (fun v => set_at a c v k) (a c) (delta k c).
Proof. unfold set_at, delta. destruct (Nat.eqb k c); [apply D_id|apply D_const]. Qed.
Lemma set_same a c k : set_at a c (a c) k = a k.
Proof. unfold set_at. destruct (Nat.eqb_spec k c) as [->|]; reflexivity. Qed.
Lemma set_regions s l x c v : regions_ok s l -> regions_ok (sec_set s x c v) l.
Proof. unfold regions_ok. destruct x; exact (fun H => H). Qed.
Lemma set_n s x c v : sec_n (sec_set s x c v) = sec_n s.
Proof. destruct x; reflexivity. Qed.
(** Derivative of leading edge, spanwise position and chord of section [k]. *)
Definition d_x (x : sec_input) (c k : nat) : R := match x with In_x => delta k c | _ => 0 end.
Definition d_y (n : nat) (x : sec_input) (c k : nat) : R := match x with In_y => if Nat.ltb k (n - 1) then delta k c else 0 | _ => 0 end.
Definition d_c (x : sec_input) (c k : nat) : R := match x with In_c => delta k c | _ => 0 end.
Lemma x_D s A x c k : is_derive (fun v => sec_x (sec_set s x c v) k) (sec_get s A x c) (d_x x c k).
Proof. destruct x; cbn [sec_set sec_x sec_get d_x]; try apply D_const. apply set_D. Qed.
Lemma c_D s A x c k : is_derive (fun v => sec_c (sec_set s x c v) k) (sec_get s A x c) (d_c x c k).
Proof. destruct x; cbn [sec_set sec_c sec_get d_c]; try apply D_const. apply set_D. Qed.
Lemma y_D s A x c k : is_derive (fun v => full_y (sec_set s x c v) k) (sec_get s A x c) (d_y (sec_n s) x c k).
Proof.
  unfold full_y, d_y. apply (is_derive_ext (fun v => if Nat.ltb k (sec_n s - 1) then sec_y (sec_set s x c v) k else 0)); [intro v; now rewrite set_n|].
  destruct (Nat.ltb k (sec_n s - 1)); destruct x; cbn [sec_set sec_y sec_get]; try apply D_const. apply set_D.
Qed.

(** ** The area *)
Lemma rsum_D (f : nat -> R -> R) (d : nat -> R) n t : (forall k, (k < n)%nat -> is_derive (f k) t (d k)) -> is_derive (fun v => rsum n (fun k => f k v)) t (rsum n d).
Proof. induction n as [|n IH]; intro H; cbn [rsum]; [apply D_const|]. apply D_plus; [apply IH; intros; apply H; lia|apply H; lia]. Qed.
Lemma sec_same s x c k A : sec_x (sec_set s x c (sec_get s A x c)) k = sec_x s k /\ sec_c (sec_set s x c (sec_get s A x c)) k = sec_c s k /\ full_y (sec_set s x c (sec_get s A x c)) k = full_y s k.
Proof. unfold full_y. destruct x; cbn [sec_set sec_get sec_x sec_y sec_c sec_n]; rewrite ?set_same; auto. Qed.
Lemma area_D s A x c : (c < sec_size (sec_n s) x)%nat -> is_derive (fun v => area (sec_set s x c v)) (sec_get s A x c) (area_jac s x c).
Proof.
  intros Hc. unfold area. apply (is_derive_ext (fun v => rsum (sec_n s - 1) (fun i => (full_y (sec_set s x c v) (i + 1)%nat - full_y (sec_set s x c v) i) * (sec_c (sec_set s x c v) i + sec_c (sec_set s x c v) (i + 1)%nat) * (5/10)) * 2)).
  { intro v. now rewrite set_n. }
  eapply D_eq.
  - apply D_cmult, rsum_D with (d := fun i => ((d_y (sec_n s) x c (i + 1) - d_y (sec_n s) x c i) * (sec_c s i + sec_c s (i + 1)%nat) + (full_y s (i + 1)%nat - full_y s i) * (d_c x c i + d_c x c (i + 1))) * (5/10)). intros i Hi. apply D_cmult.
    eapply D_eq; [apply D_mult; [apply D_minus; apply y_D|apply D_plus; apply c_D]|]. cbv beta. rewrite !(proj1 (proj2 (sec_same s x c _ A))), !(proj2 (proj2 (sec_same s x c _ A))). ring.
  - destruct x; cbn [area_jac d_y d_c].
    + rewrite rsum_zero; [ring|]. intros. ring.
    + unfold dA_dysec. f_equal. apply rsum_ext. intros i Hi. cbn [sec_size] in Hc. unfold delta. destruct (Nat.ltb_spec i (sec_n s - 1)); [|lia]. rewrite !(Nat.eqb_sym c).
      replace (Nat.ltb (i + 1) (sec_n s - 1)) with (Nat.ltb i (sec_n s - 2)) by (destruct (Nat.ltb_spec i (sec_n s - 2)), (Nat.ltb_spec (i + 1) (sec_n s - 1)); auto; lia).
      destruct (Nat.ltb i (sec_n s - 2)), (Nat.eqb i c), (Nat.eqb (i + 1) c); cbn [andb]; field.
    + unfold dA_dcsec. f_equal. apply rsum_ext. intros i Hi. unfold delta. destruct (Nat.eqb_spec i c), (Nat.eqb_spec (i + 1) c), (Nat.leb_spec i c), (Nat.ltb_spec c (i + 2)); cbn [andb]; try lia; field.
    + rewrite rsum_zero; [ring|]. intros. ring.
Qed.
(** The area reported has exact partials. *)
Theorem C77_area_partials s x c : (c < sec_size (sec_n s) x)%nat -> is_derive (fun v => area (sec_set s x c v)) (sec_get s None x c) (area_jac s x c).
Proof. apply area_D. Qed.
Print Assumptions C77_area_partials.

(** ** The mesh before scaling *)
Definition d_unscaled (nx : nat) (l : list nat) (n : nat) (x : sec_input) (c ix i k d : nat) : R :=
  let f := cf (ny_of l i + 1) k in
  match d with
  | 0%nat => cf nx ix * (d_c x c i + (d_c x c (i + 1) - d_c x c i) * f) + (d_x x c i + (d_x x c (i + 1) - d_x x c i) * f)
  | 1%nat => d_y n x c i + (d_y n x c (i + 1) - d_y n x c i) * f
  | _ => 0
  end.
Lemma unscaled_D nx l s A x c ix i k d : regions_ok s l -> (i < sec_n s - 1)%nat -> (k <= ny_of l i)%nat -> (d < 3)%nat ->
  is_derive (fun v => unscaled nx l (sec_set s x c v) ix (region_start l i + k)%nat d) (sec_get s A x c) (d_unscaled nx l (sec_n s) x c ix i k d).
Proof.
  intros R Hi Hk Hd. destruct d as [|[|[|]]]; [| | |lia]; unfold d_unscaled.
  - eapply is_derive_ext; [intro v; symmetry; apply (unscaled_x nx l _ (set_regions s l x c v R)); [rewrite set_n; assumption|assumption]|]. cbv beta.
    apply D_plus; [apply D_multc|]; apply D_plus; try apply c_D; try apply x_D; apply D_cmult, D_minus; (apply c_D || apply x_D).
  - eapply is_derive_ext; [intro v; symmetry; apply (unscaled_y nx l _ (set_regions s l x c v R)); [rewrite set_n; assumption|assumption]|]. cbv beta.
    apply D_plus; [apply y_D|]. apply D_cmult, D_minus; apply y_D.
  - exact (D_const 0 _).
Qed.
(** ** The stored arrays hold these derivatives *)
Section Arrays.
  Variables (nx : nat) (l : list nat) (s : sections).
  Hypothesis (RK : regions_ok s l).
  Let ny := (total l + 1)%nat.
  Variables (ix i k d : nat).
  Hypothesis (Hix : (ix < nx)%nat) (Hi : (i < sec_n s - 1)%nat) (Hk : (first_point i <= k <= ny_of l i)%nat) (Hd : (d < 3)%nat).
  Let j := (region_start l i + k)%nat.
  Lemma j_ny : (j < ny)%nat.
  Proof. unfold j, ny. rewrite <- (R_total l s RK). pose proof (start_mono l (i + 1) (sec_n s - 1) ltac:(lia)) as M. rewrite start_S in M. lia. Qed.
  Lemma in_region_eq d' i' : in_region nx l d' i' (flat ny ix j d) = Nat.eqb d d' && Nat.eqb i i'.
  Proof.
    unfold in_region. fold ny. destruct (flat_div ny ix j d j_ny Hd) as (-> & -> & ->). destruct (Nat.ltb_spec ix nx) as [_|]; [|lia]. rewrite andb_true_r, <- andb_assoc. f_equal.
    destruct (Nat.eqb_spec i i') as [<-|N].
    - unfold j. destruct (Nat.leb_spec (region_start l i + first_point i) (region_start l i + k)), (Nat.ltb_spec (region_start l i + k) (region_start l i + ny_of l i + 1)); auto; lia.
    - destruct (Nat.leb_spec (region_start l i' + first_point i') j) as [H1|]; [|reflexivity]. destruct (Nat.ltb_spec j (region_start l i' + ny_of l i' + 1)) as [H2|]; [|reflexivity].
      exfalso. apply N. apply (locate_unique l i i' j); unfold j in *; lia.
  Qed.
  Lemma local_eq : local l i (flat ny ix j d) = k.
  Proof. unfold local. fold ny. destruct (flat_div ny ix j d j_ny Hd) as (_ & -> & _). unfold j. lia. Qed.
  Lemma chordwise_eq : chordwise nx l (flat ny ix j d) = cf nx ix.
  Proof. unfold chordwise. fold ny. destruct (flat_div ny ix j d j_ny Hd) as (_ & _ & ->). rewrite cos_space_eq. ring. Qed.
  Lemma dysec_eq c : (c < sec_n s - 1)%nat -> dmesh_dysec nx l (sec_n s) (flat ny ix j d) c = d_unscaled nx l (sec_n s) In_y c ix i k d.
  Proof.
    intro Hc. unfold dmesh_dysec. rewrite (rsum_one _ _ i); [|assumption|intros q Hq N; rewrite in_region_eq; destruct (Nat.eqb_spec i q); [congruence|now rewrite andb_false_r]].
    rewrite in_region_eq, Nat.eqb_refl, andb_true_r, local_eq, cos_deriv_end_eq, cos_deriv_start_eq. unfold d_unscaled. cbn [d_y d_c d_x]. unfold delta. rewrite !(Nat.eqb_sym c). destruct (Nat.ltb_spec i (sec_n s - 1)) as [_|]; [|lia].
    replace (Nat.ltb (i + 1) (sec_n s - 1)) with (Nat.ltb i (sec_n s - 2)) by (destruct (Nat.ltb_spec i (sec_n s - 2)), (Nat.ltb_spec (i + 1) (sec_n s - 1)); auto; lia).
    destruct d as [|[|[|]]]; cbn [Nat.eqb]; [ring| |reflexivity|lia]. destruct (Nat.ltb i (sec_n s - 2)), (Nat.eqb i c), (Nat.eqb (i + 1) c); cbn [andb]; ring.
  Qed.
  Lemma dcsec_eq c : dmesh_dcsec nx l (sec_n s) (flat ny ix j d) c = d_unscaled nx l (sec_n s) In_c c ix i k d.
  Proof.
    unfold dmesh_dcsec. rewrite (rsum_one _ _ i); [|assumption|intros q Hq N; rewrite in_region_eq; destruct (Nat.eqb_spec i q); [congruence|now rewrite andb_false_r]].
    rewrite in_region_eq, Nat.eqb_refl, andb_true_r, local_eq, cos_deriv_end_eq, cos_deriv_start_eq, chordwise_eq. unfold d_unscaled. cbn [d_y d_c d_x]. unfold delta. rewrite !(Nat.eqb_sym c).
    destruct d as [|[|[|]]]; cbn [Nat.eqb]; [|ring|reflexivity|lia]. destruct (Nat.eqb i c), (Nat.eqb (i + 1) c); ring.
  Qed.
  (** Entries with the same rows and columns and any values. *)
  Definition pattern (v1 v2 : nat -> nat -> R) (i : nat) : list entry :=
    app (map (fun p => (flat ny (fst p) (region_start l i + snd p) 0, (i + 1)%nat, v1 i (snd p))) (region_points nx l i))
        (map (fun p => (flat ny (fst p) (region_start l i + snd p) 0, i, v2 i (snd p))) (region_points nx l i)).
  Lemma pattern_eq v1 v2 c : assembled (flat_map (pattern v1 v2) (seq 0 (sec_n s - 1))) (flat ny ix j d) c
    = if Nat.eqb d 0 then (if Nat.eqb c (i + 1) then v1 i k else 0) + (if Nat.eqb c i then v2 i k else 0) else 0.
  Proof.
    rewrite assembled_flat_map. rewrite (rsum_ext _ _ (fun i' => if Nat.eqb i i' then (if Nat.eqb d 0 then (if Nat.eqb c (i + 1) then v1 i k else 0) + (if Nat.eqb c i then v2 i k else 0) else 0) else 0)).
    - rewrite (rsum_one _ _ i); [now rewrite Nat.eqb_refl|assumption|]. intros q _ N. destruct (Nat.eqb_spec i q); [congruence|reflexivity].
    - intros i' Hi'. unfold pattern, region_points. rewrite assembled_app. assert (B : (region_start l i' + first_point i' + (ny_of l i' + 1 - first_point i') <= ny)%nat).
      { unfold ny. rewrite <- (R_total l s RK). pose proof (start_mono l (i' + 1) (sec_n s - 1) ltac:(lia)) as M. rewrite start_S in M. unfold first_point. pose proof (R_len l s RK i' Hi'). destruct (Nat.eqb i' 0); lia. }
      rewrite !assembled_points by (try exact j_ny; assumption). replace (region_start l i' + first_point i' + (ny_of l i' + 1 - first_point i'))%nat with (region_start l i' + ny_of l i' + 1)%nat by (unfold first_point; pose proof (R_len l s RK i' Hi'); destruct (Nat.eqb i' 0); lia).
      destruct (Nat.eqb_spec i i') as [<-|N].
      + replace (Nat.leb (region_start l i + first_point i) j) with true by (symmetry; apply Nat.leb_le; unfold j; lia). replace (Nat.ltb j (region_start l i + ny_of l i + 1)) with true by (symmetry; apply Nat.ltb_lt; unfold j; lia).
        replace (j - region_start l i)%nat with k by (unfold j; lia). destruct (Nat.eqb d 0); cbn [andb]; [reflexivity|ring].
      + assert (X : Nat.leb (region_start l i' + first_point i') j && Nat.ltb j (region_start l i' + ny_of l i' + 1) = false).
        { destruct (Nat.leb_spec (region_start l i' + first_point i') j) as [H1|]; [|reflexivity]. destruct (Nat.ltb_spec j (region_start l i' + ny_of l i' + 1)) as [H2|]; [|reflexivity].
          exfalso. apply N. apply (locate_unique l i i' j); unfold j in *; lia. }
        rewrite X, andb_false_r. cbn [andb]. ring.
  Qed.
  Lemma xLE_pattern : xLE_entries nx l (sec_n s) = flat_map (pattern (fun i k => cos_deriv_end (ny_of l i + 1) k) (fun i k => cos_deriv_start (ny_of l i + 1) k)) (seq 0 (sec_n s - 1)).
  Proof. reflexivity. Qed.
  Lemma dxLE_eq c : assembled (xLE_entries nx l (sec_n s)) (flat ny ix j d) c = d_unscaled nx l (sec_n s) In_x c ix i k d.
  Proof.
    rewrite xLE_pattern, pattern_eq, cos_deriv_end_eq, cos_deriv_start_eq. unfold d_unscaled. cbn [d_y d_c d_x]. unfold delta. rewrite !(Nat.eqb_sym c).
    destruct d as [|[|[|]]]; cbn [Nat.eqb]; [|ring|reflexivity|lia]. destruct (Nat.eqb i c), (Nat.eqb (i + 1) c); ring.
  Qed.
End Arrays.

(** ** The mesh *)
(** Whether an input is one of the component's: the area is only when the mesh is scaled. *)
Definition is_input (A : option R) (x : sec_input) : Prop := match x, A with In_area, None => False | _, _ => True end.
Definition scalable (s : sections) (A : option R) : Prop := match A with Some v => 0 < v /\ 0 < sections_planform s | None => True end.
Theorem C77_mesh_partials nx l s A x c ix j d ny : (1 < nx)%nat -> regions_ok s l -> scalable s A -> is_input A x -> (c < sec_size (sec_n s) x)%nat ->
  ny = (column l (sec_n s - 1) + 1)%nat -> (ix < nx)%nat -> (j < ny)%nat -> (d < 3)%nat ->
  is_derive (fun v => section_mesh nx l (sec_set s x c v) (area_set A x v) ix j d) (sec_get s A x c)
    (mesh_jac nx l s A (flatten ny (unscaled nx l s)) x (3 * (ix * ny + j) + d) c).
Proof.
  intros Hx R HS HI Hc Hny Hix Hj Hd. assert (H1 : (2 <= sec_n s)%nat) by apply R. rewrite (R_col l s R), (R_total l s R) in Hny by lia. subst ny. change (3 * (ix * (total l + 1) + j) + d)%nat with (flat (total l + 1) ix j d).
  destruct (locate l (sec_n s - 1) j) as [i [Hi Hk]]; [exact (R_len l s R)|lia|rewrite (R_total l s R); lia|].
  set (k := (j - region_start l i)%nat). assert (Hk' : (first_point i <= k <= ny_of l i)%nat) by (unfold k; lia). replace j with (region_start l i + k)%nat in * by (unfold k; lia). clearbody k. clear Hk.
  pose proof (unscaled_D nx l s A x c ix i k d R Hi ltac:(lia) Hd) as DU. pose proof (area_D s A x c Hc) as DA.
  assert (EU : unscaled nx l (sec_set s x c (sec_get s A x c)) ix (region_start l i + k)%nat d = unscaled nx l s ix (region_start l i + k)%nat d).
  { destruct d as [|[|[|]]]; [| |reflexivity|lia].
    - rewrite (unscaled_x nx l _ (set_regions s l x c _ R)), (unscaled_x nx l _ R) by (rewrite ?set_n; lia). rewrite !(proj1 (sec_same s x c _ A)), !(proj1 (proj2 (sec_same s x c _ A))). reflexivity.
    - rewrite (unscaled_y nx l _ (set_regions s l x c _ R)), (unscaled_y nx l _ R) by (rewrite ?set_n; lia). rewrite !(proj2 (proj2 (sec_same s x c _ A))). reflexivity. }
  assert (EA : area (sec_set s x c (sec_get s A x c)) = area s).
  { unfold area. rewrite set_n. f_equal. apply rsum_ext. intros q _. rewrite !(proj1 (proj2 (sec_same s x c _ A))), !(proj2 (proj2 (sec_same s x c _ A))). reflexivity. }
  assert (J : match x with In_area => True | _ => d_unscaled nx l (sec_n s) x c ix i k d = match x with In_x => assembled (xLE_entries nx l (sec_n s)) (flat (total l + 1) ix (region_start l i + k) d) c
    | In_y => dmesh_dysec nx l (sec_n s) (flat (total l + 1) ix (region_start l i + k) d) c | _ => dmesh_dcsec nx l (sec_n s) (flat (total l + 1) ix (region_start l i + k) d) c end end).
  { destruct x; auto; symmetry; [apply (dxLE_eq nx l s R)|apply (dysec_eq nx l s R)|apply (dcsec_eq nx l s R)]; assumption. }
  unfold section_mesh, mesh_jac. destruct A as [v0|].
  - destruct HS as [Hv HP]. rewrite <- area_planform in HP. rewrite flatten_at by (assumption || lia). rewrite assembled_scale. assert (Q : 0 < v0 / area s) by (now apply Rdiv_lt_0_compat).
    assert (SQ : sqrt (v0 / area s) = sqrt v0 / sqrt (area s)) by (apply sqrt_div; lra). pose proof (sqrt_lt_R0 _ Hv) as P1. pose proof (sqrt_lt_R0 _ HP) as P2.
    assert (RP : Rpower (area s) (- (15/10)) = / (area s * sqrt (area s))).
    { replace (- (15/10)) with (- (1 + / 2)) by field. rewrite Rpower_Ropp, Rpower_plus, Rpower_1, Rpower_sqrt by assumption. reflexivity. }
    assert (RV : Rpower v0 (- (5/10)) = / sqrt v0). { replace (- (5/10)) with (- / 2) by field. rewrite Rpower_Ropp, Rpower_sqrt by assumption. reflexivity. }
    pose proof (sqrt_sqrt _ (Rlt_le _ _ HP)) as S2. pose proof (sqrt_sqrt _ (Rlt_le _ _ Hv)) as S1.
    destruct x; cbn [area_set].
    1,2,3: eapply D_eq; [apply D_mult; [exact DU|apply D_sqrt; [apply D_div; [apply D_const|exact DA|cbv beta; rewrite EA; lra]|cbv beta; rewrite EA; exact Q]]|]; cbv beta; rewrite EU, EA, J, SQ, ?RP; cbn [area_jac].
    4: cbn [sec_set]; eapply D_eq; [apply D_multc, D_sqrt; [apply D_cdiv, D_id|exact Q]|]; cbn [sec_get sec_set]; rewrite SQ, RV.
    1-4: set (r := sqrt (area s)) in *; set (q := sqrt v0) in *; clearbody r q.
    1: field; lra.
    1,2: rewrite <- S1, <- S2; field; lra.
    rewrite <- S2 at 1. field. lra.
  - destruct x; cbn [area_set]; try contradiction; (eapply D_eq; [exact DU|exact J]).
Qed.
Print Assumptions C77_mesh_partials.

(** ** The sparse arrays *)
Lemma points_length nx l i : List.length (region_points nx l i) = (nx * (ny_of l i + 1 - first_point i))%nat.
Proof.
  unfold region_points. induction nx as [|n IH]; [reflexivity|]. rewrite seq_S, flat_map_app, app_length, IH. cbn [flat_map]. rewrite app_nil_r, map_length, seq_length. lia.
Qed.
Lemma entries_length nx l k : (forall i, (i < k)%nat -> (1 <= ny_of l i)%nat) -> List.length (flat_map (xLE_region nx l) (seq 0 k)) = (2 * nx * (region_start l k + match k with O => 0 | _ => 1 end))%nat.
Proof.
  induction k as [|k IH]; intro P; [cbn; lia|]. rewrite seq_S, flat_map_app, app_length, IH by (intros; apply P; lia). cbn [flat_map Nat.add region_start]. rewrite app_nil_r. unfold xLE_region. rewrite app_length, !map_length, points_length.
  unfold first_point. destruct k; cbn [Nat.eqb]; pose proof (P 0%nat ltac:(lia)); nia.
Qed.
(** The arrays are exactly filled, every entry is in range, and no entry is given twice. *)
Theorem C77_sparsity nx l s : regions_ok s l ->
  List.length (xLE_entries nx l (sec_n s)) = xLE_size nx l /\
  (forall e, In e (xLE_entries nx l (sec_n s)) -> (row_of e < 3 * (nx * (total l + 1)))%nat /\ (col_of e < sec_n s)%nat) /\
  NoDup (map fst (xLE_entries nx l (sec_n s))).
Proof.
  intro R. assert (H1 : (2 <= sec_n s)%nat) by apply R. split; [|split].
  - unfold xLE_entries, xLE_size. rewrite entries_length by exact (R_len l s R). rewrite (R_total l s R). destruct (sec_n s - 1)%nat eqn:E; [lia|]. lia.
  - intros e He. unfold xLE_entries in He. apply in_flat_map in He. destruct He as [i [Hi He]]. apply in_seq in Hi.
    assert (B : forall p, In p (region_points nx l i) -> (flat (total l + 1) (fst p) (region_start l i + snd p) 0 < 3 * (nx * (total l + 1)))%nat).
    { intros p Hp. unfold region_points in Hp. apply in_flat_map in Hp. destruct Hp as [ix [Hx Hp]]. apply in_seq in Hx. apply in_map_iff in Hp. destruct Hp as [jj [<- Hj]]. apply in_seq in Hj. cbn [fst snd]. unfold flat.
      pose proof (start_mono l (i + 1) (sec_n s - 1) ltac:(lia)) as M. rewrite start_S, (R_total l s R) in M. assert (region_start l i + jj <= total l)%nat by (unfold first_point in Hj; destruct (Nat.eqb i 0); lia). nia. }
    apply in_app_or in He. destruct He as [He|He]; apply in_map_iff in He; destruct He as [p [<- Hp]]; unfold row_of, col_of; cbn [fst snd]; (split; [now apply B|lia]).
  - apply no_duplicates. intros r c. assert (E : ones (xLE_entries nx l (sec_n s)) = flat_map (pattern nx l (fun _ _ => 1) (fun _ _ => 1)) (seq 0 (sec_n s - 1))).
    { unfold ones, xLE_entries. rewrite map_flat. apply flat_map_ext. intro i. unfold xLE_region, pattern. rewrite map_app, !map_map. reflexivity. }
    rewrite E. destruct (flat_split (total l + 1) r ltac:(lia)) as (ix & j & d & Hj & Hd & ->).
    destruct (Nat.lt_ge_cases ix nx) as [Hx|Hx].
    + destruct (locate l (sec_n s - 1) j) as [i [Hi Hk]]; [exact (R_len l s R)|lia|rewrite (R_total l s R); lia|].
      replace j with (region_start l i + (j - region_start l i))%nat by lia. rewrite (pattern_eq nx l s R) by lia. destruct (Nat.eqb d 0); [|lra]. destruct (Nat.eqb_spec c (i + 1)), (Nat.eqb_spec c i); try lia; lra.
    + rewrite assembled_flat_map, rsum_zero; [lra|]. intros i Hi. unfold pattern, region_points. rewrite assembled_app.
      assert (B : (region_start l i + first_point i + (ny_of l i + 1 - first_point i) <= total l + 1)%nat).
      { pose proof (start_mono l (i + 1) (sec_n s - 1) ltac:(lia)) as M. rewrite start_S, (R_total l s R) in M. unfold first_point. pose proof (R_len l s R i Hi). destruct (Nat.eqb i 0); lia. }
      rewrite !(assembled_points_out (total l + 1) nx (region_start l i) _ (fun _ => 1)) by assumption. ring.
Qed.
Print Assumptions C77_sparsity.

(** ** Any history *)
Lemma same_array_at n a b k : same_array n a b = true -> (k < n)%nat -> a k = b k.
Proof. unfold same_array. intros H Hk. rewrite forallb_forall in H. specialize (H k ltac:(apply in_seq; lia)). destruct (Req_EM_T (a k) (b k)); [assumption|discriminate]. Qed.
Lemma written_ext l f g k j : (forall i jj, (i < k)%nat -> f i jj = g i jj) -> written l f k j = written l g k j.
Proof. induction k as [|k IH]; intro H; [reflexivity|]. cbn [written]. rewrite IH by (intros; apply H; lia). rewrite H by lia. reflexivity. Qed.
Lemma same_unscaled nx l s A s0 A0 ix j d : sec_n s0 = sec_n s -> (2 <= sec_n s)%nat -> same_values (sec_n s) (s, A) (s0, A0) = true -> unscaled nx l s ix j d = unscaled nx l s0 ix j d.
Proof.
  intros En Hn H. unfold same_values in H. cbn [fst snd] in H. apply andb_prop in H. destruct H as [H _]. apply andb_prop in H. destruct H as [H HC]. apply andb_prop in H. destruct H as [HX HY].
  unfold unscaled. rewrite En. destruct d as [|[|]]; [| |reflexivity]; apply written_ext; intros i jj Hi.
  - now rewrite !(same_array_at _ _ _ _ HC), !(same_array_at _ _ _ _ HX) by lia.
  - unfold full_y. rewrite En. rewrite (same_array_at _ _ _ i HY) by lia. destruct (Nat.ltb_spec (i + 1) (sec_n s - 1)); [now rewrite (same_array_at _ _ _ (i + 1)%nat HY)|reflexivity].
Qed.
Definition fresh (nx : nat) (l : list nat) (n : nat) (st : sec_state) : Prop :=
  match st with None => True | Some (s0, _, u) => sec_n s0 = n /\ u = flatten (total l + 1) (unscaled nx l s0) end.
Lemma refreshed_fresh nx l n st s A : fresh nx l n st -> sec_n s = n -> fresh nx l n (refreshed nx l st s A).
Proof. intros F E. unfold refreshed. destruct st as [[[s0 A0] u]|]; [destruct (same_values _ _ _); [exact F|]|]; cbn; auto. Qed.
Lemma after_fresh nx l n h : (forall k, In k h -> call_sections k = n) -> fresh nx l n (after nx l h).
Proof.
  induction h as [|[s A|s A] h IH]; intro H; cbn [after]; [exact I| |].
  - cbn. split; [exact (H _ (or_introl eq_refl))|reflexivity].
  - cbn [run_partials fst]. apply refreshed_fresh; [apply IH; intros; apply H; now right|exact (H _ (or_introl eq_refl))].
Qed.
(** Whatever was computed or differentiated before, the partials returned are the derivatives
    of the mesh at the inputs given. *)
Theorem C77_any_history nx l h s A x c ix j d ny : (1 < nx)%nat -> regions_ok s l -> scalable s A -> is_input A x -> (c < sec_size (sec_n s) x)%nat ->
  ny = (column l (sec_n s - 1) + 1)%nat -> (ix < nx)%nat -> (j < ny)%nat -> (d < 3)%nat -> (forall k, In k h -> call_sections k = sec_n s) ->
  is_derive (fun v => snd (run_compute nx l (after nx l h) (sec_set s x c v) (area_set A x v)) ix j d) (sec_get s A x c)
    (snd (run_partials nx l (after nx l h) s A) x (3 * (ix * ny + j) + d)%nat c).
Proof.
  intros Hx R HS HI Hc Hny Hix Hj Hd HH. cbn [run_compute snd]. assert (H1 : (2 <= sec_n s)%nat) by apply R. pose proof (C77_mesh_partials nx l s A x c ix j d ny Hx R HS HI Hc Hny Hix Hj Hd) as D.
  enough (E : snd (run_partials nx l (after nx l h) s A) x (3 * (ix * ny + j) + d)%nat c = mesh_jac nx l s A (flatten ny (unscaled nx l s)) x (3 * (ix * ny + j) + d) c) by (rewrite E; exact D).
  pose proof (after_fresh nx l (sec_n s) h HH) as F. rewrite (R_col l s R), (R_total l s R) in Hny by lia. subst ny. unfold run_partials. cbn [snd]. unfold refreshed. destruct (after nx l h) as [[[s0 A0] u]|]; [|reflexivity].
  destruct (same_values (sec_n s) (s, A) (s0, A0)) eqn:E; [|reflexivity]. destruct F as [En ->].
  assert (U : forall r, flatten (total l + 1) (unscaled nx l s0) r = flatten (total l + 1) (unscaled nx l s) r) by (intro r; symmetry; unfold flatten; now apply (same_unscaled nx l s A s0 A0)).
  unfold mesh_jac. destruct A, x; rewrite ?U; reflexivity.
Qed.
Print Assumptions C77_any_history.
Example cranked_scalable : scalable cranked (Some 50) /\ (1 < sec_size (sec_n cranked) In_y)%nat /\ is_input (Some 50) In_area.
Proof. destruct cranked_ok as (R & I & C & _). split; [|split; [cbn; lia|exact Logic.I]]. split; [lra|]. refine (proj1 (C76_scalable cranked 1 _ I C _)); [cbn; lia|lra]. Qed.
