(** C78: section properties carried to the mesh. *)
From Coq Require Import Reals List Bool PeanoNat Lia Lra.
From Coquelicot Require Import Coquelicot.
From Verif Require Import RSum Py Model_Algebra Model_Vectors Model_Aero Model_Mesh Spec_Mesh Proofs_Mesh Proofs_MeshSparse Proofs_Deriv Props_Mesh Props_Sections Props_SectionJac.
Import ListNotations.
Open Scope R_scope.

(** Number of sections and panels of a component that was set up. *)
Definition panels_ok (n : nat) (l : list nat) : Prop := (2 <= n)%nat /\ List.length l = (n - 1)%nat /\ List.Forall (fun a => (1 <= a)%nat) l.
Section Values.
  Variables (cosine : bool) (n : nat) (l : list nat).
  Hypothesis (PK : panels_ok n l).
  Lemma P_len i : (i < n - 1)%nat -> (1 <= ny_of l i)%nat.
  Proof. destruct PK as (H1 & H2 & H3). intro H. apply ny_pos; [assumption|lia]. Qed.
  Lemma P_col i : (i < n)%nat -> column l i = region_start l i.
  Proof. destruct PK as (H1 & H2 & _). intro H. apply column_start. lia. Qed.
  Lemma P_total : region_start l (n - 1) = total l.
  Proof. destruct PK as (_ & H2 & _). rewrite <- H2. apply start_total. Qed.
  Lemma frac_last i : (i < n - 1)%nat -> frac cosine (ny_of l i + 1) (ny_of l i) = 1.
  Proof. intro H. pose proof (P_len i H). replace (ny_of l i) with (ny_of l i + 1 - 1)%nat at 2 by lia. apply frac_1. lia. Qed.
  Lemma node_at p i k : (i < n - 1)%nat -> (k <= ny_of l i)%nat -> property_node cosine l n p (region_start l i + k) = p i + (p (i + 1)%nat - p i) * frac cosine (ny_of l i + 1) k.
  Proof.
    intros Hi Hk. pose proof (P_len i Hi). unfold property_node. rewrite (written_at l _ _ i); [| |exact P_len|assumption|lia].
    - replace (region_start l i + k - region_start l i)%nat with k by lia. apply nodal_eq; lia.
    - intros a Ha. pose proof (P_len a ltac:(lia)). pose proof (P_len (a + 1) ltac:(lia)). rewrite !nodal_eq by lia. rewrite frac_last, frac_0 by lia. ring.
  Qed.
  Lemma panel_region j : (j < total l)%nat -> exists i k, (i < n - 1)%nat /\ (k < ny_of l i)%nat /\ j = (region_start l i + k)%nat.
  Proof.
    intro Hj. destruct PK as (H1 & _ & _). destruct (locate l (n - 1) (S j)) as [i [Hi Hk]]; [exact P_len|lia|rewrite P_total; lia|].
    exists i, (j - region_start l i)%nat. unfold first_point in Hk. destruct (Nat.eqb_spec i 0) as [->|]; [cbn [region_start] in *|]; lia.
  Qed.
  Lemma written_panels_at f i k q : (i < q)%nat -> (k < ny_of l i)%nat -> written_panels l f q (region_start l i + k) = f i k.
  Proof.
    induction q as [|q IH]; intros Hi Hk; [lia|]. cbn [written_panels]. destruct (Nat.eq_dec i q) as [->|N].
    - destruct (Nat.leb_spec (region_start l q) (region_start l q + k)), (Nat.ltb_spec (region_start l q + k) (region_start l q + ny_of l q)); try lia. cbn [andb]. f_equal. lia.
    - pose proof (start_mono l (i + 1) q ltac:(lia)) as M. rewrite start_S in M. destruct (Nat.leb_spec (region_start l q) (region_start l i + k)); [lia|]. cbn [andb]. apply IH; lia.
  Qed.
  Lemma panel_at tc i k : (i < n - 1)%nat -> (k < ny_of l i)%nat -> panel_toverc cosine l n tc (region_start l i + k)
    = tc i + (tc (i + 1)%nat - tc i) * ((frac cosine (ny_of l i + 1) k + frac cosine (ny_of l i + 1) (k + 1)) / 2).
  Proof. intros Hi Hk. unfold panel_toverc. rewrite written_panels_at by assumption. cbv zeta. rewrite !nodal_eq by lia. field. Qed.
End Values.

(** ** Values *)
(** On the mesh through the sections (cosine spacing): the straight line, along the span,
    between the values of the two sections. *)
Theorem C78_linear_on_sections nx l s A p i j ix : regions_ok s l -> (i + 1 < sec_n s)%nat -> full_y s i <> full_y s (i + 1)%nat -> scaling s A <> 0 -> (column l i <= j <= column l (i + 1))%nat ->
  let m := section_mesh nx l s A in
  property_node true l (sec_n s) p j = between (py m ix (column l i)) (py m ix (column l (i + 1))) (p i) (p (i + 1)%nat) (py m ix j).
Proof.
  intros R Hi Hy Hk Hj m. rewrite !(R_col l s R) in * by lia. rewrite start_S in *. pose proof (R_len l s R i ltac:(lia)). unfold py, m. rewrite !mesh_scaled.
  replace j with (region_start l i + (j - region_start l i))%nat by lia. replace (unscaled nx l s ix (region_start l i)) with (unscaled nx l s ix (region_start l i + 0)%nat) by (f_equal; lia).
  rewrite !(unscaled_y nx l s R) by lia. rewrite (node_at true (sec_n s) l R) by lia. rewrite !cf_last, !cf_0 by lia. cbn [frac]. set (f := cf _ (j - _)). set (k := scaling s A) in *. unfold between. set (u := full_y s i) in *. set (v := full_y s (i + 1)%nat) in *.
  assert (G : k * (v - u) <> 0) by (apply Rmult_integral_contrapositive_currified; lra). field. lra.
Qed.
Print Assumptions C78_linear_on_sections.
(** On the trapezoidal mesh (uniform spacing): the straight line from tip to root. *)
Theorem C78_linear_on_trapezoid nx ny t p j ix : (1 < ny)%nat -> (j < ny)%nat -> proper_trapezoid t ->
  let m := trapezoid_mesh nx ny t in
  property_node false [ny - 1]%nat 2 p j = between (py m ix 0) (py m ix (ny - 1)) (p 0%nat) (p 1%nat) (py m ix j).
Proof.
  intros Hy Hj P m. assert (PK : panels_ok 2 [ny - 1]%nat) by (repeat split; [lia|repeat constructor; lia]). assert (HN : 0 < INR (ny - 1)) by (apply lt_0_INR; lia). destruct (half_span_pos t P) as [B _].
  change j with (region_start [ny - 1]%nat 0 + j)%nat at 1. rewrite (node_at false 2 _ PK) by (cbn; lia). unfold m. rewrite !trapezoid_y by lia. change (ny_of [ny - 1]%nat 0) with (ny - 1)%nat. replace (ny - 1 + 1)%nat with ny by lia. cbn [frac Nat.add INR]. rewrite lin_at by lia. unfold between. field. lra.
Qed.
Print Assumptions C78_linear_on_trapezoid.
(** A section's own value at its column; elsewhere between the values of its two neighbours. *)
Theorem C78_at_sections cosine l n p i : panels_ok n l -> (i < n)%nat -> property_node cosine l n p (column l i) = p i.
Proof.
  intros PK Hi. assert (H1 : (2 <= n)%nat) by apply PK. rewrite (P_col n l PK) by assumption. destruct (Nat.eq_dec i (n - 1)) as [->|N].
  - replace (n - 1)%nat with (n - 2 + 1)%nat by lia. rewrite start_S, (node_at cosine n l PK) by lia. rewrite (frac_last cosine n l PK) by lia. ring.
  - replace (region_start l i) with (region_start l i + 0)%nat by lia. pose proof (P_len n l PK i ltac:(lia)). rewrite (node_at cosine n l PK), frac_0 by lia. ring.
Qed.
Print Assumptions C78_at_sections.
Theorem C78_panel_average cosine l n tc j : panels_ok n l -> (j < column l (n - 1))%nat ->
  panel_toverc cosine l n tc j = (property_node cosine l n tc j + property_node cosine l n tc (j + 1)) / 2.
Proof.
  intros PK Hj. assert (H1 : (2 <= n)%nat) by apply PK. rewrite (P_col n l PK), (P_total n l PK) in Hj by lia. destruct (panel_region n l PK j Hj) as (i & k & Hi & Hk & ->).
  rewrite (panel_at cosine n l) by assumption. rewrite <- Nat.add_assoc, !(node_at cosine n l PK) by lia. field.
Qed.
Print Assumptions C78_panel_average.
Lemma blend_bounds lo hi a b f : lo <= a <= hi -> lo <= b <= hi -> 0 <= f <= 1 -> lo <= a + (b - a) * f <= hi.
Proof. intros Ha Hb Hf. replace (a + (b - a) * f) with (a * (1 - f) + b * f) by ring. split; nra. Qed.
Theorem C78_bounds cosine l n p lo hi : panels_ok n l -> (forall i, (i < n)%nat -> lo <= p i <= hi) ->
  (forall j, (j <= column l (n - 1))%nat -> lo <= property_node cosine l n p j <= hi) /\ (forall j, (j < column l (n - 1))%nat -> lo <= panel_toverc cosine l n p j <= hi).
Proof.
  intros PK HB. assert (H1 : (2 <= n)%nat) by apply PK. assert (N : forall j, (j <= column l (n - 1))%nat -> lo <= property_node cosine l n p j <= hi).
  { intros j Hj. rewrite (P_col n l PK) in Hj by lia. destruct (locate l (n - 1) j) as [i [Hi Hk]]; [exact (P_len n l PK)|lia|exact Hj|]. pose proof (P_len n l PK i Hi).
    replace j with (region_start l i + (j - region_start l i))%nat by lia. rewrite (node_at cosine n l PK) by lia. apply blend_bounds; [apply HB; lia|apply HB; lia|apply frac_range; lia]. }
  split; [exact N|]. intros j Hj. rewrite C78_panel_average by assumption. pose proof (N j ltac:(lia)). pose proof (N (j + 1)%nat ltac:(lia)). lra.
Qed.
Print Assumptions C78_bounds.

(** ** Partials *)
Section Sparse.
  Variables (cosine : bool) (n : nat) (l : list nat).
  Hypothesis (PK : panels_ok n l).
  (** Consecutive rows, one column for each end of the region. *)
  Definition rows (b1 n1 b2 n2 : nat -> nat) (v1 v2 : nat -> nat -> R) (i : nat) : list entry :=
    app (map (fun jj => ((region_start l i + jj)%nat, i, v1 i jj)) (seq (b1 i) (n1 i))) (map (fun jj => ((region_start l i + jj)%nat, (i + 1)%nat, v2 i jj)) (seq (b2 i) (n2 i))).
  Lemma rows_at b1 n1 b2 n2 v1 v2 i r c : assembled (rows b1 n1 b2 n2 v1 v2 i) r c
    = (if (Nat.leb (region_start l i + b1 i) r && Nat.ltb r (region_start l i + b1 i + n1 i)) && Nat.eqb c i then v1 i (r - region_start l i)%nat else 0)
      + (if (Nat.leb (region_start l i + b2 i) r && Nat.ltb r (region_start l i + b2 i + n2 i)) && Nat.eqb c (i + 1) then v2 i (r - region_start l i)%nat else 0).
  Proof. unfold rows. now rewrite assembled_app, !assembled_rows. Qed.
  Lemma toverc_rows : toverc_entries cosine l n = flat_map (rows (fun _ => 0%nat) (ny_of l) (fun _ => 0%nat) (ny_of l)
    (fun i jj => 5/10 * (nodal_dstart cosine (ny_of l i + 1) jj + nodal_dstart cosine (ny_of l i + 1) (jj + 1))) (fun i jj => 5/10 * (nodal_dend cosine (ny_of l i + 1) jj + nodal_dend cosine (ny_of l i + 1) (jj + 1)))) (seq 0 (n - 1)).
  Proof. reflexivity. Qed.
  Lemma property_rows : property_entries cosine l n = flat_map (rows first_point (fun i => (ny_of l i - first_point i)%nat) (fun _ => 1%nat) (ny_of l)
    (fun i jj => nodal_dstart cosine (ny_of l i + 1) jj) (fun i jj => nodal_dend cosine (ny_of l i + 1) jj)) (seq 0 (n - 1)).
  Proof. reflexivity. Qed.
  Lemma other_region i i' r : (region_start l i <= r < region_start l i + ny_of l i)%nat -> (region_start l i' <= r < region_start l i' + ny_of l i')%nat -> i = i'.
  Proof.
    intros H H'. destruct (Nat.lt_trichotomy i i') as [L|[E|L]]; [|assumption|].
    - pose proof (start_mono l (i + 1) i' ltac:(lia)) as M. rewrite start_S in M. lia.
    - pose proof (start_mono l (i' + 1) i ltac:(lia)) as M. rewrite start_S in M. lia.
  Qed.
  (** Panels: region [i] alone has entries for its rows. *)
  Lemma panel_entries v1 v2 i k c : (i < n - 1)%nat -> (k < ny_of l i)%nat ->
    assembled (flat_map (rows (fun _ => 0%nat) (ny_of l) (fun _ => 0%nat) (ny_of l) v1 v2) (seq 0 (n - 1))) (region_start l i + k) c = (if Nat.eqb c i then v1 i k else 0) + (if Nat.eqb c (i + 1) then v2 i k else 0).
  Proof.
    intros Hi Hk. rewrite assembled_flat_map, (rsum_one _ _ i); [|assumption|].
    - rewrite rows_at, !Nat.add_0_r. destruct (Nat.leb_spec (region_start l i) (region_start l i + k)), (Nat.ltb_spec (region_start l i + k) (region_start l i + ny_of l i)); try lia. cbn [andb]. replace (region_start l i + k - region_start l i)%nat with k by lia. reflexivity.
    - intros q Hq N. rewrite rows_at, !Nat.add_0_r. assert (X : Nat.leb (region_start l q) (region_start l i + k) && Nat.ltb (region_start l i + k) (region_start l q + ny_of l q) = false).
      { destruct (Nat.leb_spec (region_start l q) (region_start l i + k)); [|reflexivity]. destruct (Nat.ltb_spec (region_start l i + k) (region_start l q + ny_of l q)); [|reflexivity]. exfalso. apply N. symmetry. apply (other_region i q (region_start l i + k)); lia. }
      rewrite X. cbn [andb]. ring.
  Qed.
  (** Nodes: the entries at a row are those of the region it lies in, without those known to be zero. *)
  Lemma node_entries v1 v2 i k c : (i < n - 1)%nat -> (first_point i <= k <= ny_of l i)%nat ->
    assembled (flat_map (rows first_point (fun i => (ny_of l i - first_point i)%nat) (fun _ => 1%nat) (ny_of l) v1 v2) (seq 0 (n - 1))) (region_start l i + k) c
    = (if Nat.eqb c i && Nat.ltb k (ny_of l i) then v1 i k else 0) + (if Nat.eqb c (i + 1) && Nat.leb 1 k then v2 i k else 0).
  Proof.
    intros Hi Hk. pose proof (P_len n l PK i Hi). rewrite assembled_flat_map, (rsum_one _ _ i); [|assumption|].
    - rewrite rows_at. replace (region_start l i + first_point i + (ny_of l i - first_point i))%nat with (region_start l i + ny_of l i)%nat by (unfold first_point in *; destruct (Nat.eqb i 0); lia). replace (region_start l i + k - region_start l i)%nat with k by lia.
      replace (Nat.leb (region_start l i + first_point i) (region_start l i + k)) with true by (symmetry; apply Nat.leb_le; lia). replace (Nat.ltb (region_start l i + k) (region_start l i + 1 + ny_of l i)) with true by (symmetry; apply Nat.ltb_lt; lia).
      replace (Nat.ltb (region_start l i + k) (region_start l i + ny_of l i)) with (Nat.ltb k (ny_of l i)) by (destruct (Nat.ltb_spec k (ny_of l i)), (Nat.ltb_spec (region_start l i + k) (region_start l i + ny_of l i)); auto; lia).
      replace (Nat.leb (region_start l i + 1) (region_start l i + k)) with (Nat.leb 1 k) by (destruct (Nat.leb_spec 1 k), (Nat.leb_spec (region_start l i + 1) (region_start l i + k)); auto; lia).
      cbn [andb]. rewrite !andb_true_r. rewrite (andb_comm (Nat.ltb k (ny_of l i))), (andb_comm (Nat.leb 1 k)). reflexivity.
    - intros q Hq N. pose proof (P_len n l PK q Hq). rewrite rows_at. assert (F : forall b m, (first_point q <= b)%nat -> (b + m <= ny_of l q + 1)%nat -> Nat.leb (region_start l q + b) (region_start l i + k) && Nat.ltb (region_start l i + k) (region_start l q + b + m) = false).
      { intros b m Hb Hm. destruct (Nat.leb_spec (region_start l q + b) (region_start l i + k)); [|reflexivity]. destruct (Nat.ltb_spec (region_start l i + k) (region_start l q + b + m)); [|reflexivity]. exfalso. apply N. symmetry. apply (locate_unique l i q (region_start l i + k)); lia. }
      rewrite !F by (unfold first_point in *; destruct (Nat.eqb q 0); lia). cbn [andb]. ring.
  Qed.
End Sparse.
Lemma assembled_outside L r c : (forall e, In e L -> (row_of e < r)%nat) -> assembled L r c = 0.
Proof. induction L as [|e L IH]; intro H; [reflexivity|]. cbn [assembled]. rewrite IH by (intros; apply H; now right). pose proof (H e (or_introl eq_refl)). destruct (Nat.eqb_spec (row_of e) r); [lia|]. cbn [andb]. ring. Qed.

Theorem C78_property_partials cosine l n p c j : panels_ok n l -> (c < n)%nat -> (j <= column l (n - 1))%nat ->
  is_derive (fun v => property_node cosine l n (set_at p c v) j) (p c) (assembled (property_entries cosine l n) j c).
Proof.
  intros PK Hc Hj. assert (H1 : (2 <= n)%nat) by apply PK. rewrite (P_col n l PK) in Hj by lia. destruct (locate l (n - 1) j) as [i [Hi Hk]]; [exact (P_len n l PK)|lia|exact Hj|]. pose proof (P_len n l PK i Hi) as Hn.
  set (k := (j - region_start l i)%nat). assert (Hk' : (first_point i <= k <= ny_of l i)%nat) by (unfold k; lia). replace j with (region_start l i + k)%nat in * by (unfold k; lia). clearbody k.
  eapply is_derive_ext; [intro v; symmetry; apply (node_at cosine n l PK); lia|]. cbv beta. rewrite property_rows, (node_entries n l PK) by assumption. rewrite nodal_dstart_eq by lia. change (nodal_dend cosine) with (frac cosine).
  eapply D_eq; [apply D_plus; [apply set_D|apply D_cmult, D_minus; apply set_D]|]. unfold delta. rewrite !(Nat.eqb_sym c).
  assert (E1 : (ny_of l i <= k)%nat -> frac cosine (ny_of l i + 1) k = 1) by (intro E; replace k with (ny_of l i) by lia; now apply (frac_last cosine n l PK)).
  assert (E2 : (k < 1)%nat -> frac cosine (ny_of l i + 1) k = 0) by (intro E; replace k with 0%nat by lia; apply frac_0; lia).
  destruct (Nat.ltb_spec k (ny_of l i)), (Nat.leb_spec 1 k), (Nat.eqb_spec i c), (Nat.eqb_spec (i + 1) c); cbn [andb]; try lia; try ring; (rewrite E1 by assumption; ring) || (rewrite E2 by assumption; ring).
Qed.
Print Assumptions C78_property_partials.
Theorem C78_panel_partials cosine l n tc c j : panels_ok n l -> (c < n)%nat -> (j < column l (n - 1))%nat ->
  is_derive (fun v => panel_toverc cosine l n (set_at tc c v) j) (tc c) (assembled (toverc_entries cosine l n) j c).
Proof.
  intros PK Hc Hj. assert (H1 : (2 <= n)%nat) by apply PK. rewrite (P_col n l PK), (P_total n l PK) in Hj by lia. destruct (panel_region n l PK j Hj) as (i & k & Hi & Hk & ->).
  eapply is_derive_ext; [intro v; symmetry; apply (panel_at cosine n l); assumption|]. cbv beta. rewrite toverc_rows, panel_entries by assumption. rewrite !nodal_dstart_eq by lia. change (nodal_dend cosine) with (frac cosine).
  eapply D_eq; [apply D_plus; [apply set_D|apply D_cmult, D_minus; apply set_D]|]. unfold delta. rewrite !(Nat.eqb_sym c). destruct (Nat.eqb i c), (Nat.eqb (i + 1) c); field.
Qed.
Print Assumptions C78_panel_partials.

(** The arrays are exactly filled, in range, without repetition. *)
Lemma toverc_length cosine l k : List.length (flat_map (toverc_region cosine l) (seq 0 k)) = (2 * region_start l k)%nat.
Proof.
  induction k as [|k IH]; [reflexivity|]. rewrite seq_S, flat_map_app, app_length, IH. cbn [flat_map Nat.add region_start]. rewrite app_nil_r. unfold toverc_region. rewrite app_length, !map_length, !seq_length. lia.
Qed.
Lemma property_length cosine l k : (forall i, (i < k)%nat -> (1 <= ny_of l i)%nat) -> (List.length (flat_map (property_region cosine l) (seq 0 k)) + (k - 1) = 2 * region_start l k)%nat.
Proof.
  induction k as [|k IH]; intro P; [reflexivity|]. rewrite seq_S, flat_map_app, app_length. specialize (IH ltac:(intros; apply P; lia)). set (L := List.length (flat_map _ (seq 0 k))) in *. cbn [flat_map Nat.add region_start]. rewrite app_nil_r. unfold property_region. rewrite app_length, !map_length, !seq_length.
  pose proof (P k ltac:(lia)). unfold first_point. destruct k as [|k]; cbn [Nat.eqb]; [cbn in *; lia|]. lia.
Qed.
Lemma size_sum l : List.Forall (fun a => (1 <= a)%nat) l -> (fold_right Nat.add 0 (map (fun n => n - 1) l) + List.length l = total l)%nat.
Proof. unfold total. induction 1 as [|a l Ha H IH]; [reflexivity|]. cbn [map fold_right List.length]. lia. Qed.
Theorem C78_sparsity cosine l n : panels_ok n l ->
  (List.length (toverc_entries cosine l n) = toverc_size l /\ List.length (property_entries cosine l n) = property_size l n) /\
  (forall e, In e (toverc_entries cosine l n) -> (row_of e < total l)%nat /\ (col_of e < n)%nat) /\ (forall e, In e (property_entries cosine l n) -> (row_of e < total l + 1)%nat /\ (col_of e < n)%nat) /\
  NoDup (map fst (toverc_entries cosine l n)) /\ NoDup (map fst (property_entries cosine l n)).
Proof.
  intro PK. assert (H1 : (2 <= n)%nat) by apply PK.
  assert (T : forall e, In e (toverc_entries cosine l n) -> (row_of e < total l)%nat /\ (col_of e < n)%nat).
  { intros e He. unfold toverc_entries in He. apply in_flat_map in He. destruct He as [i [Hi He]]. apply in_seq in Hi. pose proof (start_mono l (i + 1) (n - 1) ltac:(lia)) as M. rewrite start_S, (P_total n l PK) in M.
    apply in_app_or in He. destruct He as [He|He]; apply in_map_iff in He; destruct He as [jj [<- Hp]]; apply in_seq in Hp; unfold row_of, col_of; cbn [fst snd]; lia. }
  assert (Q : forall e, In e (property_entries cosine l n) -> (row_of e < total l + 1)%nat /\ (col_of e < n)%nat).
  { intros e He. unfold property_entries in He. apply in_flat_map in He. destruct He as [i [Hi He]]. apply in_seq in Hi. pose proof (start_mono l (i + 1) (n - 1) ltac:(lia)) as M. rewrite start_S, (P_total n l PK) in M.
    apply in_app_or in He. destruct He as [He|He]; apply in_map_iff in He; destruct He as [jj [<- Hp]]; apply in_seq in Hp; unfold row_of, col_of; cbn [fst snd]; lia. }
  split; [split|split; [exact T|split; [exact Q|split]]].
  - unfold toverc_entries, toverc_size. rewrite toverc_length, (P_total n l PK). lia.
  - unfold property_entries, property_size. pose proof (property_length cosine l (n - 1) (P_len n l PK)) as E. rewrite (P_total n l PK) in E. destruct PK as (_ & HL & HF). pose proof (size_sum l HF). lia.
  - apply no_duplicates. intros r c. destruct (Nat.lt_ge_cases r (total l)) as [Hr|Hr].
    + assert (E : ones (toverc_entries cosine l n) = flat_map (rows l (fun _ => 0%nat) (ny_of l) (fun _ => 0%nat) (ny_of l) (fun _ _ => 1) (fun _ _ => 1)) (seq 0 (n - 1))).
      { unfold ones, toverc_entries. rewrite map_flat. apply flat_map_ext. intro i. unfold toverc_region, rows. rewrite map_app, !map_map. reflexivity. }
      rewrite E. destruct (panel_region n l PK r Hr) as (i & k & Hi & Hk & ->). rewrite panel_entries by assumption. destruct (Nat.eqb_spec c i), (Nat.eqb_spec c (i + 1)); try lia; lra.
    + rewrite assembled_outside; [lra|]. intros e He. apply in_map_iff in He. destruct He as [e' [<- He]]. change (row_of (fst e', 1)) with (row_of e'). pose proof (T e' He). lia.
  - apply no_duplicates. intros r c. destruct (Nat.lt_ge_cases r (total l + 1)) as [Hr|Hr].
    + assert (E : ones (property_entries cosine l n) = flat_map (rows l first_point (fun i => (ny_of l i - first_point i)%nat) (fun _ => 1%nat) (ny_of l) (fun _ _ => 1) (fun _ _ => 1)) (seq 0 (n - 1))).
      { unfold ones, property_entries. rewrite map_flat. apply flat_map_ext. intro i. unfold property_region, rows. rewrite map_app, !map_map. reflexivity. }
      rewrite E. destruct (locate l (n - 1) r) as [i [Hi Hk]]; [exact (P_len n l PK)|lia|rewrite (P_total n l PK); lia|]. replace r with (region_start l i + (r - region_start l i))%nat by lia. rewrite (node_entries n l PK) by lia.
      destruct (Nat.eqb_spec c i), (Nat.eqb_spec c (i + 1)), (Nat.ltb (r - region_start l i) (ny_of l i)), (Nat.leb 1 (r - region_start l i)); cbn [andb]; try lia; lra.
    + rewrite assembled_outside; [lra|]. intros e He. apply in_map_iff in He. destruct He as [e' [<- He]]. change (row_of (fst e', 1)) with (row_of e'). pose proof (Q e' He). lia.
Qed.
Print Assumptions C78_sparsity.
Example panels_example : panels_ok 3 [2; 3]%nat /\ List.length (property_entries true [2; 3]%nat 3) = 9%nat /\ property_size [2; 3]%nat 3 = 9%nat.
Proof. repeat split; try lia. repeat constructor; lia. Qed.
