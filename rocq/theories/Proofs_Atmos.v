(** Proofs about the atmosphere. *)
From Coq Require Import Reals List Bool PeanoNat String Lra Lia.
From Coquelicot Require Import Coquelicot.
From Verif Require Import Base Py Model_Atmos.
Import ListNotations.
Open Scope R_scope.

(** ** Gluing *)
Lemma is_derive_glue (f g : R -> R) a l : is_derive f a l -> is_derive g a l -> f a = g a ->
  is_derive (fun x => if Rle_dec x a then f x else g x) a l.
Proof.
  intros Hf Hg He. apply is_derive_Reals in Hf. apply is_derive_Reals in Hg. apply is_derive_Reals.
  intros eps Heps. destruct (Hf eps Heps) as [d1 H1]. destruct (Hg eps Heps) as [d2 H2].
  exists (mkposreal _ (Rmin_pos d1 d2 (cond_pos d1) (cond_pos d2))). simpl. intros h Hh Hlt.
  destruct (Rle_dec a a) as [_|]; [|lra].
  destruct (Rle_dec (a + h) a).
  - apply H1; auto. eapply Rlt_le_trans; [exact Hlt|apply Rmin_l].
  - rewrite He. apply H2; auto. eapply Rlt_le_trans; [exact Hlt|apply Rmin_r].
Qed.

Lemma continuous_glue (f g : R -> R) a : continuous f a -> continuous g a -> f a = g a ->
  continuous (fun x => if Rle_dec x a then f x else g x) a.
Proof.
  intros Hf Hg He. apply continuity_pt_filterlim in Hf. apply continuity_pt_filterlim in Hg.
  apply continuity_pt_filterlim. intros eps Heps.
  destruct (Hf eps Heps) as [d1 [Hd1 H1]]. destruct (Hg eps Heps) as [d2 [Hd2 H2]].
  exists (Rmin d1 d2). split; [apply Rmin_pos; auto|]. intros x [HD Hx].
  destruct (Rle_dec a a) as [_|]; [|lra].
  destruct (Rle_dec x a).
  - apply H1. split; auto. eapply Rlt_le_trans; [exact Hx|apply Rmin_l].
  - rewrite He. apply H2. split; auto. eapply Rlt_le_trans; [exact Hx|apply Rmin_r].
Qed.

(** Three pieces: f on (-inf, a], g on (a, b], h on (b, inf). *)
Definition pieces (a b : R) (f g h : R -> R) (x : R) : R :=
  if Rle_dec x a then f x else if Rle_dec x b then g x else h x.

Lemma near_lt (x a : R) : x < a -> locally x (fun y => y < a).
Proof. intro H. apply (open_lt a x H). Qed.
Lemma near_gt (x a : R) : a < x -> locally x (fun y => a < y).
Proof. intro H. apply (open_gt a x H). Qed.

Lemma is_derive_pieces a b f g h f' g' h' x : a < b ->
  (x <= a -> is_derive f x (f' x)) -> (a <= x <= b -> is_derive g x (g' x)) -> (b <= x -> is_derive h x (h' x)) ->
  f a = g a -> f' a = g' a -> g b = h b -> g' b = h' b ->
  is_derive (pieces a b f g h) x (pieces a b f' g' h' x).
Proof.
  intros Hab Hf Hg Hh E1 E1' E2 E2'.
  destruct (total_order_T x a) as [[Hlt|Heq]|Hgt].
  - replace (pieces a b f' g' h' x) with (f' x) by (unfold pieces; destruct (Rle_dec x a); [auto|lra]).
    eapply is_derive_ext_loc; [|apply Hf; lra].
    eapply filter_imp; [|apply (near_lt x a Hlt)]. intros y Hy. unfold pieces. destruct (Rle_dec y a); [auto|lra].
  - subst x. replace (pieces a b f' g' h' a) with (f' a) by (unfold pieces; destruct (Rle_dec a a); [auto|lra]).
    apply (is_derive_ext_loc (fun y => if Rle_dec y a then f y else g y)).
    + eapply filter_imp; [|apply (near_lt a b Hab)]. intros y Hy. unfold pieces.
      destruct (Rle_dec y a); auto. destruct (Rle_dec y b); [auto|lra].
    + apply is_derive_glue; auto; [apply Hf; lra|]. rewrite E1'. apply Hg; lra.
  - destruct (total_order_T x b) as [[Hlt|Heq]|Hgt'].
    + replace (pieces a b f' g' h' x) with (g' x)
        by (unfold pieces; destruct (Rle_dec x a); [lra|]; destruct (Rle_dec x b); [auto|lra]).
      eapply is_derive_ext_loc; [|apply Hg; lra].
      eapply filter_imp; [|apply filter_and; [apply (near_lt x b Hlt)|apply (near_gt x a Hgt)]].
      intros y [Hy1 Hy2]. unfold pieces. destruct (Rle_dec y a); [lra|]. destruct (Rle_dec y b); [auto|lra].
    + subst x. replace (pieces a b f' g' h' b) with (g' b)
        by (unfold pieces; destruct (Rle_dec b a); [lra|]; destruct (Rle_dec b b); [auto|lra]).
      apply (is_derive_ext_loc (fun y => if Rle_dec y b then g y else h y)).
      * eapply filter_imp; [|apply (near_gt b a Hab)]. intros y Hy. unfold pieces.
        destruct (Rle_dec y a); [lra|]. auto.
      * apply is_derive_glue; auto; [apply Hg; lra|]. rewrite E2'. apply Hh; lra.
    + replace (pieces a b f' g' h' x) with (h' x)
        by (unfold pieces; destruct (Rle_dec x a); [lra|]; destruct (Rle_dec x b); [lra|auto]).
      eapply is_derive_ext_loc; [|apply Hh; lra].
      eapply filter_imp; [|apply (near_gt x b Hgt')]. intros y Hy. unfold pieces.
      destruct (Rle_dec y a); [lra|]. destruct (Rle_dec y b); [lra|auto].
Qed.

Lemma continuous_pieces a b f g h x : a < b ->
  (x <= a -> continuous f x) -> (a <= x <= b -> continuous g x) -> (b <= x -> continuous h x) ->
  f a = g a -> g b = h b -> continuous (pieces a b f g h) x.
Proof.
  intros Hab Hf Hg Hh E1 E2.
  destruct (total_order_T x a) as [[Hlt|Heq]|Hgt].
  - eapply continuous_ext_loc; [|apply Hf; lra].
    eapply filter_imp; [|apply (near_lt x a Hlt)]. intros y Hy. unfold pieces. destruct (Rle_dec y a); [auto|lra].
  - subst x. apply (continuous_ext_loc _ (fun y => if Rle_dec y a then f y else g y)).
    + eapply filter_imp; [|apply (near_lt a b Hab)]. intros y Hy. unfold pieces.
      destruct (Rle_dec y a); auto. destruct (Rle_dec y b); [auto|lra].
    + apply continuous_glue; auto; [apply Hf; lra|apply Hg; lra].
  - destruct (total_order_T x b) as [[Hlt|Heq]|Hgt'].
    + eapply continuous_ext_loc; [|apply Hg; lra].
      eapply filter_imp; [|apply filter_and; [apply (near_lt x b Hlt)|apply (near_gt x a Hgt)]].
      intros y [Hy1 Hy2]. unfold pieces. destruct (Rle_dec y a); [lra|]. destruct (Rle_dec y b); [auto|lra].
    + subst x. apply (continuous_ext_loc _ (fun y => if Rle_dec y b then g y else h y)).
      * eapply filter_imp; [|apply (near_gt b a Hab)]. intros y Hy. unfold pieces.
        destruct (Rle_dec y a); [lra|]. auto.
      * apply continuous_glue; auto; [apply Hg; lra|apply Hh; lra].
    + eapply continuous_ext_loc; [|apply Hh; lra].
      eapply filter_imp; [|apply (near_gt x b Hgt')]. intros y Hy. unfold pieces.
      destruct (Rle_dec y a); [lra|]. destruct (Rle_dec y b); [lra|auto].
Qed.

(** ** Unfolding the masks *)
Lemma hl_val : h_lower = 10500. Proof. unfold h_lower, h_trans, eps_trop. lra. Qed.
Lemma hu_val : h_upper = 11500. Proof. unfold h_upper, h_trans, eps_trop. lra. Qed.

Lemma masks_pick (h vt vs vm : R) :
  b2r (m_tropos (get_masks h)) * vt + b2r (m_strato (get_masks h)) * vs + b2r (m_smooth (get_masks h)) * vm
  = (if Rle_dec h h_lower then vt else if Rle_dec h h_upper then vm else vs).
Proof.
  unfold get_masks; cbn [m_tropos m_strato m_smooth]. pose proof hl_val. pose proof hu_val.
  destruct (Rle_dec h h_lower), (Rgt_dec h h_upper), (Rle_dec h h_upper); simpl; unfold b2r; lra.
Qed.

Lemma temp_pieces k h : compute_temp k h (get_masks h) =
  pieces h_lower h_upper (fun h => 28816/100 - 65/10000 * h) (cubic k) (fun _ => 21665/100) h.
Proof. unfold compute_temp, pieces. rewrite Rplus_0_l. apply masks_pick. Qed.
Lemma temp_deriv_pieces k h : compute_temp_deriv k h (get_masks h) =
  pieces h_lower h_upper (fun h => - (65/10000)) (cubic' k) (fun _ => 0) h.
Proof.
  unfold compute_temp_deriv, pieces. rewrite <- masks_pick. ring.
Qed.

Lemma cubic_derive k (h : R) : is_derive (cubic k) h (cubic' k h).
Proof. unfold cubic, cubic'. auto_derive; auto. ring. Qed.

Lemma hl_lt_hu : h_lower < h_upper. Proof. rewrite hl_val, hu_val. lra. Qed.

Lemma temp_derive k h : temp_coeffs k ->
  is_derive (fun t => compute_temp k t (get_masks t)) h (compute_temp_deriv k h (get_masks h)).
Proof.
  intros [H1 [H2 [H3 H4]]]. rewrite temp_deriv_pieces.
  eapply is_derive_ext; [intro t; symmetry; apply temp_pieces|].
  apply is_derive_pieces; try apply hl_lt_hu.
  - intros _. auto_derive; auto. ring.
  - intros _. apply cubic_derive.
  - intros _. apply (is_derive_const (21665/100)).
  - unfold cubic. lra.
  - unfold cubic'. lra.
  - unfold cubic. lra.
  - unfold cubic'. lra.
Qed.
Lemma cont_derive (f : R -> R) (x l : R) : is_derive f x l -> continuous f x.
Proof. intro H. apply (@ex_derive_continuous R_AbsRing R_NormedModule). exists l; exact H. Qed.

Lemma cubic'_cont k h : continuous (cubic' k) h.
Proof.
  unfold cubic'. eapply cont_derive. 
  instantiate (1 := 6 * c3 k * h + 2 * c2 k). auto_derive; auto. ring.
Qed.

Lemma temp_C1 k h : temp_coeffs k ->
  continuous (fun t => compute_temp_deriv k t (get_masks t)) h.
Proof.
  intros [H1 [H2 [H3 H4]]]. eapply continuous_ext; [intro t; symmetry; apply temp_deriv_pieces|].
  apply continuous_pieces; try apply hl_lt_hu.
  - intros _. apply continuous_const.
  - intros _. apply cubic'_cont.
  - intros _. apply continuous_const.
  - unfold cubic'. lra.
  - unfold cubic'. lra.
Qed.

(** ** Pressure *)
Definition h_max : R := (28816/100) / (65/10000).
Definition base (h : R) : R := 1 - 65/10000 * h / (28816/100).
Lemma base_pos h : h < h_max -> 0 < base h.
Proof. unfold h_max, base. intro H. lra. Qed.
Lemma fpow_pos x y : 0 < x -> fpow x y = Some (Rpower x y).
Proof. intro H. unfold fpow. destruct (Rlt_dec x 0); [lra|]. destruct (Req_EM_T x 0); [lra|auto]. Qed.

Definition p_trop (h : R) : R := 101325 * Rpower (base h) (52561/10000).
Definition p_trop' (h : R) : R := 101325 * (52561/10000) * (- (65/10000) / (28816/100)) * Rpower (base h) (42561/10000).
Definition p_strat (h : R) : R := 22632 * exp (- (981/100) * (h - h_trans) / (288 * (21665/100))).
Definition p_strat' (h : R) : R := 22632 * (- (981/100) / (288 * (21665/100)))
     * exp (981/100 * 11000 / (288 * (21665/100))) * exp (- (981/100) * h / (288 * (21665/100))).

Lemma press_pieces k h : h < h_max -> compute_pressure k h (get_masks h) =
  Some (pieces h_lower h_upper p_trop (cubic k) p_strat h).
Proof.
  intro H. unfold compute_pressure. fold (base h). rewrite fpow_pos by (now apply base_pos).
  f_equal. rewrite Rplus_0_l. unfold pieces. rewrite masks_pick. reflexivity.
Qed.
Lemma press_deriv_pieces k h : h < h_max -> compute_pressure_deriv k h (get_masks h) =
  Some (pieces h_lower h_upper p_trop' (cubic' k) p_strat' h).
Proof.
  intro H. unfold compute_pressure_deriv. fold (base h). rewrite fpow_pos by (now apply base_pos).
  f_equal. rewrite Rplus_0_l. unfold pieces. rewrite masks_pick. reflexivity.
Qed.
Lemma press_nan k h m : h > h_max -> compute_pressure k h m = None.
Proof.
  intro H. unfold compute_pressure. fold (base h). unfold fpow.
  destruct (Rlt_dec (base h) 0) as [|n]; auto. exfalso. apply n. unfold base, h_max in *. lra.
Qed.

Lemma p_trop_derive (h : R) : h < h_max -> is_derive p_trop h (p_trop' h).
Proof.
  intro H. pose proof (base_pos h H) as Hb. unfold p_trop, p_trop', Rpower. unfold base in *.
  auto_derive; [exact Hb|].
  replace (42561/10000) with (52561/10000 - 1) by lra.
  set (b := 1 - 65/10000 * h / (28816/100)) in *.
  replace ((52561 / 10000 - 1) * ln b) with (52561/10000 * ln b + - ln b) by ring.
  rewrite exp_plus, exp_Ropp, exp_ln by auto. unfold Rdiv. 
  replace (1 + - (65 * / 10000 * h * / (28816 * / 100))) with b by (unfold b; field).
  field. lra.
Qed.
Lemma p_strat'_eq h : p_strat' h = - (981/100) / (288 * (21665/100)) * p_strat h.
Proof.
  unfold p_strat', p_strat, h_trans. rewrite Rmult_assoc, <- exp_plus.
  replace (981 / 100 * 11000 / (288 * (21665 / 100)) + - (981 / 100) * h / (288 * (21665 / 100)))
    with (- (981 / 100) * (h - 11000) / (288 * (21665 / 100))) by field. ring.
Qed.
Lemma p_strat_derive (h : R) : is_derive p_strat h (p_strat' h).
Proof.
  rewrite p_strat'_eq. unfold p_strat, h_trans. auto_derive; auto.
  unfold Rdiv, Rminus. field.
Qed.
Lemma p_strat'_cont h : continuous p_strat' h.
Proof.
  apply (continuous_ext (fun h => - (981/100) / (288 * (21665/100)) * p_strat h)); [intro; symmetry; apply p_strat'_eq|].
  apply (continuous_scal_r (- (981/100) / (288 * (21665/100))) p_strat). eapply cont_derive, p_strat_derive.
Qed.
Lemma p_trop'_cont h : h < h_max -> continuous p_trop' h.
Proof.
  intro H. pose proof (base_pos h H) as Hb. unfold p_trop', Rpower. unfold base in *.
  eapply cont_derive. auto_derive; [exact Hb|reflexivity].
Qed.

Lemma base_hl : base h_lower = tmp1. Proof. reflexivity. Qed.
Lemma tmp2_strat : 22632 * tmp2 = p_strat h_upper.
Proof. unfold tmp2, p_strat. f_equal. f_equal. unfold h_upper, h_trans, eps_trop. field. Qed.

Lemma hmax_big : h_upper < h_max. Proof. rewrite hu_val. unfold h_max. lra. Qed.

Lemma press_joins k : pressure_coeffs k ->
  p_trop h_lower = cubic k h_lower /\ p_trop' h_lower = cubic' k h_lower /\
  cubic k h_upper = p_strat h_upper /\ cubic' k h_upper = p_strat' h_upper.
Proof.
  intros [H1 [H2 [H3 H4]]]. repeat split.
  - unfold p_trop, cubic. rewrite base_hl. lra.
  - unfold p_trop', cubic'. rewrite base_hl.
    replace (3 * c3 k * h_lower ^ 2 + 2 * c2 k * h_lower + c1 k)
      with (3 * h_lower ^ 2 * c3 k + 2 * h_lower * c2 k + 1 * c1 k + 0 * c0 k) by ring.
    rewrite H3. field.
  - rewrite <- tmp2_strat. unfold cubic. lra.
  - rewrite p_strat'_eq, <- tmp2_strat. unfold cubic'.
    replace (3 * c3 k * h_upper ^ 2 + 2 * c2 k * h_upper + c1 k)
      with (3 * h_upper ^ 2 * c3 k + 2 * h_upper * c2 k + 1 * c1 k + 0 * c0 k) by ring.
    rewrite H4. field.
Qed.

Lemma press_pieces_derive k h : pressure_coeffs k -> h < h_max ->
  is_derive (pieces h_lower h_upper p_trop (cubic k) p_strat) h (pieces h_lower h_upper p_trop' (cubic' k) p_strat' h).
Proof.
  intros Hk Hh. destruct (press_joins k Hk) as [J1 [J2 [J3 J4]]].
  apply is_derive_pieces; auto; try apply hl_lt_hu.
  - intros _. now apply p_trop_derive.
  - intros _. apply cubic_derive.
  - intros _. apply p_strat_derive.
Qed.

Lemma press_derive k h : pressure_coeffs k -> h < h_max ->
  exists J, compute_pressure_deriv k h (get_masks h) = Some J /\
    is_derive (fun t => num (compute_pressure k t (get_masks t))) h J.
Proof.
  intros Hk Hh. rewrite press_deriv_pieces by auto. eexists; split; [reflexivity|].
  eapply is_derive_ext_loc; [|apply press_pieces_derive; auto].
  eapply filter_imp; [|apply (near_lt h h_max Hh)]. intros t Ht. rewrite press_pieces by auto. reflexivity.
Qed.

Lemma press_C1 k h : pressure_coeffs k -> h < h_max ->
  continuous (fun t => num (compute_pressure_deriv k t (get_masks t))) h.
Proof.
  intros Hk Hh. destruct (press_joins k Hk) as [J1 [J2 [J3 J4]]].
  eapply continuous_ext_loc.
  - eapply filter_imp; [|apply (near_lt h h_max Hh)]. intros t Ht. rewrite press_deriv_pieces by auto. reflexivity.
  - cbn [num]. apply continuous_pieces; auto; try apply hl_lt_hu.
    + intros _. now apply p_trop'_cont.
    + intros _. apply cubic'_cont.
    + intros _. apply p_strat'_cont.
Qed.

(** Existence of the coefficients (the matrix is regular): the Hermite cubic. *)
Definition hermite (r0 r1 r2 r3 : R) : coeffs :=
  let L := 1000 in
  let A := (2 * (r0 - r1) + L * (r2 + r3)) / L ^ 3 in
  let B := (3 * (r1 - r0) - L * (2 * r2 + r3)) / L ^ 2 in
  (* A (h-hl)^3 + B (h-hl)^2 + r2 (h-hl) + r0 *)
  {| c3 := A; c2 := B - 3 * A * 10500; c1 := r2 - 2 * B * 10500 + 3 * A * 10500 ^ 2;
     c0 := r0 - r2 * 10500 + B * 10500 ^ 2 - A * 10500 ^ 3 |}.
Lemma hermite_solves r0 r1 r2 r3 : solves (hermite r0 r1 r2 r3) r0 r1 r2 r3.
Proof. unfold solves, hermite. rewrite hl_val, hu_val. cbn [c3 c2 c1 c0]. repeat split; field. Qed.

(** Slope of the cubic at fraction s of the blending interval. *)
Lemma cubic'_bernstein k r0 r1 r2 r3 s : solves k r0 r1 r2 r3 ->
  cubic' k (h_lower + 1000 * s) = r2 * (1 - 4 * s + 3 * s ^ 2) + r3 * (3 * s ^ 2 - 2 * s) + 6 * ((r1 - r0) / 1000) * (s - s ^ 2).
Proof.
  intros [H1 [H2 [H3 H4]]]. rewrite <- H1, <- H2, <- H3, <- H4. unfold cubic'. rewrite hl_val, hu_val. field.
Qed.

(** Fritsch-Carlson: both end slopes within three times the mean slope. *)
Lemma blend_slope M N D s : 0 < M -> 0 < N -> M < 3 * D -> N < 3 * D -> 0 <= s <= 1 ->
  0 < M * (1 - 4 * s + 3 * s ^ 2) + N * (3 * s ^ 2 - 2 * s) + 6 * D * (s - s ^ 2).
Proof.
  intros HM HN HMD HND Hs.
  assert (HD : 0 < D) by lra.
  assert (E : 9 * D * (M * (1 - 4 * s + 3 * s ^ 2) + N * (3 * s ^ 2 - 2 * s) + 6 * D * (s - s ^ 2)) =
    (3 * D - M) * (3 * D - N) * (6 * (s * (1 - s))) + M * (3 * D - N) * (3 * (1 - s) ^ 2)
    + (3 * D - M) * N * (3 * s ^ 2) + M * N * (3 * (1 - 2 * s) ^ 2)) by ring.
  assert (P1 : 0 < (3 * D - M) * (3 * D - N)) by (apply Rmult_lt_0_compat; lra).
  assert (P2 : 0 < M * (3 * D - N)) by (apply Rmult_lt_0_compat; lra).
  assert (P3 : 0 < (3 * D - M) * N) by (apply Rmult_lt_0_compat; lra).
  assert (P4 : 0 < M * N) by (apply Rmult_lt_0_compat; lra).
  assert (Q1 : 0 <= 6 * (s * (1 - s))) by nra.
  assert (Q4 : 0 <= 3 * (1 - 2 * s) ^ 2) by (pose proof (pow2_ge_0 (1 - 2 * s)); lra).
  assert (Q2 : 0 <= 3 * (1 - s) ^ 2) by (pose proof (pow2_ge_0 (1 - s)); lra).
  assert (Q3 : 0 <= 3 * s ^ 2) by (pose proof (pow2_ge_0 s); lra).
  assert (T1 := Rmult_le_pos _ _ (Rlt_le _ _ P1) Q1). assert (T4 := Rmult_le_pos _ _ (Rlt_le _ _ P4) Q4).
  assert (T2 := Rmult_le_pos _ _ (Rlt_le _ _ P2) Q2). assert (T3 := Rmult_le_pos _ _ (Rlt_le _ _ P3) Q3).
  assert (0 < M * (3 * D - N) * (3 * (1 - s) ^ 2) + (3 * D - M) * N * (3 * s ^ 2)).
  { destruct (Rlt_dec s 1).
    - assert (0 < 3 * (1 - s) ^ 2) by nra. assert (0 < M * (3 * D - N) * (3 * (1 - s) ^ 2)) by (apply Rmult_lt_0_compat; auto). lra.
    - assert (0 < 3 * s ^ 2) by nra. assert (0 < (3 * D - M) * N * (3 * s ^ 2)) by (apply Rmult_lt_0_compat; auto). lra. }
  apply (Rmult_lt_reg_l (9 * D)); [lra|]. rewrite Rmult_0_r, E. lra.
Qed.

Lemma at_fraction h : h_lower <= h <= h_upper -> exists s, 0 <= s <= 1 /\ h = h_lower + 1000 * s.
Proof.
  rewrite hl_val, hu_val. intro H. exists ((h - 10500) / 1000). split; [lra|field].
Qed.

Lemma temp_slope k h : temp_coeffs k -> compute_temp_deriv k h (get_masks h) <= 0.
Proof.
  intro Hk. rewrite temp_deriv_pieces. unfold pieces.
  destruct (Rle_dec h h_lower); [lra|]. destruct (Rle_dec h h_upper); [|lra].
  destruct (at_fraction h) as [s [Hs ->]]; [lra|].
  rewrite (cubic'_bernstein k _ _ _ _ s Hk). rewrite hl_val. nra.
Qed.

(** Numeric bounds for the pressure at both ends of the blending interval. *)
Lemma tmp2_bounds : 0 < tmp2 < 928/1000.
Proof.
  unfold tmp2, eps_trop. split; [apply exp_pos|].
  replace (- (981 / 100) * 500 / (288 * (21665 / 100))) with (- (4905 / (288 * (21665/100)))) by field.
  rewrite exp_Ropp.
  assert (1 + 4905 / (288 * (21665/100)) < exp (4905 / (288 * (21665/100)))) by (apply exp_ineq1; lra).
  apply (Rlt_trans _ (/ (1 + 4905 / (288 * (21665/100))))); [apply Rinv_lt_contravar; [apply Rmult_lt_0_compat|]; lra|].
  lra.
Qed.
Lemma tmp1_val : tmp1 = 1 - 65/10000 * 10500 / (28816/100).
Proof. unfold tmp1. rewrite hl_val. reflexivity. Qed.
Lemma tmp1_pow_lower : 225/1000 < Rpower tmp1 (52561/10000).
Proof.
  assert (Hb : 763/1000 < tmp1 < 764/1000) by (rewrite tmp1_val; lra).
  apply (Rlt_le_trans _ (Rpower tmp1 (5 + /2))).
  - rewrite Rpower_plus, Rpower_sqrt by lra.
    replace 5 with (INR 5) by (simpl; lra). rewrite Rpower_pow by lra.
    assert (873/1000 < sqrt tmp1).
    { rewrite <- (sqrt_Rsqr (873/1000)) by lra. apply sqrt_lt_1_alt. unfold Rsqr. lra. }
    assert (HP : (763/1000) ^ 5 <= tmp1 ^ 5) by (apply pow_incr; lra).
    assert (0 <= tmp1 ^ 5) by (apply pow_le; lra). nra.
  - assert (0 < - ln tmp1) by (rewrite <- ln_Rinv by lra; rewrite <- ln_1; apply ln_increasing; [lra|];
      rewrite <- Rinv_1; apply Rinv_lt_contravar; lra).
    unfold Rpower. destruct (Req_dec (5 + /2) (52561/10000)); [lra|].
    left. apply exp_increasing. nra.
Qed.

Lemma press_slope k h : pressure_coeffs k -> h < h_max ->
  pieces h_lower h_upper p_trop' (cubic' k) p_strat' h < 0.
Proof.
  intros Hk Hh. unfold pieces. destruct (Rle_dec h h_lower).
  - unfold p_trop', Rpower. pose proof (exp_pos (42561 / 10000 * ln (base h))). nra.
  - destruct (Rle_dec h h_upper).
    + destruct (at_fraction h) as [s [Hs ->]]; [lra|].
      rewrite (cubic'_bernstein k _ _ _ _ s Hk).
      pose proof tmp2_bounds as H2. pose proof tmp1_pow_lower as H1.
      assert (Hb : 763/1000 < tmp1 < 764/1000) by (rewrite tmp1_val; lra).
      assert (E : Rpower tmp1 (42561/10000) = Rpower tmp1 (52561/10000) / tmp1).
      { replace (42561/10000) with (52561/10000 + - (1)) by lra. rewrite Rpower_plus, Rpower_Ropp, Rpower_1 by lra. reflexivity. }
      set (P := Rpower tmp1 (52561/10000)) in *.
      assert (Hq : 1 / tmp1 * P < 1311/1000 * P).
      { apply Rmult_lt_compat_r; [lra|]. apply (Rmult_lt_reg_r tmp1); [lra|]. field_simplify; lra. }
      assert (Hq0 : 0 < 1 / tmp1 * P) by (apply Rmult_lt_0_compat; [apply Rdiv_lt_0_compat|]; lra).
      replace (P / tmp1) with (1 / tmp1 * P) in E by (field; lra).
      rewrite E. set (Q := 1 / tmp1 * P) in *.
      pose proof (blend_slope (101325 * (52561 / 10000) * (65 / 10000 / (28816 / 100)) * Q)
        (22632 * (981 / 100 / (288 * (21665 / 100))) * tmp2)
        ((101325 * P - 22632 * tmp2) / 1000) s) as HB.
      assert (HB' : 0 < 101325 * (52561 / 10000) * (65 / 10000 / (28816 / 100)) * Q * (1 - 4 * s + 3 * s ^ 2) +
        22632 * (981 / 100 / (288 * (21665 / 100))) * tmp2 * (3 * s ^ 2 - 2 * s) +
        6 * ((101325 * P - 22632 * tmp2) / 1000) * (s - s ^ 2)) by (apply HB; lra).
      lra.
    + rewrite p_strat'_eq. unfold p_strat. pose proof (exp_pos (- (981 / 100) * (h - h_trans) / (288 * (21665 / 100)))). nra.
Qed.

Lemma decreasing_of_slope (f f' : R -> R) a b : a < b ->
  (forall x, a <= x <= b -> is_derive f x (f' x)) -> (forall x, a <= x <= b -> f' x < 0) -> f b < f a.
Proof.
  intros Hab Hd Hneg. 
  destruct (MVT_gen f a b f') as [c [Hc E]].
  - intros x Hx. rewrite Rmin_left, Rmax_right in Hx by lra. apply Hd; lra.
  - intros x Hx. rewrite Rmin_left, Rmax_right in Hx by lra.
    apply continuity_pt_filterlim. eapply cont_derive. apply Hd; lra.
  - rewrite Rmin_left, Rmax_right in Hc by lra. specialize (Hneg c Hc). nra.
Qed.
Lemma nonincreasing_of_slope (f f' : R -> R) a b : a <= b ->
  (forall x, is_derive f x (f' x)) -> (forall x, f' x <= 0) -> f b <= f a.
Proof.
  intros Hab Hd Hneg. 
  destruct (MVT_gen f a b f') as [c [Hc E]].
  - intros x Hx. apply Hd.
  - intros x Hx. apply continuity_pt_filterlim. eapply cont_derive. apply Hd.
  - specialize (Hneg c). nra.
Qed.

Lemma temp_antitone k h1 h2 : temp_coeffs k -> h1 <= h2 ->
  compute_temp k h2 (get_masks h2) <= compute_temp k h1 (get_masks h1).
Proof.
  intros Hk H. apply (nonincreasing_of_slope (fun t => compute_temp k t (get_masks t))
    (fun t => compute_temp_deriv k t (get_masks t)) h1 h2 H).
  - intro x. now apply temp_derive.
  - intro x. now apply temp_slope.
Qed.
Lemma temp_bounded k h : temp_coeffs k -> 21665/100 <= compute_temp k h (get_masks h).
Proof.
  intro Hk. set (h2 := Rmax h (h_upper + 1)).
  apply (Rle_trans _ (compute_temp k h2 (get_masks h2))).
  - rewrite temp_pieces. unfold pieces. pose proof (Rmax_r h (h_upper + 1)). fold h2 in H. pose proof hl_lt_hu.
    destruct (Rle_dec h2 h_lower); [lra|]. destruct (Rle_dec h2 h_upper); lra.
  - apply temp_antitone; auto. apply Rmax_l.
Qed.

Lemma press_decreasing k h1 h2 : pressure_coeffs k -> h1 < h2 -> h2 < h_max ->
  exists p1 p2, compute_pressure k h1 (get_masks h1) = Some p1 /\ compute_pressure k h2 (get_masks h2) = Some p2 /\ p2 < p1.
Proof.
  intros Hk H12 H2. rewrite !press_pieces by lra. do 2 eexists. split; [reflexivity|]. split; [reflexivity|].
  apply (decreasing_of_slope _ (pieces h_lower h_upper p_trop' (cubic' k) p_strat')); auto.
  - intros x Hx. apply press_pieces_derive; auto. lra.
  - intros x Hx. apply press_slope; auto. lra.
Qed.
Lemma press_positive k h : pressure_coeffs k -> h < h_max ->
  exists p, compute_pressure k h (get_masks h) = Some p /\ 0 < p.
Proof.
  intros Hk H. rewrite press_pieces by auto. eexists; split; [reflexivity|].
  assert (Hs : forall t, h_upper < t -> t < h_max -> 0 < pieces h_lower h_upper p_trop (cubic k) p_strat t).
  { intros t H1 H2. unfold pieces. pose proof hl_lt_hu. destruct (Rle_dec t h_lower); [lra|]. destruct (Rle_dec t h_upper); [lra|].
    unfold p_strat. pose proof (exp_pos (- (981 / 100) * (t - h_trans) / (288 * (21665 / 100)))). lra. }
  destruct (Rlt_dec h_upper h); [now apply Hs|].
  pose proof hmax_big.
  destruct (press_decreasing k h ((h_upper + h_max) / 2) Hk) as [p1 [p2 [E1 [E2 E3]]]]; [lra|lra|].
  rewrite press_pieces in E1, E2 by lra. injection E1 as E1. injection E2 as E2.
  rewrite E1. assert (0 < p2) by (rewrite <- E2; apply Hs; lra). lra.
Qed.

(** ** C21 *)
Definition last_compute (E : env) (l : list call) : Prop :=
  exists l1 l2, l = app l1 (CCompute E :: l2) /\ forall c, In c l2 -> exists E', c = CPartials E'.

Lemma fold_partials (step : comp_state -> call -> comp_state) st l :
  (forall s E, step s (CPartials E) = s) ->
  (forall c, In c l -> exists E', c = CPartials E') -> fold_left step l st = st.
Proof.
  intro Hs. revert st. induction l as [|c l IH]; intros st H; [reflexivity|]. simpl.
  destruct (H c (or_introl eq_refl)) as [E' ->]. rewrite Hs. apply IH. intros c Hc. apply H. now right.
Qed.

Lemma temp_last k E l st : last_compute E l ->
  fold_left (temp_step k) l st = Some (fun i => get_masks (E "fltcond|h"%string i)).
Proof.
  intros [l1 [l2 [-> H]]]. rewrite fold_left_app. simpl. rewrite fold_partials; auto.
Qed.
Lemma press_last k E l st : last_compute E l ->
  fold_left (press_step k) l st = Some (fun i => get_masks (E "fltcond|h"%string i)).
Proof.
  intros [l1 [l2 [-> H]]]. rewrite fold_left_app. simpl. rewrite fold_partials; auto.
Qed.

(** Two altitudes in the same layer of the model. *)
Definition same_layer (a b : R) : Prop :=
  (a <= 10500 <-> b <= 10500) /\ (a <= 11500 <-> b <= 11500).
Lemma same_masks a b : same_layer a b -> get_masks a = get_masks b.
Proof.
  intros [[H1 H1'] [H2 H2']]. unfold get_masks. rewrite hl_val, hu_val.
  destruct (Rle_dec a 10500), (Rle_dec b 10500), (Rgt_dec a 11500), (Rgt_dec b 11500); try reflexivity; exfalso; lra || tauto || (apply H2 in r || idtac; lra).
Qed.

(** Derivative of a component whose entry i depends on entry i of the input x only. *)
Lemma vec_derive (F : env -> nat -> R) (f : nat -> R -> R) E x i j J :
  (forall E' i, (forall y, y <> x -> E' y = E y) -> F E' i = f i (E' x i)) ->
  is_derive (f i) (E x i) J ->
  is_derive (fun t => F (updE E x j t) i) (E x j) (if Nat.eqb i j then J else 0).
Proof.
  intros HF Hd.
  assert (HE : forall t y, y <> x -> updE E x j t y = E y).
  { intros t y Hy. apply FunctionalExtensionality.functional_extensionality. intro k. unfold updE.
    destruct (String.eqb_spec x y); congruence. }
  destruct (Nat.eqb_spec i j) as [<-|Hne].
  - eapply is_derive_ext; [|exact Hd]. intro t. rewrite HF by (intros; now apply HE).
    unfold updE. now rewrite String.eqb_refl, Nat.eqb_refl.
  - eapply is_derive_ext; [|apply (is_derive_const (f i (E x i)))]. intro t. rewrite HF by (intros; now apply HE).
    unfold updE. rewrite String.eqb_refl. destruct (Nat.eqb_spec j i); congruence.
Qed.

Lemma temp_comp_derive k E st i j : temp_coeffs k ->
  is_derive (fun t => snd (temp_comp_compute k (updE E "fltcond|h" j t) st) i) (E "fltcond|h" j)
    (if Nat.eqb i j then compute_temp_deriv k (E "fltcond|h" i) (get_masks (E "fltcond|h" i)) else 0).
Proof.
  intro Hk. apply (vec_derive (fun E => snd (temp_comp_compute k E st))
    (fun i t => compute_temp k t (get_masks t) + E "fltcond|TempIncrement" i)).
  - intros E' i' H. simpl. rewrite (H "fltcond|TempIncrement"); [reflexivity|discriminate].
  - rewrite <- Rplus_0_r. apply (@is_derive_plus R_AbsRing R_NormedModule).
    + now apply temp_derive.
    + apply (is_derive_const (E "fltcond|TempIncrement" i)).
Qed.
Lemma temp_comp_derive_inc k E st i j :
  is_derive (fun t => snd (temp_comp_compute k (updE E "fltcond|TempIncrement" j t) st) i) (E "fltcond|TempIncrement" j)
    (if Nat.eqb i j then 1 else 0).
Proof.
  apply (vec_derive (fun E => snd (temp_comp_compute k E st))
    (fun i t => compute_temp k (E "fltcond|h" i) (get_masks (E "fltcond|h" i)) + t)).
  - intros E' i' H. simpl. rewrite (H "fltcond|h"); [reflexivity|discriminate].
  - auto_derive; auto.
Qed.
Lemma press_comp_derive k E st i j : pressure_coeffs k -> E "fltcond|h" i < h_max ->
  exists J, compute_pressure_deriv k (E "fltcond|h" i) (get_masks (E "fltcond|h" i)) = Some J /\
  is_derive (fun t => num (snd (press_comp_compute k (updE E "fltcond|h" j t) st) i)) (E "fltcond|h" j)
    (if Nat.eqb i j then J else 0).
Proof.
  intros Hk Hh. destruct (press_derive k _ Hk Hh) as [J [HJ Hd]]. exists J. split; auto.
  apply (vec_derive (fun E i => num (snd (press_comp_compute k E st) i))
    (fun i t => num (compute_pressure k t (get_masks t)))); auto.
Qed.

(** ** C23 *)
Lemma Rpower_m32 x : 0 < x -> Rpower x (-3 / 2) = / (x * sqrt x).
Proof.
  intro H. replace (-3/2) with (- (1 + /2)) by lra.
  rewrite Rpower_Ropp, Rpower_plus, Rpower_1, Rpower_sqrt by auto. reflexivity.
Qed.
Lemma Rpower_m12 x : 0 < x -> Rpower x (-1 / 2) = / sqrt x.
Proof. intro H. replace (-1/2) with (- (/2)) by lra. now rewrite Rpower_Ropp, Rpower_sqrt. Qed.

Lemma Density_jac n E : (0 < n)%nat -> (forall i, (i < n)%nat -> E "fltcond|T" i <> 0) -> jac_correct n DensityComp E.
Proof.
  intros Hn H. apply jac_correct_lift; auto. intros i Hi. specialize (H i Hi).
  change (E "fltcond|T" i) with (node DensityComp E i "fltcond|T") in H.
  generalize dependent (node DensityComp E i). intros e He. unfold Rgas.
  split_jac DensityComp. all: unfold Rgas; auto_derive; [try tauto | try (field; tauto)].
Qed.
Lemma Mach_jac n E : (0 < n)%nat -> (forall i, (i < n)%nat -> E "fltcond|a" i <> 0) -> jac_correct n MachNumberComp E.
Proof.
  intros Hn H. apply jac_correct_lift; auto. intros i Hi. specialize (H i Hi).
  change (E "fltcond|a" i) with (node MachNumberComp E i "fltcond|a") in H.
  generalize dependent (node MachNumberComp E i). intros e He.
  split_jac MachNumberComp. all: auto_derive; [try tauto | try (field; tauto)].
Qed.
Lemma DynP_jac n E : (0 < n)%nat -> jac_correct n DynamicPressureComp E.
Proof.
  intros Hn. apply jac_correct_lift; auto. intros i Hi.
  generalize dependent (node DynamicPressureComp E i). intros e.
  split_jac DynamicPressureComp. all: auto_derive; [try tauto | try (field; tauto)].
Qed.
Lemma SoS_jac n E : (0 < n)%nat -> (forall i, (i < n)%nat -> 0 < E "fltcond|T" i) -> jac_correct n SpeedOfSoundComp E.
Proof.
  intros Hn H. apply jac_correct_lift; auto. intros i Hi. specialize (H i Hi).
  change (E "fltcond|T" i) with (node SpeedOfSoundComp E i "fltcond|T") in H.
  generalize dependent (node SpeedOfSoundComp E i). intros e He.
  split_jac SpeedOfSoundComp. unfold Rgas. set (T := e "fltcond|T") in *. auto_derive; [nra|].
  assert (0 < sqrt (14 / 10 * (287058 / 1000) * T)) by (apply sqrt_lt_R0; nra).
  replace (14 / 10 * (287058 / 1000) / T) with ((14 / 10 * (287058 / 1000) * T) / (T * T)) by (field; lra).
  rewrite sqrt_div_alt, sqrt_square by nra.
  assert (Hs : sqrt (14 / 10 * (287058 / 1000) * T) * sqrt (14 / 10 * (287058 / 1000) * T) = 14 / 10 * (287058 / 1000) * T) by (apply sqrt_sqrt; nra).
  set (S := sqrt _) in *. apply (Rmult_eq_reg_r (2 * S * T)); [|nra].
  field_simplify; [|lra|lra]. unfold pow. rewrite ?Rmult_1_r, Hs. field.
Qed.
Lemma TAS_jac n E : (0 < n)%nat -> (forall i, (i < n)%nat -> 0 < E "fltcond|rho" i) -> jac_correct n TrueAirspeedComp E.
Proof.
  intros Hn H. apply jac_correct_lift; auto. intros i Hi. specialize (H i Hi).
  change (E "fltcond|rho" i) with (node TrueAirspeedComp E i "fltcond|rho") in H.
  generalize dependent (node TrueAirspeedComp E i). intros e He.
  split_jac TrueAirspeedComp.
  - auto_derive; auto. ring.
  - set (r := e "fltcond|rho") in *.
    assert (0 < rho_isa / r) by (apply Rdiv_lt_0_compat; unfold rho_isa; lra).
    auto_derive; [split; [lra|split; auto]|].
    rewrite Rpower_m32 by auto. change (rho_isa * / r) with (rho_isa / r).
    assert (Hs : 0 < sqrt r) by (now apply sqrt_lt_R0).
    assert (Hs0 : 0 < sqrt rho_isa) by (apply sqrt_lt_R0; unfold rho_isa; lra).
    rewrite sqrt_div_alt by auto.
    assert (E1 : sqrt r * sqrt r = r) by (apply sqrt_sqrt; lra).
    assert (E0 : sqrt rho_isa * sqrt rho_isa = rho_isa) by (apply sqrt_sqrt; unfold rho_isa; lra).
    set (s := sqrt r) in *. set (s0 := sqrt rho_isa) in *. rewrite <- E0, <- E1. field. lra.
Qed.
Lemma EAS_jac n E : (0 < n)%nat -> (forall i, (i < n)%nat -> 0 < E "fltcond|rho" i) -> jac_correct n EquivalentAirspeedComp E.
Proof.
  intros Hn H. apply jac_correct_lift; auto. intros i Hi. specialize (H i Hi).
  change (E "fltcond|rho" i) with (node EquivalentAirspeedComp E i "fltcond|rho") in H.
  generalize dependent (node EquivalentAirspeedComp E i). intros e He.
  split_jac EquivalentAirspeedComp.
  - set (r := e "fltcond|rho") in *.
    assert (0 < r / rho_isa) by (apply Rdiv_lt_0_compat; unfold rho_isa; lra).
    rewrite Rpower_m12 by auto.
    assert (0 < sqrt (r / rho_isa)) by (now apply sqrt_lt_R0).
    auto_derive; [auto|]. change (r * / rho_isa) with (r / rho_isa).
    field. unfold rho_isa in *. lra.
  - auto_derive; auto. ring.
Qed.

Lemma tas_of_eas U r : 0 < r -> (U * sqrt (rho_isa / r)) * sqrt (r / rho_isa) = U.
Proof.
  intro H. assert (0 < rho_isa) by (unfold rho_isa; lra).
  rewrite Rmult_assoc, <- sqrt_mult by (apply Rlt_le, Rdiv_lt_0_compat; auto).
  replace (rho_isa / r * (r / rho_isa)) with 1 by (field; lra). rewrite sqrt_1. ring.
Qed.
Lemma eas_of_tas U r : 0 < r -> (U * sqrt (r / rho_isa)) * sqrt (rho_isa / r) = U.
Proof.
  intro H. rewrite Rmult_assoc, (Rmult_comm (sqrt (r / rho_isa))), <- Rmult_assoc. now apply tas_of_eas.
Qed.
