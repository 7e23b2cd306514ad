(** Partials of the heat exchanger's components. *)
From Coq Require Import Reals List Bool PeanoNat String Lra Lia.
From Verif Require Import Base Py Calc Model_Vectors Model_Net Proofs_Net Model_Thermal Proofs_Thermal Proofs_Cs Model_HX.
Import ListNotations.
Open Scope R_scope.
Open Scope string_scope.

(** ** Partials *)
Lemma osf_jac n E : (0 < n)%nat -> (forall x, In x (map fst osf_ins) -> 0 < E x 0%nat) ->
  jac_correct n OffsetStripFinGeometry E.
Proof.
  intros Hn Hp. apply cs_jac; [assumption|]. intros i o ko f Hi Ho x kx Hx. cbv zeta.
  set (C := {| pc_ins := osf_ins |}).
  assert (P : forall y, In y (map fst osf_ins) -> 0 < node C E i y).
  { intros y Hy. cbn [osf_ins map fst In] in Hy. pose proof (Hp y Hy) as Q. 
    unfold node, C; cbn [pc_ins]. repeat (destruct Hy as [<-|Hy]; [exact Q|]). contradiction. }
  generalize dependent (node C E i). clear - Ho. intros e P. cbn [osf_ins map fst In] in P.
  assert (P1 := P "channel_width_hot" ltac:(tauto)). assert (P2 := P "channel_height_hot" ltac:(tauto)).
  assert (P3 := P "fin_length_hot" ltac:(tauto)). assert (P4 := P "channel_width_cold" ltac:(tauto)).
  assert (P5 := P "channel_height_cold" ltac:(tauto)). assert (P6 := P "fin_length_cold" ltac:(tauto)).
  assert (P7 := P "fin_thickness" ltac:(tauto)). assert (P8 := P "plate_thickness" ltac:(tauto)).
  assert (P9 := P "case_thickness" ltac:(tauto)). assert (P10 := P "n_wide_cold" ltac:(tauto)).
  assert (P11 := P "n_long_cold" ltac:(tauto)). assert (P12 := P "n_tall" ltac:(tauto)). clear P.
  apply assoc_In in Ho. unfold osf_outs in Ho. cbn [In] in Ho.
  each_in Ho; exd; posi.
Qed.

Lemma osf_j_derive Re a d g : 0 < Re -> 0 < a -> 0 < d -> 0 < g ->
  is_derive (fun t => osf_j t a d g) Re (osf_j_Re Re a d g).
Proof.
  intros HR Ha Hd Hg. unfold osf_j, osf_j_Re. assert (0 < j2 a d g) by (unfold j2; posi).
  set (J1 := j1 a d g). set (J2 := j2 a d g) in *. clearbody J1 J2.
  assert (B : 0 < 1 + 5269/100000000 * Rpower Re (134/100) * J2) by posi.
  assert (D1 := Rpower_derive (-5403/10000) Re HR).
  assert (D2 : is_derive (fun t => 1 + 5269/100000000 * Rpower t (134/100) * J2) Re
     (5269/100000000 * (134/100 * Rpower Re (134/100 - 1)) * J2)).
  { eapply derive_eq; [apply derive_plus; [apply derive_const|apply derive_mulr, derive_mull, (Rpower_derive _ _ HR)]|]. ring. }
  assert (D3 := derive_comp (fun u => Rpower u (1/10)) _ Re _ _ (Rpower_derive (1/10) _ B) D2). cbv beta in D3.
  eapply derive_eq; [apply derive_mult; [apply derive_mulr, derive_mull, D1|exact D3]|]. cbv beta.
  replace (-5403/10000 - 1) with (-15403/10000) by field. replace (134/100 - 1) with (34/100) by field.
  replace (1/10 - 1) with (-9/10) by field. ring.
Qed.
Lemma osf_f_derive Re a d g : 0 < Re -> 0 < a -> 0 < d -> 0 < g ->
  is_derive (fun t => osf_f t a d g) Re (osf_f_Re Re a d g).
Proof.
  intros HR Ha Hd Hg. unfold osf_f, osf_f_Re. assert (0 < f2 a d g) by (unfold f2; posi).
  set (J1 := f1 a d g). set (J2 := f2 a d g) in *. clearbody J1 J2.
  assert (B : 0 < 1 + 7669/100000000000 * Rpower Re (4429/1000) * J2) by posi.
  assert (D1 := Rpower_derive (-7422/10000) Re HR).
  assert (D2 : is_derive (fun t => 1 + 7669/100000000000 * Rpower t (4429/1000) * J2) Re
     (7669/100000000000 * (4429/1000 * Rpower Re (4429/1000 - 1)) * J2)).
  { eapply derive_eq; [apply derive_plus; [apply derive_const|apply derive_mulr, derive_mull, (Rpower_derive _ _ HR)]|]. ring. }
  assert (D3 := derive_comp (fun u => Rpower u (1/10)) _ Re _ _ (Rpower_derive (1/10) _ B) D2). cbv beta in D3.
  eapply derive_eq; [apply derive_mult; [apply derive_mulr, derive_mull, D1|exact D3]|]. cbv beta.
  replace (-7422/10000 - 1) with (-17422/10000) by field. replace (4429/1000 - 1) with (3429/1000) by field.
  replace (1/10 - 1) with (-9/10) by field. ring.
Qed.

Lemma osfdata_jac n E : (0 < n)%nat ->
  (forall i, (i < n)%nat -> 0 < E "Re_dh_cold" i) -> (forall i, (i < n)%nat -> 0 < E "Re_dh_hot" i) ->
  0 < E "alpha_cold" 0%nat -> 0 < E "delta_cold" 0%nat -> 0 < E "gamma_cold" 0%nat ->
  0 < E "alpha_hot" 0%nat -> 0 < E "delta_hot" 0%nat -> 0 < E "gamma_hot" 0%nat -> jac_correct n OffsetStripFinData E.
Proof.
  to_node.
  change (E "Re_dh_cold" i) with (node OffsetStripFinData E i "Re_dh_cold") in *.
  change (E "Re_dh_hot" i) with (node OffsetStripFinData E i "Re_dh_hot") in *.
  change (E "alpha_cold" 0%nat) with (node OffsetStripFinData E i "alpha_cold") in *.
  change (E "delta_cold" 0%nat) with (node OffsetStripFinData E i "delta_cold") in *.
  change (E "gamma_cold" 0%nat) with (node OffsetStripFinData E i "gamma_cold") in *.
  change (E "alpha_hot" 0%nat) with (node OffsetStripFinData E i "alpha_hot") in *.
  change (E "delta_hot" 0%nat) with (node OffsetStripFinData E i "delta_hot") in *.
  change (E "gamma_hot" 0%nat) with (node OffsetStripFinData E i "gamma_hot") in *.
  generalize dependent (node OffsetStripFinData E i). intros e H1 H2 H3 H4 H5 H6 H7 H8.
  assert (XJ : forall R' a d g x, 0 < e R' -> 0 < e a -> 0 < e d -> 0 < e g ->
     ex_derive (fun t => osf_j (upd e x t R') (upd e x t a) (upd e x t d) (upd e x t g)) (e x)).
  { intros. unfold osf_j, j1, j2. exd; posi. }
  assert (XF : forall R' a d g x, 0 < e R' -> 0 < e a -> 0 < e d -> 0 < e g ->
     ex_derive (fun t => osf_f (upd e x t R') (upd e x t a) (upd e x t d) (upd e x t g)) (e x)).
  { intros. unfold osf_f, f1, f2. exd; posi. }
  split_jac OffsetStripFinData; lazymatch goal with |- is_derive (fun _ => ?c) _ _ => apply derive_const | _ => idtac end;
    try (apply osf_j_derive; assumption); try (apply osf_f_derive; assumption);
    unfold cs; apply Derive_correct;
    match goal with
    | |- ex_derive (fun t => osf_j _ _ _ _) (e ?x) =>
       first [exact (XJ "Re_dh_cold" "alpha_cold" "delta_cold" "gamma_cold" x H1 H3 H4 H5)
             |exact (XJ "Re_dh_hot" "alpha_hot" "delta_hot" "gamma_hot" x H2 H6 H7 H8)]
    | |- ex_derive (fun t => osf_f _ _ _ _) (e ?x) =>
       first [exact (XF "Re_dh_cold" "alpha_cold" "delta_cold" "gamma_cold" x H1 H3 H4 H5)
             |exact (XF "Re_dh_hot" "alpha_hot" "delta_hot" "gamma_hot" x H2 H6 H7 H8)]
    end.
Qed.

Lemma reynolds_jac n E : (0 < n)%nat -> E "xs_area_cold" 0%nat <> 0 -> E "mu_cold" 0%nat <> 0 ->
  E "xs_area_hot" 0%nat <> 0 -> E "mu_hot" 0%nat <> 0 -> jac_correct n HydraulicDiameterReynoldsNumber E.
Proof.
  to_node.
  change (E "xs_area_cold" 0%nat) with (node HydraulicDiameterReynoldsNumber E i "xs_area_cold") in *.
  change (E "mu_cold" 0%nat) with (node HydraulicDiameterReynoldsNumber E i "mu_cold") in *.
  change (E "xs_area_hot" 0%nat) with (node HydraulicDiameterReynoldsNumber E i "xs_area_hot") in *.
  change (E "mu_hot" 0%nat) with (node HydraulicDiameterReynoldsNumber E i "mu_hot") in *.
  generalize dependent (node HydraulicDiameterReynoldsNumber E i). intros e ? ? ? ?.
  split_jac HydraulicDiameterReynoldsNumber; auto_derive; auto; field; auto.
Qed.

Lemma convection_jac n E : (0 < n)%nat -> E "dh_cold" 0%nat <> 0 -> E "dh_hot" 0%nat <> 0 -> jac_correct n ConvectiveCoefficient E.
Proof.
  to_node.
  change (E "dh_cold" 0%nat) with (node ConvectiveCoefficient E i "dh_cold") in *.
  change (E "dh_hot" 0%nat) with (node ConvectiveCoefficient E i "dh_hot") in *.
  generalize dependent (node ConvectiveCoefficient E i). intros e ? ?.
  split_jac ConvectiveCoefficient; auto_derive; auto; field; auto.
Qed.

Lemma Rpower_cube_inv k : 0 < k -> Rpower k (-2/3) / (Rpower k (1/3) * Rpower k (1/3)) = / Rpower k (4/3).
Proof.
  intro H. replace (4/3) with (1/3 + 1/3 + 2/3) by field. rewrite !Rpower_plus.
  replace (-2/3) with (- (2/3)) by field. rewrite Rpower_Ropp.
  pose proof (Rpower_pos k (1/3)). pose proof (Rpower_pos k (2/3)). field. lra.
Qed.
Lemma third_inv_derive k : 0 < k -> is_derive (fun t => / Rpower t (1/3)) k (- (1) / 3 / Rpower k (4/3)).
Proof.
  intro H. pose proof (Rpower_pos k (1/3)) as P.
  eapply derive_eq.
  - apply (is_derive_inv (fun t => Rpower t (1/3)) k _ (Rpower_derive _ _ H)). lra.
  - replace (1/3 - 1) with (-2/3) by field. pose proof (Rpower_cube_inv k H) as Q.
    transitivity (- (1) / 3 * / Rpower k (4/3)); [rewrite <- Q|reflexivity].
    match goal with |- ?a = ?b => change (@eq R a b) end. field. lra.
Qed.
Lemma nusselt_jac n E : (0 < n)%nat -> 0 < E "k_cold" 0%nat -> 0 < E "mu_cold" 0%nat -> 0 < E "cp_cold" 0%nat ->
  0 < E "k_hot" 0%nat -> 0 < E "mu_hot" 0%nat -> 0 < E "cp_hot" 0%nat -> jac_correct n NusseltFromColburnJ E.
Proof.
  to_node.
  change (E "k_cold" 0%nat) with (node NusseltFromColburnJ E i "k_cold") in *.
  change (E "mu_cold" 0%nat) with (node NusseltFromColburnJ E i "mu_cold") in *.
  change (E "cp_cold" 0%nat) with (node NusseltFromColburnJ E i "cp_cold") in *.
  change (E "k_hot" 0%nat) with (node NusseltFromColburnJ E i "k_hot") in *.
  change (E "mu_hot" 0%nat) with (node NusseltFromColburnJ E i "mu_hot") in *.
  change (E "cp_hot" 0%nat) with (node NusseltFromColburnJ E i "cp_hot") in *.
  generalize dependent (node NusseltFromColburnJ E i). intros e H1 H2 H3 H4 H5 H6.
  assert (DT : forall x, 0 < x -> is_derive (fun t => Rpower t (1/3)) x (1/3 * Rpower x (-2/3))).
  { intros x Hx. eapply derive_eq; [exact (Rpower_derive (1/3) x Hx)|]. do 2 f_equal. field. }
  assert (DK := third_inv_derive).
  split_jac NusseltFromColburnJ; lazymatch goal with |- is_derive (fun _ => ?c) _ _ => apply derive_const | _ => idtac end; unfold Rdiv in *;
  match goal with
  | |- is_derive (fun t => ?a * ?b * ?c * ?d * / Rpower t _) _ _ =>
      eapply derive_eq; [apply derive_mull; apply DK; assumption|unfold Rdiv; ring]
  | |- is_derive (fun t => ?a * ?b * ?c * Rpower t _ * _) _ _ =>
      eapply derive_eq; [apply derive_mulr, derive_mull; apply DT; assumption|unfold Rdiv; ring]
  | |- is_derive (fun t => ?a * ?b * Rpower t _ * _ * _) _ _ =>
      eapply derive_eq; [apply derive_mulr, derive_mulr, derive_mull; apply DT; assumption|unfold Rdiv; ring]
  | |- is_derive (fun t => t * ?b * ?c * ?d * ?k) _ _ =>
      eapply derive_eq; [do 4 apply derive_mulr; apply derive_id|unfold Rdiv; ring]
  | |- is_derive (fun t => ?a * t * ?c * ?d * ?k) _ _ =>
      eapply derive_eq; [do 3 apply derive_mulr; apply derive_mull, derive_id|unfold Rdiv; ring]
  end.
Qed.

(** Fin efficiency *)
Lemma fin_m_sq h k t : 0 < h -> 0 < k -> 0 < t -> 0 < fin_m h k t /\ fin_m h k t * fin_m h k t = 2 * h / k / t.
Proof. intros. assert (0 < 2 * h / k / t) by posi. unfold fin_m. split; [now apply sqrt_lt_R0|]. apply sqrt_sqrt. lra. Qed.
Lemma sqrt_is a b : 0 <= b -> b * b = a -> sqrt a = b.
Proof. intros H <-. now apply sqrt_square. Qed.
Lemma m_h_val h k t : 0 < h -> 0 < k -> 0 < t -> m_h h k t = fin_m h k t / (2 * h).
Proof.
  intros Hh Hk Ht. destruct (fin_m_sq h k t Hh Hk Ht) as [P S]. set (m := fin_m h k t) in *. clearbody m.
  unfold m_h. replace (- (1) / 2) with (- / 2) by field. rewrite Rpower_Ropp, Rpower_sqrt by posi.
  rewrite (sqrt_is _ (m * k * t)).
  - apply (Rmult_eq_reg_r (m * k * t)); [|posi]. rewrite Rinv_l by posi.
    replace (m / (2 * h) * (m * k * t)) with (m * m * k * t / (2 * h)) by (field; lra). rewrite S. field. lra.
  - left. posi.
  - replace (m * k * t * (m * k * t)) with (m * m * (k * t) * (k * t)) by ring. rewrite S. field. lra.
Qed.
Lemma m_t_val h k t : 0 < h -> 0 < k -> 0 < t -> m_t h k t = - (fin_m h k t / (2 * t)).
Proof.
  intros Hh Hk Ht. destruct (fin_m_sq h k t Hh Hk Ht) as [P S]. set (m := fin_m h k t) in *. clearbody m.
  unfold m_t. f_equal. replace (1 / 2) with (/ 2) by field. rewrite Rpower_sqrt by posi. apply sqrt_is.
  - left. posi.
  - replace (m / (2 * t) * (m / (2 * t))) with (m * m / (4 * t * t)) by (field; lra). rewrite S. field. lra.
Qed.
Lemma m_k_val h k t : 0 < h -> 0 < k -> 0 < t -> m_k h k t = - (fin_m h k t / (2 * k)).
Proof.
  intros Hh Hk Ht. destruct (fin_m_sq h k t Hh Hk Ht) as [P S]. set (m := fin_m h k t) in *. clearbody m.
  unfold m_k. f_equal. replace (1 / 2) with (/ 2) by field. rewrite Rpower_sqrt by posi. apply sqrt_is.
  - left. posi.
  - replace (m / (2 * k) * (m / (2 * k))) with (m * m / (4 * k * k)) by (field; lra). rewrite S. field. lra.
Qed.
Lemma fin_m_derive (h k t : R -> R) x (h' k' t' : R) : 0 < h x -> 0 < k x -> 0 < t x ->
  is_derive h x h' -> is_derive k x k' -> is_derive t x t' ->
  is_derive (fun u => fin_m (h u) (k u) (t u)) x
    (m_h (h x) (k x) (t x) * h' + m_k (h x) (k x) (t x) * k' + m_t (h x) (k x) (t x) * t').
Proof.
  intros Hh Hk Ht Dh Dk Dt. rewrite m_h_val, m_k_val, m_t_val by auto.
  destruct (fin_m_sq _ _ _ Hh Hk Ht) as [P S]. assert (Q : 0 < 2 * h x / k x / t x) by posi.
  unfold fin_m. eapply derive_eq.
  - apply derive_sqrt; [|exact Q]. apply derive_div; [apply derive_div; [apply derive_mull, Dh|exact Dk|lra]|exact Dt|lra].
  - cbv beta. fold (fin_m (h x) (k x) (t x)). set (m := fin_m _ _ _) in *. clearbody m.
    assert (S2 : h x = m * m * k x * t x / 2) by (rewrite S; field; lra). rewrite S2.
    field. repeat split; lra.
Qed.
Lemma tanh_derive (x : R) : is_derive tanh x (/ (cosh x ^ 2)).
Proof.
  unfold tanh. assert (H : 0 < cosh x) by (unfold cosh; pose proof (exp_pos x); pose proof (exp_pos (- x)); lra).
  auto_derive; [lra|]. assert (I : cosh x * cosh x - sinh x * sinh x = 1).
  { unfold cosh, sinh. pose proof (exp_plus x (- x)) as E. rewrite Rplus_opp_r, exp_0 in E.
    replace ((exp x + exp (- x)) / 2 * ((exp x + exp (- x)) / 2) - (exp x - exp (- x)) / 2 * ((exp x - exp (- x)) / 2)) with (exp x * exp (- x)) by field. auto. }
  apply (Rmult_eq_reg_r (cosh x ^ 2)); [|apply pow_nonzero; lra]. rewrite Rinv_l by (apply pow_nonzero; lra).
  transitivity (cosh x * cosh x - sinh x * sinh x); [field; lra|exact I].
Qed.
Lemma eta_fin_derive (m l : R -> R) x (m' l' : R) : 0 < m x -> 0 < l x -> is_derive m x m' -> is_derive l x l' ->
  is_derive (fun u => eta_fin (m u) (l u)) x (eta_m (m x) (l x) * m' + eta_l (m x) (l x) * l').
Proof.
  intros Hm Hl Dm Dl. unfold eta_fin, eta_m, eta_l. eapply derive_eq.
  - apply derive_div; [apply derive_div; [apply derive_mull|exact Dm|lra]|exact Dl|lra].
    apply (derive_comp tanh (fun u => m u * l u / 2) x); [apply tanh_derive|].
    unfold Rdiv. apply derive_mulr. apply derive_mult; [exact Dm|exact Dl].
  - cbv beta. assert (H : 0 < cosh (m x * l x / 2)) by (unfold cosh; pose proof (exp_pos (m x * l x / 2)); pose proof (exp_pos (- (m x * l x / 2))); lra).
    replace (m x * l x * / 2) with (m x * l x / 2) by reflexivity. set (c := cosh _) in *. clearbody c. field. lra.
Qed.
Lemma eta_derive (h k t l a : R -> R) x (h' k' t' l' a' : R) : 0 < h x -> 0 < k x -> 0 < t x -> 0 < l x ->
  is_derive h x h' -> is_derive k x k' -> is_derive t x t' -> is_derive l x l' -> is_derive a x a' ->
  let m := fin_m (h x) (k x) (t x) in
  is_derive (fun u => eta_overall (h u) (k u) (t u) (l u) (a u)) x
    (a x * eta_m m (l x) * m_h (h x) (k x) (t x) * h' + a x * eta_m m (l x) * m_k (h x) (k x) (t x) * k' +
     a x * eta_m m (l x) * m_t (h x) (k x) (t x) * t' + a x * eta_l m (l x) * l' + (eta_fin m (l x) - 1) * a').
Proof.
  intros Hh Hk Ht Hl Dh Dk Dt Dl Da m. destruct (fin_m_sq _ _ _ Hh Hk Ht) as [P _]. unfold eta_overall.
  eapply derive_eq.
  - apply derive_minus; [apply derive_const|]. apply derive_mult; [exact Da|]. apply derive_minus; [apply derive_const|].
    eapply (eta_fin_derive (fun u => fin_m (h u) (k u) (t u)) l x _ l'); [exact P|exact Hl|exact (fin_m_derive h k t x h' k' t' Hh Hk Ht Dh Dk Dt)|exact Dl].
  - cbv beta. fold m. match goal with |- ?a = ?b => change (@eq R a b) end. ring.
Qed.
Lemma eta_derive_h h k t l a : 0 < h -> 0 < k -> 0 < t -> 0 < l ->
  is_derive (fun u => eta_overall u k t l a) h (a * eta_m (fin_m h k t) l * m_h h k t).
Proof.
  intros Hh Hk Ht Hl. eapply derive_eq; [exact (eta_derive (fun u => u) (fun _ => k) (fun _ => t) (fun _ => l) (fun _ => a) h 1 0 0 0 0
    Hh Hk Ht Hl (derive_id _) (derive_const _ _) (derive_const _ _) (derive_const _ _) (derive_const _ _))|].
  cbv beta zeta. rewrite !Rmult_0_r, !Rplus_0_r. apply Rmult_1_r.
Qed.
Lemma eta_derive_k h k t l a : 0 < h -> 0 < k -> 0 < t -> 0 < l ->
  is_derive (fun u => eta_overall h u t l a) k (a * eta_m (fin_m h k t) l * m_k h k t).
Proof.
  intros Hh Hk Ht Hl. eapply derive_eq; [exact (eta_derive (fun _ => h) (fun u => u) (fun _ => t) (fun _ => l) (fun _ => a) k 0 1 0 0 0
    Hh Hk Ht Hl (derive_const _ _) (derive_id _) (derive_const _ _) (derive_const _ _) (derive_const _ _))|].
  cbv beta zeta. rewrite !Rmult_0_r, !Rplus_0_r, Rplus_0_l. apply Rmult_1_r.
Qed.
Lemma eta_derive_t h k t l a : 0 < h -> 0 < k -> 0 < t -> 0 < l ->
  is_derive (fun u => eta_overall h k u l a) t (a * eta_m (fin_m h k t) l * m_t h k t).
Proof.
  intros Hh Hk Ht Hl. eapply derive_eq; [exact (eta_derive (fun _ => h) (fun _ => k) (fun u => u) (fun _ => l) (fun _ => a) t 0 0 1 0 0
    Hh Hk Ht Hl (derive_const _ _) (derive_const _ _) (derive_id _) (derive_const _ _) (derive_const _ _))|].
  cbv beta zeta. rewrite !Rmult_0_r, !Rplus_0_r, Rplus_0_l. apply Rmult_1_r.
Qed.
Lemma eta_derive_l h k t l a : 0 < h -> 0 < k -> 0 < t -> 0 < l ->
  is_derive (fun u => eta_overall h k t u a) l (a * eta_l (fin_m h k t) l).
Proof.
  intros Hh Hk Ht Hl. eapply derive_eq; [exact (eta_derive (fun _ => h) (fun _ => k) (fun _ => t) (fun u => u) (fun _ => a) l 0 0 0 1 0
    Hh Hk Ht Hl (derive_const _ _) (derive_const _ _) (derive_const _ _) (derive_id _) (derive_const _ _))|].
  cbv beta zeta. rewrite !Rmult_0_r, !Rplus_0_r, Rplus_0_l. apply Rmult_1_r.
Qed.
Lemma eta_derive_a h k t l a : 0 < h -> 0 < k -> 0 < t -> 0 < l ->
  is_derive (fun u => eta_overall h k t l u) a (eta_fin (fin_m h k t) l - 1).
Proof.
  intros Hh Hk Ht Hl. eapply derive_eq; [exact (eta_derive (fun _ => h) (fun _ => k) (fun _ => t) (fun _ => l) (fun u => u) a 0 0 0 0 1
    Hh Hk Ht Hl (derive_const _ _) (derive_const _ _) (derive_const _ _) (derive_const _ _) (derive_id _))|].
  cbv beta zeta. rewrite !Rmult_0_r, !Rplus_0_r, Rplus_0_l. apply Rmult_1_r.
Qed.
Lemma fin_jac n E : (0 < n)%nat -> 0 < E "material_k" 0%nat -> 0 < E "fin_thickness" 0%nat ->
  0 < E "channel_height_cold" 0%nat -> 0 < E "channel_height_hot" 0%nat ->
  (forall i, (i < n)%nat -> 0 < E "h_conv_cold" i) -> (forall i, (i < n)%nat -> 0 < E "h_conv_hot" i) -> jac_correct n FinEfficiency E.
Proof.
  to_node.
  change (E "material_k" 0%nat) with (node FinEfficiency E i "material_k") in *.
  change (E "fin_thickness" 0%nat) with (node FinEfficiency E i "fin_thickness") in *.
  change (E "channel_height_cold" 0%nat) with (node FinEfficiency E i "channel_height_cold") in *.
  change (E "channel_height_hot" 0%nat) with (node FinEfficiency E i "channel_height_hot") in *.
  change (E "h_conv_cold" i) with (node FinEfficiency E i "h_conv_cold") in *.
  change (E "h_conv_hot" i) with (node FinEfficiency E i "h_conv_hot") in *.
  generalize dependent (node FinEfficiency E i). intros e H1 H2 H3 H4 H5 H6.
  split_jac FinEfficiency; lazymatch goal with |- is_derive (fun _ => ?c) _ _ => apply derive_const | _ => idtac end;
  lazymatch goal with
  | |- is_derive (fun t => eta_overall t _ _ _ _) _ _ => apply eta_derive_h
  | |- is_derive (fun t => eta_overall _ t _ _ _) _ _ => apply eta_derive_k
  | |- is_derive (fun t => eta_overall _ _ t _ _) _ _ => apply eta_derive_t
  | |- is_derive (fun t => eta_overall _ _ _ t _) _ _ => apply eta_derive_l
  | |- is_derive (fun t => eta_overall _ _ _ _ t) _ _ => apply eta_derive_a
  end; assumption.
Qed.

Lemma ua_jac n E : (0 < n)%nat -> 0 < E "heat_transfer_area_cold" 0%nat -> 0 < E "heat_transfer_area_hot" 0%nat ->
  (forall i, (i < n)%nat -> 0 < E "h_conv_cold" i) -> (forall i, (i < n)%nat -> 0 < E "h_conv_hot" i) ->
  (forall i, (i < n)%nat -> 0 < E "eta_overall_cold" i) -> (forall i, (i < n)%nat -> 0 < E "eta_overall_hot" i) ->
  jac_correct n (UAOverall 0 0) E.
Proof.
  to_node. set (C := UAOverall 0 0).
  change (E "heat_transfer_area_cold" 0%nat) with (node C E i "heat_transfer_area_cold") in *.
  change (E "heat_transfer_area_hot" 0%nat) with (node C E i "heat_transfer_area_hot") in *.
  change (E "h_conv_cold" i) with (node C E i "h_conv_cold") in *.
  change (E "h_conv_hot" i) with (node C E i "h_conv_hot") in *.
  change (E "eta_overall_cold" i) with (node C E i "eta_overall_cold") in *.
  change (E "eta_overall_hot" i) with (node C E i "eta_overall_hot") in *.
  generalize dependent (node C E i). intros e H1 H2 H3 H4 H5 H6. unfold C.
  assert (S : 1 * / e "h_conv_cold" * / e "heat_transfer_area_cold" * / e "eta_overall_cold" + 0 * / e "heat_transfer_area_hot" * / e "eta_overall_hot"
     + 1 * / e "h_conv_hot" * / e "heat_transfer_area_hot" * / e "eta_overall_hot" + 0 * / e "heat_transfer_area_hot" * / e "eta_overall_hot" <> 0).
  { rewrite !Rmult_0_l, !Rplus_0_r. posi. }
  split_jac UAOverall; (auto_derive; [repeat split; auto; lra|]);
   match goal with |- ?a = ?b => change (@eq R a b) end; unfold Rdiv;
   match type of S with ?T <> 0 => set (X := T) in * end; clearbody X; field; repeat split; auto; lra.
Qed.

Lemma near_lt (f g : R -> R) x : continuous f x -> continuous g x -> f x < g x -> locally x (fun t => f t < g t).
Proof.
  intros Hf Hg H. assert (C : continuous (fun t => f t - g t) x) by (apply (continuous_minus f g x); auto).
  eapply filter_imp; [|apply (near_lt_c _ x 0 C); lra]. intros t Ht. simpl in Ht. lra.
Qed.
Ltac resolve L := eapply is_derive_ext_loc; [eapply filter_imp; [|exact L]; intros t Ht; cbn beta in Ht;
    match goal with |- context [Rlt_dec ?a ?b] => destruct (Rlt_dec a b) as [Hlt|Hlt]; [|] end;
    first [exfalso; cbn [upd String.eqb Ascii.eqb Bool.eqb] in *; lra|reflexivity]|].
Lemma ntu_jac n E : (0 < n)%nat -> (forall i, (i < n)%nat -> 0 < E "mdot_cold" i * E "cp_cold" 0%nat) ->
  (forall i, (i < n)%nat -> 0 < E "mdot_hot" i * E "cp_hot" 0%nat) ->
  (forall i, (i < n)%nat -> E "mdot_cold" i * E "cp_cold" 0%nat <> E "mdot_hot" i * E "cp_hot" 0%nat) ->
  jac_correct n NTUMethod E.
Proof.
  to_node. set (C := NTUMethod).
  change (E "mdot_cold" i) with (node C E i "mdot_cold") in *. change (E "mdot_hot" i) with (node C E i "mdot_hot") in *.
  change (E "cp_cold" 0%nat) with (node C E i "cp_cold") in *. change (E "cp_hot" 0%nat) with (node C E i "cp_hot") in *.
  generalize dependent (node C E i). intros e H1 H2 H3. unfold C.
  assert (N1 : e "mdot_cold" <> 0) by (intro Z; rewrite Z in H1; lra).
  assert (N2 : e "mdot_hot" <> 0) by (intro Z; rewrite Z in H2; lra).
  assert (N3 : e "cp_cold" <> 0) by (intro Z; rewrite Z in H1; lra).
  assert (N4 : e "cp_hot" <> 0) by (intro Z; rewrite Z in H2; lra).
  assert (K : forall x a b, continuous (fun t => upd e x t a * upd e x t b) (e x)).
  { intros x a b. apply (ex_derive_continuous (V := R_NormedModule)). exd. }
  destruct (Rlt_le_dec (e "mdot_cold" * e "cp_cold") (e "mdot_hot" * e "cp_hot")) as [Lt|Le].
  - assert (L : forall x, locally (e x) (fun t => upd e x t "mdot_cold" * upd e x t "cp_cold" < upd e x t "mdot_hot" * upd e x t "cp_hot")).
    { intro x. apply near_lt; [apply K|apply K|]. now rewrite !upd_same. }
    split_jac NTUMethod;
    match goal with |- is_derive _ (e ?x) _ => resolve (L x) end;
    repeat match goal with |- context [Rlt_dec ?a ?b] => destruct (Rlt_dec a b); [|lra] end;
    (auto_derive; [repeat split; auto|field; repeat split; auto]).
  - assert (Gt : e "mdot_hot" * e "cp_hot" < e "mdot_cold" * e "cp_cold") by lra.
    assert (L : forall x, locally (e x) (fun t => upd e x t "mdot_hot" * upd e x t "cp_hot" < upd e x t "mdot_cold" * upd e x t "cp_cold")).
    { intro x. apply near_lt; [apply K|apply K|]. now rewrite !upd_same. }
    split_jac NTUMethod;
    match goal with |- is_derive _ (e ?x) _ => resolve (L x) end;
    repeat match goal with |- context [Rlt_dec ?a ?b] => destruct (Rlt_dec a b); [lra|] end;
    (auto_derive; [repeat split; auto|field; repeat split; auto]).
Qed.

Lemma cross_derive_C N C : 0 < N -> C <> 0 -> is_derive (fun t => eff_cross N t) C
  (- exp (Rpower N (22/100) * (exp (- C * Rpower N (78/100)) - 1) / C) *
     (- (Rpower N (22/100) * (exp (- C * Rpower N (78/100)) - 1)) / C ^ 2 - N * exp (- C * Rpower N (78/100)) / C)).
Proof.
  intros HN HC. unfold eff_cross.
  assert (Q : N = Rpower N (22/100) * Rpower N (78/100)).
  { rewrite <- Rpower_plus. replace (22/100 + 78/100) with 1 by field. now rewrite Rpower_1. }
  set (a := Rpower N (22/100)) in *. set (b := Rpower N (78/100)) in *. clearbody a b. subst N.
  auto_derive; [exact HC|]. replace (a * (exp (- C * b) - 1) / C) with (a * / C * (exp (- C * b) - 1)) by (field; auto).
  match goal with |- ?a = ?b => change (@eq R a b) end. unfold Rdiv, Rminus. field. exact HC.
Qed.
Lemma cross_derive_N N C : 0 < N -> C <> 0 -> is_derive (fun t => eff_cross t C) N
  ((39 * C * Rpower N (78/100) * exp (Rpower N (22/100) * (exp (- C * Rpower N (78/100)) - 1) / C - C * Rpower N (78/100))
    - 11 * exp (Rpower N (22/100) * (exp (- C * Rpower N (78/100)) - 1) / C) * (exp (- C * Rpower N (78/100)) - 1))
   / (50 * C * Rpower N (78/100))).
Proof.
  intros HN HC. unfold eff_cross.
  pose proof (Rpower_derive (22/100) N HN) as D1. pose proof (Rpower_derive (78/100) N HN) as D2.
  assert (A1 : Rpower N (22/100 - 1) = / Rpower N (78/100)).
  { replace (22/100 - 1) with (- (78/100)) by field. apply Rpower_Ropp. }
  assert (A2 : Rpower N (78/100 - 1) = / Rpower N (22/100)).
  { replace (78/100 - 1) with (- (22/100)) by field. apply Rpower_Ropp. }
  rewrite A1 in D1. rewrite A2 in D2.
  pose proof (Rpower_pos N (22/100)) as P1. pose proof (Rpower_pos N (78/100)) as P2.
  assert (D3 : is_derive (fun t => exp (- C * Rpower t (78/100))) N (exp (- C * Rpower N (78/100)) * (- C * (78/100 * / Rpower N (22/100))))).
  { eapply derive_eq; [apply (derive_comp exp (fun t => - C * Rpower t (78/100)) N); [apply is_derive_exp|apply derive_mull, D2]|].
    match goal with |- ?a = ?b => change (@eq R a b) end. ring. }
  eapply derive_eq.
  - apply derive_minus; [apply derive_const|]. 
    apply (derive_comp exp (fun t => Rpower t (22/100) / C * (exp (- C * Rpower t (78/100)) - 1)) N); [apply is_derive_exp|].
    apply derive_mult; [unfold Rdiv; apply derive_mulr, D1|apply derive_minus; [exact D3|apply derive_const]].
  - cbv beta. match goal with |- ?a = ?b => change (@eq R a b) end.
    set (a := Rpower N (22/100)) in *. set (b := Rpower N (78/100)) in *. clearbody a b.
    replace (a * (exp (- C * b) - 1) / C - C * b) with (a / C * (exp (- C * b) - 1) + - C * b) by (field; auto).
    rewrite exp_plus. replace (a * (exp (- C * b) - 1) / C) with (a / C * (exp (- C * b) - 1)) by (field; auto).
    set (X := exp (a / C * (exp (- C * b) - 1))). change (exp (a * / C * (exp (- C * b) - 1))) with X. set (Y := exp (- C * b)). clearbody X Y. field. lra.
Qed.
Lemma cross_jac n E : (0 < n)%nat -> (forall i, (i < n)%nat -> 0 < E "NTU" i) -> (forall i, (i < n)%nat -> E "C_ratio" i <> 0) ->
  jac_correct n CrossFlowNTUEffectiveness E.
Proof.
  to_node. set (C := CrossFlowNTUEffectiveness).
  change (E "NTU" i) with (node C E i "NTU") in *. change (E "C_ratio" i) with (node C E i "C_ratio") in *.
  generalize dependent (node C E i). intros e H1 H2. unfold C.
  split_jac CrossFlowNTUEffectiveness; [now apply cross_derive_N|now apply cross_derive_C].
Qed.
Lemma heat_jac n E : (0 < n)%nat -> jac_correct n NTUEffectivenessActualHeatTransfer E.
Proof.
  to_node. generalize dependent (node NTUEffectivenessActualHeatTransfer E i). intros e.
  split_jac NTUEffectivenessActualHeatTransfer; auto_derive; auto; ring.
Qed.
Lemma outlet_jac n E : (0 < n)%nat -> E "cp_cold" 0%nat <> 0 -> E "cp_hot" 0%nat <> 0 ->
  (forall i, (i < n)%nat -> E "mdot_cold" i <> 0) -> (forall i, (i < n)%nat -> E "mdot_hot" i <> 0) -> jac_correct n OutletTemperatures E.
Proof.
  to_node. set (C := OutletTemperatures).
  change (E "cp_cold" 0%nat) with (node C E i "cp_cold") in *. change (E "cp_hot" 0%nat) with (node C E i "cp_hot") in *.
  change (E "mdot_cold" i) with (node C E i "mdot_cold") in *. change (E "mdot_hot" i) with (node C E i "mdot_hot") in *.
  generalize dependent (node C E i). intros e ? ? ? ?. unfold C.
  split_jac OutletTemperatures; auto_derive; auto; field; auto.
Qed.
Lemma drop_jac n E a b c d : (0 < n)%nat -> E "dh_cold" 0%nat <> 0 -> E "dh_hot" 0%nat <> 0 ->
  E "xs_area_cold" 0%nat <> 0 -> E "xs_area_hot" 0%nat <> 0 ->
  (forall i, (i < n)%nat -> E "rho_cold" i <> 0) -> (forall i, (i < n)%nat -> E "rho_hot" i <> 0) -> jac_correct n (PressureDrop a b c d) E.
Proof.
  to_node. set (C := PressureDrop a b c d).
  change (E "dh_cold" 0%nat) with (node C E i "dh_cold") in *. change (E "dh_hot" 0%nat) with (node C E i "dh_hot") in *.
  change (E "xs_area_cold" 0%nat) with (node C E i "xs_area_cold") in *. change (E "xs_area_hot" 0%nat) with (node C E i "xs_area_hot") in *.
  change (E "rho_cold" i) with (node C E i "rho_cold") in *. change (E "rho_hot" i) with (node C E i "rho_hot") in *.
  generalize dependent (node C E i). intros e ? ? ? ? ? ?. unfold C.
  split_jac PressureDrop; auto_derive; auto; field; auto.
Qed.
