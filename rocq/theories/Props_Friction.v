(** C72 and C73: partials of the drag components, behaviour of friction and of the zero-lift drag. *)
From Coq Require Import Reals List Bool PeanoNat String Lia Lra.
From Coquelicot Require Import Coquelicot.
From Verif Require Import Base Py RSum Model_Algebra Model_Vectors Model_Net Model_Ducts Model_Aero Model_Drag Spec_Drag
  Proofs_Net Proofs_Cs Proofs_Thermal Proofs_Deriv Proofs_Drag Proofs_Friction Props_Drag.
Import ListNotations.
Open Scope R_scope.
Open Scope string_scope.
Open Scope list_scope.

(** ** C72: partials *)
Theorem C72_form_and_flap_partials E : E "ac|geom|fuselage|length" 0%nat <> 0 -> E "ac|geom|fuselage|height" 0%nat <> 0 ->
  (forall Q, jac_correct 1 (FuselageFormFactor_JetTransport Q) E) /\ (forall Q, jac_correct 1 (WingFormFactor_JetTransport Q) E) /\
  (forall cf Q frac, jac_correct 1 (FlapDrag_JetTransport cf Q frac) E).
Proof.
  intros H1 H2. split; [|split]; intros; apply jac_correct_lift; try lia; intros i _.
  - split_jac FuselageFormFactor_JetTransport; set (L := E "ac|geom|fuselage|length" 0%nat) in *; set (D := E "ac|geom|fuselage|height" 0%nat) in *; clearbody L D.
    + auto_derive; [repeat split; auto; unfold Rdiv; repeat apply Rmult_integral_contrapositive_currified; auto using Rinv_neq_0_compat; lra|field; auto].
    + auto_derive; [repeat split; auto; unfold Rdiv; repeat apply Rmult_integral_contrapositive_currified; auto using Rinv_neq_0_compat; lra|field; auto].
  - split_jac WingFormFactor_JetTransport. auto_derive; [auto|ring].
  - split_jac FlapDrag_JetTransport; auto_derive; auto; ring.
Qed.
Print Assumptions C72_form_and_flap_partials.

(** Reynolds number as a component, and the friction component with exact slopes. *)
Definition dmu (T : R) : R := 1458/1000000000 * sqrt T * (3 * (1004/10) + T) / (2 * (1004/10 + T) ^ 2).
Definition Re_at (e : nenv) : R := e "fltcond|Utrue" * e "L" / (viscosity (e "fltcond|T") / e "fltcond|rho").
Definition dRe (x : string) (e : nenv) : R :=
  let nu := viscosity (e "fltcond|T") / e "fltcond|rho" in
  if String.eqb x "fltcond|T" then - e "fltcond|Utrue" * e "L" / nu ^ 2 * (dmu (e "fltcond|T") / e "fltcond|rho")
  else if String.eqb x "fltcond|rho" then - e "fltcond|Utrue" * e "L" / nu ^ 2 * (- viscosity (e "fltcond|T") / e "fltcond|rho" ^ 2)
  else if String.eqb x "fltcond|Utrue" then e "L" / nu else e "fltcond|Utrue" / nu.
Definition skin_with (s : R -> R) (lam : R) : pcomp := {|
  pc_ins := pc_ins (SkinFrictionCoefficient_JetTransport lam); pc_outs := pc_outs (SkinFrictionCoefficient_JetTransport lam);
  pc_J := [("Cf", "fltcond|T", fun e => s (Re_at e) * dRe "fltcond|T" e); ("Cf", "fltcond|rho", fun e => s (Re_at e) * dRe "fltcond|rho" e);
           ("Cf", "fltcond|Utrue", fun e => s (Re_at e) * dRe "fltcond|Utrue" e); ("Cf", "L", fun e => s (Re_at e) * dRe "L" e)] |}.
Definition Re_comp : pcomp := {|
  pc_ins := pc_ins (SkinFrictionCoefficient_JetTransport 0); pc_outs := [("Re", (Vec, Re_at))];
  pc_J := [("Re", "fltcond|T", dRe "fltcond|T"); ("Re", "fltcond|rho", dRe "fltcond|rho"); ("Re", "fltcond|Utrue", dRe "fltcond|Utrue"); ("Re", "L", dRe "L")] |}.
Lemma visc_pos T : 0 < T -> 0 < viscosity T.
Proof. intro H. rewrite visc_eq by assumption. now apply sutherland_pos. Qed.
Lemma visc_der T : 0 < T -> is_derive viscosity T (dmu T).
Proof.
  intro H. unfold viscosity. eapply D_eq; [der; lra|]. unfold dmu. pose proof (sqrt_lt_R0 _ H) as Q. pose proof (sqrt_sqrt _ (Rlt_le _ _ H)) as QQ.
  replace (3 / 2 - 1) with (/ 2) by field. rewrite Rpower_32, Rpower_sqrt by assumption. set (q := sqrt T) in *. clearbody q. subst T. field. nra.
Qed.
Lemma Re_der e x : In x ["L"; "fltcond|Utrue"; "fltcond|rho"; "fltcond|T"] -> 0 < e "fltcond|T" -> e "fltcond|rho" <> 0 ->
  is_derive (fun t => Re_at (upd e x t)) (e x) (dRe x e).
Proof.
  intros Hx HT HR. pose proof (visc_pos _ HT) as HV. unfold Re_at, dRe. repeat destruct Hx as [<-|Hx]; try contradiction; unfold upd; names.
  - auto_derive; [auto|]. field. lra.
  - auto_derive; [auto|]. field. lra.
  - auto_derive; [repeat split; auto; unfold Rdiv; apply Rmult_integral_contrapositive_currified; auto using Rinv_neq_0_compat; lra|]. field. lra.
  - eapply D_eq.
    + apply (D_div (fun _ => e "fltcond|Utrue" * e "L") (fun t => viscosity t / e "fltcond|rho")); [apply D_const|apply D_cdiv, visc_der, HT|].
      unfold Rdiv. apply Rmult_integral_contrapositive_currified; auto using Rinv_neq_0_compat; lra.
    + field. lra.
Qed.
Lemma four_inputs (Pr : string -> Prop) : (forall x, In x ["L"; "fltcond|Utrue"; "fltcond|rho"; "fltcond|T"] -> Pr x) -> List.Forall (fun xk => Pr (fst xk)) (pc_ins (SkinFrictionCoefficient_JetTransport 0)).
Proof. intro H. cbn [SkinFrictionCoefficient_JetTransport pc_ins]. repeat (apply List.Forall_cons; [apply H; cbn; tauto|]). apply List.Forall_nil. Qed.
Lemma node_skin E i : node (SkinFrictionCoefficient_JetTransport 0) E i "fltcond|T" = E "fltcond|T" i /\ node (SkinFrictionCoefficient_JetTransport 0) E i "fltcond|rho" = E "fltcond|rho" i /\
  node (SkinFrictionCoefficient_JetTransport 0) E i "fltcond|Utrue" = E "fltcond|Utrue" i /\ node (SkinFrictionCoefficient_JetTransport 0) E i "L" = E "L" 0%nat.
Proof. repeat split. Qed.
Definition breathable (n : nat) (E : env) : Prop := forall i, (i < n)%nat -> 0 < E "fltcond|T" i /\ 0 < E "fltcond|rho" i /\ 0 < E "fltcond|Utrue" i /\ 0 < E "L" 0%nat.
Lemma Re_comp_ok n E : (0 < n)%nat -> breathable n E -> jac_correct n Re_comp E.
Proof.
  intros Hn B. apply jac_correct_lift; [assumption|]. intros i Hi. destruct (B i Hi) as (HT & HR & _ & _). unfold node_jac_ok. cbn [Re_comp pc_outs pc_ins].
  apply List.Forall_cons; [|apply List.Forall_nil]. apply (four_inputs (fun x => is_derive (fun t => nval Re_comp "Re" (upd (node Re_comp E i) x t)) (node Re_comp E i x) (njac Re_comp "Re" x (node Re_comp E i)))).
  intros x Hx. assert (J : njac Re_comp "Re" x (node Re_comp E i) = dRe x (node Re_comp E i)) by (repeat destruct Hx as [<-|Hx]; try contradiction; reflexivity).
  rewrite J. apply Re_der; [assumption|exact HT|apply Rgt_not_eq; exact HR].
Qed.
Lemma Re_at_node E i : 0 < E "fltcond|T" i -> E "fltcond|rho" i <> 0 -> Re_at (node Re_comp E i) = component_Re E i.
Proof. intros HT HR. exact (Re_eq _ _ _ _ HT HR). Qed.
Definition slopes_ok (lam Re : R) : Prop := 0 < Re /\ ln (6/100 * Re) <> 0 /\ (0 < lam -> ln (6/100 * (lam * Re)) <> 0).
Lemma exact_ok n lam E : (0 < n)%nat -> breathable n E -> (forall i, (i < n)%nat -> slopes_ok lam (component_Re E i)) -> jac_correct n (skin_with (friction_slope lam) lam) E.
Proof.
  intros Hn B S. apply jac_correct_lift; [assumption|]. intros i Hi. destruct (B i Hi) as (HT & HR & _ & _). destruct (S i Hi) as (S1 & S2 & S3).
  rewrite <- (Re_at_node E i HT ltac:(lra)) in S1, S2, S3. unfold node_jac_ok. cbn [skin_with pc_outs pc_ins].
  set (C := skin_with (friction_slope lam) lam). change (node C E i) with (node Re_comp E i) in *. set (e := node Re_comp E i) in *.
  apply List.Forall_cons; [|apply List.Forall_nil]. apply (four_inputs (fun x => is_derive (fun t => nval C "Cf" (upd e x t)) (e x) (njac C "Cf" x e))).
  intros x Hx. assert (J : njac C "Cf" x e = friction_slope lam (Re_at e) * dRe x e) by (repeat destruct Hx as [<-|Hx]; try contradiction; reflexivity).
  rewrite J, Rmult_comm. pose proof (Re_der e x Hx HT ltac:(apply Rgt_not_eq; exact HR)) as D.
  apply (is_derive_ext (fun t => friction lam (Re_at (upd e x t)))).
  { intro t. rewrite <- Cf_eq. reflexivity. }
  apply (D_comp (friction lam) (fun t => Re_at (upd e x t))); [|exact D].
  assert (U : Re_at (upd e x (e x)) = Re_at e).
  { unfold Re_at, upd. clear. repeat match goal with |- context [String.eqb x ?y] => destruct (String.eqb_spec x y) as [->|] end; reflexivity. }
  rewrite U. now apply friction_der.
Qed.
(** The derivative of the friction coefficient with respect to the Reynolds number, as coded. *)
Definition coded_slope (lam Re : R) : R :=
  if Rlt_dec 0 lam then spalding' Re + lam * (blasius' (Re * lam) - spalding' (Re * lam)) * lam else spalding' Re.
Lemma coded_jac lam E r x c : In x ["L"; "fltcond|Utrue"; "fltcond|rho"; "fltcond|T"] ->
  vjac (SkinFrictionCoefficient_JetTransport lam) E "Cf" r x c = vjac (skin_with (coded_slope lam) lam) E "Cf" r x c.
Proof.
  intro Hx. unfold vjac. change (node (skin_with (coded_slope lam) lam) E r) with (node Re_comp E r). change (node (SkinFrictionCoefficient_JetTransport lam) E r) with (node Re_comp E r).
  set (e := node Re_comp E r).
  assert (J : njac (SkinFrictionCoefficient_JetTransport lam) "Cf" x e = njac (skin_with (coded_slope lam) lam) "Cf" x e).
  { unfold njac, skin_with, SkinFrictionCoefficient_JetTransport; cbn [pc_J]. repeat destruct Hx as [<-|Hx]; try contradiction; names; unfold coded_slope; destruct Rlt_dec.
    all: match goal with |- ?l = ?r => change (@eq R l r) end; unfold dRe, Re_at, dmu; cbn [String.eqb Ascii.eqb Bool.eqb]; try reflexivity; ring. }
  rewrite J. reflexivity.
Qed.
Lemma coded_close lam Re : 0 < Re -> 1 <= ln (6/100 * Re) -> (0 < lam -> 1 <= ln (6/100 * (lam * Re))) ->
  Rabs (coded_slope lam Re - friction_slope lam Re) <= 3 / 10 ^ 6 * (Rabs (turbulent_slope Re) + if Rlt_dec 0 lam then lam ^ 2 * Rabs (turbulent_slope (lam * Re)) else 0).
Proof.
  intros H L K. unfold coded_slope, friction_slope. pose proof (spalding_close Re H L) as C1. destruct (Rlt_dec 0 lam) as [P|P]; [|rewrite Rplus_0_r; exact C1].
  rewrite (Rmult_comm Re lam). assert (H' : 0 < lam * Re) by (now apply Rmult_lt_0_compat). pose proof (spalding_close _ H' (K P)) as C2. rewrite (blasius_slope _ H').
  replace (spalding' Re + lam * (laminar_slope (lam * Re) - spalding' (lam * Re)) * lam - (turbulent_slope Re + lam ^ 2 * (laminar_slope (lam * Re) - turbulent_slope (lam * Re))))
    with ((spalding' Re - turbulent_slope Re) - lam ^ 2 * (spalding' (lam * Re) - turbulent_slope (lam * Re))) by ring.
  apply Rle_trans with (1 := Rabs_triang _ _). rewrite Rabs_Ropp, Rabs_mult, (Rabs_right (lam ^ 2)) by (apply Rle_ge, pow2_ge_0). rewrite Rmult_plus_distr_l. apply Rplus_le_compat; [exact C1|].
  replace (3 / 10 ^ 6 * (lam ^ 2 * Rabs (turbulent_slope (lam * Re)))) with (lam ^ 2 * (3 / 10 ^ 6 * Rabs (turbulent_slope (lam * Re)))) by ring.
  apply Rmult_le_compat_l; [apply pow2_ge_0|exact C2].
Qed.

(** Full property: the partials of the friction coefficient are its derivatives.  Proved:
    they are to within 3 parts per million of the turbulent terms, once the Reynolds number
    (and that of a laminar front part) is at least [e / 0.06] (about 45). *)
Theorem C72_skin_friction_partial n lam E x kx r c : (0 < n)%nat -> breathable n E ->
  (forall i, (i < n)%nat -> exp 1 <= 6/100 * component_Re E i /\ (0 < lam -> exp 1 <= 6/100 * (lam * component_Re E i))) ->
  assoc x (pc_ins (SkinFrictionCoefficient_JetTransport lam)) = Some kx -> (r < n)%nat -> (c < size n kx)%nat ->
  exists D dRe, is_derive (fun t => vcompute (SkinFrictionCoefficient_JetTransport lam) (updE E x c t) "Cf" r) (E x c) D /\
    is_derive (fun t => component_Re (updE E x c t) r) (E x c) dRe /\
    Rabs (vjac (SkinFrictionCoefficient_JetTransport lam) E "Cf" r x c - D) <=
    3 / 10 ^ 6 * (Rabs (turbulent_slope (component_Re E r)) + if Rlt_dec 0 lam then lam ^ 2 * Rabs (turbulent_slope (lam * component_Re E r)) else 0) * Rabs dRe.
Proof.
  intros Hn B Rg Hx Hr Hc.
  assert (Hin : In x ["L"; "fltcond|Utrue"; "fltcond|rho"; "fltcond|T"]).
  { apply assoc_In in Hx. change (pc_ins (SkinFrictionCoefficient_JetTransport lam)) with [("L", Sca); ("fltcond|Utrue", Vec); ("fltcond|rho", Vec); ("fltcond|T", Vec)] in Hx.
    apply (in_map fst) in Hx. exact Hx. }
  assert (L : forall i, (i < n)%nat -> 0 < component_Re E i /\ 1 <= ln (6/100 * component_Re E i) /\ (0 < lam -> 1 <= ln (6/100 * (lam * component_Re E i)))).
  { intros i Hi. destruct (Rg i Hi) as [R1 R2]. pose proof (exp_pos 1). assert (0 < component_Re E i) by lra. split; [assumption|]. split; [now apply ln_ge_1; [lra|]|].
    intro P. apply ln_ge_1; [|now apply R2]. specialize (R2 P). lra. }
  exists (vjac (skin_with (friction_slope lam) lam) E "Cf" r x c), (vjac Re_comp E "Re" r x c). split; [|split].
  - refine (exact_ok n lam E Hn B _ "Cf" _ _ x kx r c eq_refl Hx Hr Hc). intros i Hi. destruct (L i Hi) as (L1 & L2 & L3). split; [assumption|]. split; [lra|]. intro P. specialize (L3 P). lra.
  - assert (D := Re_comp_ok n E Hn B "Re" _ _ x kx r c eq_refl Hx Hr Hc).
    refine (is_derive_ext_loc (fun t => vcompute Re_comp (updE E x c t) "Re" r) _ _ _ _ D).
    destruct (B r Hr) as (HT & HR & _ & _).
    assert (O : locally (E x c) (fun t => 0 < updE E x c t "fltcond|T" r /\ 0 < updE E x c t "fltcond|rho" r)).
    { apply filter_and.
      - unfold updE. destruct (String.eqb_spec x "fltcond|T") as [->|]; [|apply filter_forall; intros _; exact HT].
        destruct (Nat.eqb_spec c r) as [->|]; [|apply filter_forall; intros _; exact HT]. apply (open_gt 0). exact HT.
      - unfold updE. destruct (String.eqb_spec x "fltcond|rho") as [->|]; [|apply filter_forall; intros _; exact HR].
        destruct (Nat.eqb_spec c r) as [->|]; [|apply filter_forall; intros _; exact HR]. apply (open_gt 0). exact HR. }
    revert O. apply filter_imp. intros t [O1 O2]. change (Re_at (node Re_comp (updE E x c t) r) = component_Re (updE E x c t) r). apply Re_at_node; [exact O1|now apply Rgt_not_eq].
  - rewrite (coded_jac lam E r x c Hin). destruct (B r Hr) as (HT & HR & _ & _). destruct (L r Hr) as (L1 & L2 & L3).
    pose proof (coded_close lam _ L1 L2 L3) as CC. rewrite <- (Re_at_node E r HT ltac:(lra)) in CC |- *.
    assert (K : vjac (skin_with (coded_slope lam) lam) E "Cf" r x c - vjac (skin_with (friction_slope lam) lam) E "Cf" r x c
      = (coded_slope lam (Re_at (node Re_comp E r)) - friction_slope lam (Re_at (node Re_comp E r))) * vjac Re_comp E "Re" r x c).
    { set (F := coded_slope lam). set (G := friction_slope lam). repeat destruct Hin as [<-|Hin]; try contradiction;
        [change (F (Re_at (node Re_comp E r)) * dRe "L" (node Re_comp E r) - G (Re_at (node Re_comp E r)) * dRe "L" (node Re_comp E r) = (F (Re_at (node Re_comp E r)) - G (Re_at (node Re_comp E r))) * dRe "L" (node Re_comp E r)); ring|..];
      match goal with |- context [vjac _ _ _ _ ?x _] =>
        change ((if Nat.eqb r c then F (Re_at (node Re_comp E r)) * dRe x (node Re_comp E r) else 0) - (if Nat.eqb r c then G (Re_at (node Re_comp E r)) * dRe x (node Re_comp E r) else 0)
          = (F (Re_at (node Re_comp E r)) - G (Re_at (node Re_comp E r))) * (if Nat.eqb r c then dRe x (node Re_comp E r) else 0)) end; destruct Nat.eqb; ring. }
    rewrite K, Rabs_mult. apply Rmult_le_compat_r; [apply Rabs_pos|exact CC].
Qed.
Print Assumptions C72_skin_friction_partial.

(** The full property is false: the code writes the derivative with [ln Re - 2.81341] where
    the value has [ln (0.06 Re)], and ln 0.06 is not -2.81341.  So no input in the range of
    the law has exact partials. *)
Theorem C72_skin_friction_refuted n E : (0 < n)%nat -> breathable n E -> 1 < 6/100 * component_Re E 0 -> ~ jac_correct n (SkinFrictionCoefficient_JetTransport 0) E.
Proof.
  intros Hn B L J. destruct (B 0%nat Hn) as (HT & HR & HU & HL).
  assert (HRe : 0 < component_Re E 0) by lra. assert (Ln : 0 < ln (6/100 * component_Re E 0)) by (rewrite <- ln_1; apply ln_increasing; lra).
  assert (D1 := J "Cf" _ _ "L" Sca 0%nat 0%nat eq_refl eq_refl Hn Nat.lt_0_1).
  set (E1 := fun x (_ : nat) => E x 0%nat).
  assert (B1 : breathable 1 E1). { intros i _. exact (B 0%nat Hn). }
  assert (S1 : forall i, (i < 1)%nat -> slopes_ok 0 (component_Re E1 i)). { intros i _. change (component_Re E1 i) with (component_Re E 0). repeat split; lra. }
  assert (D2 := exact_ok 1 0 E1 Nat.lt_0_1 B1 S1 "Cf" _ _ "L" Sca 0%nat 0%nat eq_refl eq_refl Nat.lt_0_1 Nat.lt_0_1).
  assert (U := is_derive_unique _ _ _ D1). assert (W := is_derive_unique _ _ _ D2).
  assert (X : vjac (skin_with (friction_slope 0) 0) E1 "Cf" 0 "L" 0 = vjac (SkinFrictionCoefficient_JetTransport 0) E "Cf" 0 "L" 0) by (etransitivity; [symmetry; exact W|exact U]).
  rewrite coded_jac in X by (cbn; auto).
  change (friction_slope 0 (Re_at (node Re_comp E1 0)) * dRe "L" (node Re_comp E1 0) = coded_slope 0 (Re_at (node Re_comp E 0)) * dRe "L" (node Re_comp E 0)) in X.
  change (node Re_comp E1 0) with (node Re_comp E 0) in X.
  assert (N : dRe "L" (node Re_comp E 0) <> 0).
  { change (E "fltcond|Utrue" 0%nat / (viscosity (E "fltcond|T" 0%nat) / E "fltcond|rho" 0%nat) <> 0). pose proof (visc_pos _ HT).
    apply Rgt_not_eq. apply Rdiv_lt_0_compat; [assumption|now apply Rdiv_lt_0_compat]. }
  apply Rmult_eq_reg_r in X; [|exact N]. rewrite (Re_at_node E 0 HT ltac:(lra)) in X. unfold friction_slope, coded_slope in X. destruct (Rlt_dec 0 0); [lra|].
  exact (spalding_differs _ HRe Ln (eq_sym X)).
Qed.
Print Assumptions C72_skin_friction_refuted.

(** A one metre plate at 100 m/s in air of 225 K and 1 kg/m^3: Reynolds number 6.77 million. *)
Definition plate : env := fun x _ => if String.eqb x "L" then 1 else if String.eqb x "fltcond|T" then 225 else if String.eqb x "fltcond|rho" then 1 else 100.
Lemma sqrt_225 : sqrt 225 = 15.
Proof. replace 225 with (15 ^ 2) by ring. apply sqrt_pow2. lra. Qed.
Lemma suth_225 : sutherland 225 = 1458 / 10 ^ 9 * (225 * 15) / (225 + 1004/10).
Proof. unfold sutherland. now rewrite sqrt_225. Qed.
Lemma plate_Re i : 6000000 < component_Re plate i < 7000000.
Proof. unfold component_Re, reynolds, plate. names. rewrite suth_225. lra. Qed.
Example plate_ok : breathable 3 plate /\ (forall i, (i < 3)%nat -> exp 1 <= 6/100 * component_Re plate i /\ (0 < 1/10 -> exp 1 <= 6/100 * (1/10 * component_Re plate i))) /\
  1 < 6/100 * component_Re plate 0.
Proof.
  pose proof exp_le_3. split; [intros i _; unfold plate; names; lra|]. split; [|pose proof (plate_Re 0); lra].
  intros i _. pose proof (plate_Re i). lra.
Qed.
Example plate_partials_refuted : ~ jac_correct 3 (SkinFrictionCoefficient_JetTransport 0) plate.
Proof. apply C72_skin_friction_refuted; [lia|apply plate_ok|apply plate_ok]. Qed.
