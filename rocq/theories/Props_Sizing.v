(** C69: sizing by weight closure has exactly one answer. *)
From Coq Require Import Reals List Bool PeanoNat String Lra Lia.
From Coquelicot Require Import Coquelicot.
From Verif Require Import Base Calc Proofs_Cs Proofs_Sizing Model_Net Proofs_Net Model_Ducts Model_Systems Model_Weights Proofs_Weights Spec_Weights Props_Weights.
Import ListNotations.
Open Scope R_scope.
Open Scope string_scope.

(** ** Functions of the takeoff weight of the form L M + g(M), with g slow *)
Definition sized (p L : R) (f : R -> R) : Prop := 0 <= L /\ exists g, slow p g /\ forall M, f M = L * M + g M.
Definition psized (p L : R) (f : R -> R) : Prop :=
  0 <= L /\ exists g, slow p g /\ (forall M, 0 < M -> 0 < g M) /\ forall M, f M = L * M + g M.
Lemma sized_slow p f : slow p f -> sized p 0 f.
Proof. intro H. split; [lra|]. exists f. split; [exact H|]. intro M. ring. Qed.
Lemma sized_const p c : 0 <= p -> 0 <= c -> sized p 0 (fun _ => c).
Proof. intros. now apply sized_slow, slow_const. Qed.
Lemma sized_id p : 0 <= p -> sized p 1 (fun M => M).
Proof. intro. split; [lra|]. exists (fun _ => 0). split; [apply slow_const; lra|]. intro M. ring. Qed.
Lemma sized_plus p L K f g : sized p L f -> sized p K g -> sized p (L + K) (fun M => f M + g M).
Proof.
  intros [a [u [b c]]] [a' [u' [b' c']]]. split; [lra|]. exists (fun M => u M + u' M). split; [now apply slow_plus|]. intro M. rewrite c, c'. ring.
Qed.
Lemma sized_scal p L c f : 0 <= c -> sized p L f -> sized p (c * L) (fun M => c * f M).
Proof.
  intros Hc [a [u [b d]]]. split; [now apply Rmult_le_pos|]. exists (fun M => c * u M). split; [now apply slow_scal|]. intro M. rewrite d. ring.
Qed.
Lemma sized_scal_r p L c f : 0 <= c -> sized p L f -> sized p (L * c) (fun M => f M * c).
Proof.
  intros Hc [a [u [b d]]]. split; [now apply Rmult_le_pos|]. exists (fun M => u M * c). split; [now apply slow_scal_r|]. intro M. rewrite d. ring.
Qed.
Lemma sized_power p q L f : 0 <= q <= p -> p <= 1 -> sized p L f -> (forall M, 0 < M -> 0 < f M) -> sized p 0 (fun M => Rpower (f M) q).
Proof.
  intros [Hq Hqp] Hp [HL [g [[a [b [c d]]] E]]] P. apply sized_slow.
  assert (C : forall M, 0 < M -> continuous f M).
  { intros M HM. apply (continuous_ext (fun M => L * M + g M)); [intro; symmetry; apply E|].
    apply (continuous_plus (fun M => L * M) g); [|now apply a]. apply (continuous_mult (fun _ => L) (fun M => M)); [apply continuous_const|apply continuous_id]. }
  assert (Mo : forall M N, 0 < M <= N -> f M <= f N).
  { intros M N H. rewrite !E. specialize (c M N H). assert (L * M <= L * N) by (apply Rmult_le_compat_l; lra). lra. }
  split; [|split; [|split]]; intros.
  - apply (continuous_comp f (fun y => Rpower y q)); [now apply C|]. apply (ex_derive_continuous (V := R_NormedModule)).
    apply ex_Rpower; [apply ex_derive_id|now apply P].
  - left. apply Rpower_pos.
  - apply Rle_Rpower_l; [exact Hq|]. split; [apply P; lra|now apply Mo].
  - assert (K : f (k * M) <= k * f M).
    { rewrite !E. specialize (d k M H H0). specialize (b M H0). assert (Rpower k p <= k) by (rewrite <- (Rpower_1 k) at 2 by lra; apply Rle_Rpower; lra). nra. }
    apply Rle_trans with (Rpower (k * f M) q).
    + apply Rle_Rpower_l; [exact Hq|]. split; [apply P; nra|exact K].
    + rewrite <- Rpower_mult_distr by (try lra; now apply P). apply Rmult_le_compat_r; [left; apply Rpower_pos|]. now apply Rle_Rpower.
Qed.
Lemma psized_const p c : 0 <= p -> 0 < c -> psized p 0 (fun _ => c).
Proof. intros. split; [lra|]. exists (fun _ => c). split; [apply slow_const; lra|]. split; [auto|]. intro; ring. Qed.
Lemma psized_plus_l p L K f g : psized p L f -> sized p K g -> psized p (L + K) (fun M => f M + g M).
Proof.
  intros [a [u [b [e c]]]] [a' [u' [b' c']]]. split; [lra|]. exists (fun M => u M + u' M). split; [now apply slow_plus|]. split.
  - intros M HM. specialize (e M HM). destruct b' as [_ [b' _]]. specialize (b' M HM). lra.
  - intro M. rewrite c, c'. ring.
Qed.
Lemma psized_plus_r p L K f g : sized p L f -> psized p K g -> psized p (L + K) (fun M => f M + g M).
Proof.
  intros [a' [u' [b' c']]] [a [u [b [e c]]]]. split; [lra|]. exists (fun M => u' M + u M). split; [now apply slow_plus|]. split.
  - intros M HM. specialize (e M HM). destruct b' as [_ [b' _]]. specialize (b' M HM). lra.
  - intro M. rewrite c, c'. ring.
Qed.
Lemma psized_scal p L c f : 0 < c -> psized p L f -> psized p (c * L) (fun M => c * f M).
Proof.
  intros Hc [a [u [b [e d]]]]. split; [apply Rmult_le_pos; lra|]. exists (fun M => c * u M). split; [apply slow_scal; auto; lra|].
  split; [intros; apply Rmult_lt_0_compat; auto|]. intro M. rewrite d. ring.
Qed.
Lemma psized_eq p L K f : L = K -> psized p L f -> psized p K f.
Proof. now intros <-. Qed.

(** The inputs with the takeoff weight [M]. *)
Definition with_MTOW (V0 : env) (M : R) (x : string) : R := if String.eqb x MTOW then M else V0 x 0%nat.
Section Closure.
Variables (G : group) (V0 : env) (F : (string -> R) -> R) (p L : R).
Hypotheses (runs : forall V0, exists V, solution G V /\ forall x i, ~ In x (group_outs G) -> V x i = V0 x i)
  (value : forall V M, 0 < M -> solution G V -> (forall x, ~ In x (group_outs G) -> V x 0%nat = with_MTOW V0 M x) -> V "OEW" 0%nat = F (with_MTOW V0 M))
  (Hp : 0 <= p < 1) (HL : 0 < L < 1) (HF : psized p L (fun M => F (with_MTOW V0 M))).
Lemma closes_iff c M : ~ In MTOW (group_outs G) -> (closes G V0 c M <-> 0 < M /\ M = F (with_MTOW V0 M) + c).
Proof.
  intro NM. split.
  - intros [HM [V [S [E [R W]]]]]. split; [exact HM|]. rewrite <- (value V M HM S); [exact W|]. intros x Hx. unfold with_MTOW.
    destruct (String.eqb_spec x MTOW) as [-> | N]; [exact E|now apply R].
  - intros [HM E]. split; [exact HM|]. destruct (runs (fun x i => if String.eqb x MTOW then M else V0 x i)) as [V [S R]].
    exists V. split; [exact S|]. split; [now rewrite R by exact NM|]. split.
    + intros x i Hx N. rewrite R by exact Hx. apply String.eqb_neq in N. now rewrite N.
    + rewrite (value V M HM S); [exact E|]. intros x Hx. rewrite R by exact Hx. reflexivity.
Qed.
Hypothesis NM : ~ In MTOW (group_outs G).
Lemma closes_once c : 0 <= c -> exists! M, closes G V0 c M.
Proof.
  intro Hc. destruct HF as [_ [g [Sg [Pg E]]]]. destruct (size_exists p L c g Hp (conj (Rlt_le _ _ (proj1 HL)) (proj2 HL)) Hc Sg Pg) as [M [HM EM]].
  exists M. split; [apply closes_iff; auto; split; auto; rewrite E; exact EM|]. intros N HN. apply closes_iff in HN; auto. destruct HN as [HN EN].
  rewrite E in EN. eapply (size_unique p L c g); eauto; lra.
Qed.
Lemma closes_growth c c' M N : 0 <= c < c' -> closes G V0 c M -> closes G V0 c' N -> c' - c < N - M.
Proof.
  intros Hc H1 H2. apply closes_iff in H1; auto. apply closes_iff in H2; auto. destruct H1 as [HM EM], H2 as [HN EN].
  destruct HF as [_ [g [Sg [Pg E]]]]. rewrite E in EM, EN.
  assert (D : c' - c <= N - M) by (eapply (size_growth p L c c' g); eauto; lra).
  destruct Sg as [_ [_ [Mo _]]]. specialize (Mo M N ltac:(lra)). nra.
Qed.
End Closure.

(** ** Tactics *)
Lemma mem_false x l : mem x l = false -> ~ In x l.
Proof. intros H I. apply mem_In in I. congruence. Qed.
Ltac nn := match goal with
  | |- 0 <= Rpower _ _ => left; apply Rpower_pos
  | |- 0 <= sqrt _ => apply sqrt_pos
  | |- 0 <= _ * _ => apply Rmult_le_pos; nn
  | |- 0 <= _ + _ => apply Rplus_le_le_0_compat; nn
  | |- 0 <= _ / _ => apply Rmult_le_pos; nn
  | |- 0 <= / _ => left; apply Rinv_0_lt_compat; pp
  | |- _ => assumption
  | |- _ => left; assumption
  | |- _ => lra end
with pp := match goal with
  | |- 0 < Rpower _ _ => apply Rpower_pos
  | |- 0 < _ * _ => apply Rmult_lt_0_compat; pp
  | |- 0 < _ / _ => apply Rmult_lt_0_compat; pp
  | |- 0 < / _ => apply Rinv_0_lt_compat; pp
  | |- _ => assumption
  | |- 0 < _ + _ => first [apply Rplus_lt_le_0_compat; [pp|nn] | apply Rplus_le_lt_0_compat; [nn|pp]]
  | |- _ => lra end.
Ltac sz := lazymatch goal with
  | |- sized _ _ (fun _ => ?c) => apply sized_const; [lra|nn]
  | |- sized _ _ (fun M => M) => apply sized_id; lra
  | |- sized _ _ (fun M => @?f M + @?g M) => eapply (sized_plus _ _ _ f g); cbv beta; sz
  | |- sized _ _ (fun M => @?f M * @?g M) => lazymatch f with
     | fun _ => ?c => eapply (sized_scal _ _ c g); [nn|cbv beta; sz]
     | _ => lazymatch g with fun _ => ?c => eapply (sized_scal_r _ _ c f); [nn|cbv beta; sz] end end
  | |- sized _ _ (fun M => @?f M / @?g M) => lazymatch g with fun _ => ?c => eapply (sized_scal_r _ _ (/ c) f); [nn|cbv beta; sz] end
  | |- sized _ _ (fun M => Rpower (@?f M) ?q) => eapply (sized_power _ q _ f); [lra|lra|cbv beta; sz|intros ? ?; cbv beta; pp]
  end.
Ltac psz := lazymatch goal with
  | |- psized _ _ (fun _ => ?c) => apply psized_const; [lra|pp]
  | |- psized _ _ (fun M => @?f M + @?g M) => first [eapply (psized_plus_r _ _ _ f g); cbv beta; [|psz]; sz | eapply (psized_plus_l _ _ _ f g); cbv beta; [psz|]; sz]
  | |- psized _ _ (fun M => @?f M * @?g M) => lazymatch f with fun _ => ?c => eapply (psized_scal _ _ c g); [pp|cbv beta; psz] end end.
Ltac size_formula F := 
  cbv [F turboprop_empty_weight hybrid_empty_weight ga_empty_weight ga_structure_weight ga_fuel_system_weight ga_wing ga_fuselage ga_pressurization ga_gear ga_fuel_system
       ga_empennage ga_nacelle ga_equipment jet_empty_weight bwb_empty_weight transport_wing transport_systems gear_and_nacelles
       raymer_wing raymer_hstab raymer_vstab raymer_fuselage raymer_main_gear raymer_nose_gear flops_engine flops_reversers flops_controls flops_fuel_system
       roskam_starters roskam_nacelles roskam_furnishings roskam_flight_controls roskam_avionics roskam_electrical roskam_pressurization roskam_oxygen
       bradley_cabin bradley_aftbody with_MTOW String.eqb Ascii.eqb Bool.eqb fold_right].
(** Facts about one input, from the assumption that inputs are sane. *)
Tactic Notation "known" hyp(H) constr(x) := let h := fresh "P" in assert (h := H x ltac:(apply mem_In; reflexivity) ltac:(discriminate)); cbv [sane mem existsb String.eqb Ascii.eqb Bool.eqb orb] in h.

Ltac name_inputs V0 := repeat match goal with |- context [V0 ?x 0%nat] => let a := fresh "a" in set (a := V0 x 0%nat) in *; clearbody a end.

Lemma turboprop_sized V0 : sane_but_MTOW SingleTurboPropEmptyWeight V0 -> psized (666/1000) (3/1000) (fun M => turboprop_empty_weight (with_MTOW V0 M)).
Proof.
  intro H. known H wsweep. destruct P as [P1 P2]. assert (Hc := cos_gt_0 _ P1 P2). 
  known H Wfuel. known H wS. known H wAR. known H wtaper. known H wtc. known H hS. known H vS. known H harm. known H fL. known H fH. known H fW. known H fS.
  known H qcr. known H mgL. known H ngL. known H npax. known H MLW. known H "P_TO". known H "W_engine". known H "W_propeller".
  clear H P1 P2. size_formula turboprop_empty_weight. 
  eapply psized_eq; [|psz]. field; repeat split; lra.
Qed.
Lemma hybrid_sized V0 : sane_but_MTOW TwinSeriesHybridEmptyWeight V0 -> psized (666/1000) (3/1000) (fun M => hybrid_empty_weight (with_MTOW V0 M)).
Proof.
  intro H. known H wsweep. destruct P as [P1 P2]. assert (Hc := cos_gt_0 _ P1 P2). 
  known H Wfuel. known H wS. known H wAR. known H wtaper. known H wtc. known H hS. known H vS. known H harm. known H fL. known H fH. known H fW. known H fS.
  known H qcr. known H mgL. known H ngL. known H npax. known H MLW. known H "P_TO". known H "W_engine". known H "W_propeller". known H "W_motors". known H "W_generator".
  clear H P1 P2. size_formula hybrid_empty_weight. eapply psized_eq; [|psz]. field; repeat split; lra.
Qed.
(** Neither the passengers, the crew nor the powers of the takeoff weight keep a jet from closing: only the proportional part does. *)
Lemma jet_sized o V0 : sane_options o -> sane_but_MTOW (JetTransportEmptyWeight o) V0 -> psized (2/3) (share o V0) (fun M => jet_empty_weight o (with_MTOW V0 M)).
Proof.
  intros Ho H. destruct Ho as (o1 & o2 & o3 & o4 & o5 & o6 & o7 & o8 & o9 & o10 & o11 & o12 & o13 & o14 & o15 & o16 & o17 & o18 & o19).
  known H wsweep. destruct P as [P1 P2]. assert (Hc := cos_gt_0 _ P1 P2). known H hsweep. destruct P as [P3 P4]. assert (Hch := cos_gt_0 _ P3 P4).
  known H vsweep. destruct P as [P5 P6]. assert (Hcv := cos_gt_0 _ P5 P6).
  known H Wfuel. known H wS. known H wAR. known H wtaper. known H wtc. known H hS. known H vS. known H harm. known H varm. known H fL. known H fH. known H fS.
  known H mgL. known H ngL. known H npax. known H MLW. known H ndeck. known H ncabin. known H neng. known H rating. known H pcabin.
  clear H P1 P2 P3 P4 P5 P6. unfold share. size_formula jet_empty_weight. assert (PI0 := PI_RGT_0).
  name_inputs V0. eapply psized_eq; [|psz]. field; repeat split; lra.
Qed.
Lemma bwb_sized o V0 : sane_options o -> sane_but_MTOW (BWBEmptyWeight o) V0 -> psized (2/3) (share o V0) (fun M => bwb_empty_weight o (with_MTOW V0 M)).
Proof.
  intros Ho H. destruct Ho as (o1 & o2 & o3 & o4 & o5 & o6 & o7 & o8 & o9 & o10 & o11 & o12 & o13 & o14 & o15 & o16 & o17 & o18 & o19).
  known H wsweep. destruct P as [P1 P2]. assert (Hc := cos_gt_0 _ P1 P2). 
  known H Wfuel. known H wS. known H wAR. known H wtaper. known H wtc. 
  known H mgL. known H ngL. known H npax. known H MLW. known H ndeck. known H ncabin. known H neng. known H rating. known H pcabin. known H Scabin. known H Saft. known H taft. known H Vpr.
  clear H P1 P2. unfold share. size_formula bwb_empty_weight.
  name_inputs V0. eapply psized_eq; [|psz]. field; repeat split; lra.
Qed.

(** ** The four groups *)
Ltac same_value A := repeat rewrite A by (apply mem_false; reflexivity).
Lemma turboprop_value V0 V M : sane_but_MTOW SingleTurboPropEmptyWeight V0 -> 0 < M -> solution SingleTurboPropEmptyWeight V ->
  (forall x, ~ In x (group_outs SingleTurboPropEmptyWeight) -> V x 0%nat = with_MTOW V0 M x) -> V "OEW" 0%nat = turboprop_empty_weight (with_MTOW V0 M).
Proof.
  intros H HM S A. known H Wfuel. known H "P_TO". clear H. rewrite C67_turboprop; [|assumption|now same_value A..].
  cbv [turboprop_empty_weight ga_empty_weight ga_structure_weight ga_fuel_system_weight fold_right]. same_value A. reflexivity.
Qed.
Lemma hybrid_value V0 V M : sane_but_MTOW TwinSeriesHybridEmptyWeight V0 -> 0 < M -> solution TwinSeriesHybridEmptyWeight V ->
  (forall x, ~ In x (group_outs TwinSeriesHybridEmptyWeight) -> V x 0%nat = with_MTOW V0 M x) -> V "OEW" 0%nat = hybrid_empty_weight (with_MTOW V0 M).
Proof.
  intros H HM S A. known H Wfuel. known H "P_TO". clear H. rewrite C67_hybrid; [|assumption|now same_value A..].
  cbv [hybrid_empty_weight ga_empty_weight ga_structure_weight ga_fuel_system_weight fold_right]. same_value A. reflexivity.
Qed.
Lemma jet_value o V0 V M : sane_options o -> sane_but_MTOW (JetTransportEmptyWeight o) V0 -> 0 < M -> solution (JetTransportEmptyWeight o) V ->
  (forall x, ~ In x (group_outs (JetTransportEmptyWeight o)) -> V x 0%nat = with_MTOW V0 M x) -> V "OEW" 0%nat = jet_empty_weight o (with_MTOW V0 M).
Proof.
  intros Ho H HM S A. known H rating. known H wS. known H wAR. known H fL. known H fH. clear H. rewrite (C67_jet o); [|assumption|apply Ho|].
  - cbv [jet_empty_weight transport_wing transport_systems gear_and_nacelles]. same_value A. reflexivity.
  - intros x Hx. cbn [In] in Hx. repeat match goal with H : _ \/ _ |- _ => destruct H as [<- | H] end; try (destruct Hx); now same_value A.
Qed.
Lemma bwb_value o V0 V M : sane_options o -> sane_but_MTOW (BWBEmptyWeight o) V0 -> 0 < M -> solution (BWBEmptyWeight o) V ->
  (forall x, ~ In x (group_outs (BWBEmptyWeight o)) -> V x 0%nat = with_MTOW V0 M x) -> V "OEW" 0%nat = bwb_empty_weight o (with_MTOW V0 M).
Proof.
  intros Ho H HM S A. known H rating. clear H. rewrite (C67_bwb o); [|assumption|now same_value A].
  cbv [bwb_empty_weight transport_wing transport_systems gear_and_nacelles]. same_value A. reflexivity.
Qed.
Lemma share_pos o V0 : sane_options o -> 0 <= V0 ndeck 0%nat -> 0 <= V0 neng 0%nat -> 0 < share o V0.
Proof.
  intros (o1 & o2 & o3 & o4 & o5 & o6 & o7 & o8 & o9 & o10 & o11 & o12 & o13 & o14 & o15 & o16 & o17 & o18 & o19) H1 H2.
  unfold share. apply Rmult_lt_0_compat; [assumption|]. apply Rplus_lt_le_0_compat; [lra|]. apply Rmult_le_pos; [assumption|]. lra.
Qed.

Theorem C69_turboprop V0 : sane_but_MTOW SingleTurboPropEmptyWeight V0 ->
  (forall c, 0 <= c -> exists! M, closes SingleTurboPropEmptyWeight V0 c M) /\
  forall c c' M N, 0 <= c < c' -> closes SingleTurboPropEmptyWeight V0 c M -> closes SingleTurboPropEmptyWeight V0 c' N -> c' - c < N - M.
Proof.
  intro H. assert (NM : ~ In MTOW (group_outs SingleTurboPropEmptyWeight)) by (apply mem_false; reflexivity). split.
  - apply (closes_once _ V0 turboprop_empty_weight (666/1000) (3/1000) C67_turboprop_runs); try lra; auto using turboprop_sized. intros; now apply turboprop_value.
  - apply (closes_growth _ V0 turboprop_empty_weight (666/1000) (3/1000) C67_turboprop_runs); try lra; auto using turboprop_sized. intros; now apply turboprop_value.
Qed.
Print Assumptions C69_turboprop.
Theorem C69_hybrid V0 : sane_but_MTOW TwinSeriesHybridEmptyWeight V0 ->
  (forall c, 0 <= c -> exists! M, closes TwinSeriesHybridEmptyWeight V0 c M) /\
  forall c c' M N, 0 <= c < c' -> closes TwinSeriesHybridEmptyWeight V0 c M -> closes TwinSeriesHybridEmptyWeight V0 c' N -> c' - c < N - M.
Proof.
  intro H. assert (NM : ~ In MTOW (group_outs TwinSeriesHybridEmptyWeight)) by (apply mem_false; reflexivity). split.
  - apply (closes_once _ V0 hybrid_empty_weight (666/1000) (3/1000) C67_hybrid_runs); try lra; auto using hybrid_sized. intros; now apply hybrid_value.
  - apply (closes_growth _ V0 hybrid_empty_weight (666/1000) (3/1000) C67_hybrid_runs); try lra; auto using hybrid_sized. intros; now apply hybrid_value.
Qed.
Print Assumptions C69_hybrid.
Theorem C69_jet o V0 : sane_options o -> sane_but_MTOW (JetTransportEmptyWeight o) V0 -> sweep_ok V0 -> share o V0 < 1 ->
  (forall c, 0 <= c -> exists! M, closes (JetTransportEmptyWeight o) V0 c M) /\
  forall c c' M N, 0 <= c < c' -> closes (JetTransportEmptyWeight o) V0 c M -> closes (JetTransportEmptyWeight o) V0 c' N -> c' - c < N - M.
Proof.
  intros Ho H _ HS. assert (NM : ~ In MTOW (group_outs (JetTransportEmptyWeight o))) by (apply mem_false; reflexivity).
  assert (SP : 0 < share o V0) by (known H ndeck; known H neng; apply share_pos; auto; lra). split.
  - apply (closes_once _ V0 (jet_empty_weight o) (2/3) (share o V0) (C67_jet_runs o)); try lra; auto using jet_sized. intros; now apply jet_value.
  - apply (closes_growth _ V0 (jet_empty_weight o) (2/3) (share o V0) (C67_jet_runs o)); try lra; auto using jet_sized. intros; now apply jet_value.
Qed.
Print Assumptions C69_jet.
Theorem C69_bwb o V0 : sane_options o -> sane_but_MTOW (BWBEmptyWeight o) V0 -> share o V0 < 1 ->
  (forall c, 0 <= c -> exists! M, closes (BWBEmptyWeight o) V0 c M) /\
  forall c c' M N, 0 <= c < c' -> closes (BWBEmptyWeight o) V0 c M -> closes (BWBEmptyWeight o) V0 c' N -> c' - c < N - M.
Proof.
  intros Ho H HS. assert (NM : ~ In MTOW (group_outs (BWBEmptyWeight o))) by (apply mem_false; reflexivity).
  assert (SP : 0 < share o V0) by (known H ndeck; known H neng; apply share_pos; auto; lra). split.
  - apply (closes_once _ V0 (bwb_empty_weight o) (2/3) (share o V0) (C67_bwb_runs o)); try lra; auto using bwb_sized. intros; now apply bwb_value.
  - apply (closes_growth _ V0 (bwb_empty_weight o) (2/3) (share o V0) (C67_bwb_runs o)); try lra; auto using bwb_sized. intros; now apply bwb_value.
Qed.
Print Assumptions C69_bwb.
(** If the proportional part takes up the whole takeoff weight, no design closes. *)
Theorem C69_too_heavy o V0 c M : sane_options o -> 0 <= c -> 1 <= share o V0 ->
  (sane_but_MTOW (JetTransportEmptyWeight o) V0 -> ~ closes (JetTransportEmptyWeight o) V0 c M) /\
  (sane_but_MTOW (BWBEmptyWeight o) V0 -> ~ closes (BWBEmptyWeight o) V0 c M).
Proof.
  intros Ho Hc HS. split; intros H K.
  - eapply (closes_iff _ V0 (jet_empty_weight o) (C67_jet_runs o)) in K; [|intros; now apply jet_value|apply mem_false; reflexivity].
    destruct K as [HM E]. destruct (jet_sized o V0 Ho H) as [_ [g [_ [Pg Eg]]]]. rewrite Eg in E. specialize (Pg M HM). nra.
  - eapply (closes_iff _ V0 (bwb_empty_weight o) (C67_bwb_runs o)) in K; [|intros; now apply bwb_value|apply mem_false; reflexivity].
    destruct K as [HM E]. destruct (bwb_sized o V0 Ho H) as [_ [g [_ [Pg Eg]]]]. rewrite Eg in E. specialize (Pg M HM). nra.
Qed.
Print Assumptions C69_too_heavy.
(** The default options, with up to a thousand engines and pilots, satisfy the assumptions. *)
Example C69_defaults V0 : sane_options jet_defaults /\ sane_options bwb_defaults /\
  (0 <= V0 ndeck 0%nat <= 1000 -> 0 <= V0 neng 0%nat <= 1000 -> share jet_defaults V0 < 1 /\ share bwb_defaults V0 < 1).
Proof. unfold sane_options, share. cbn. repeat split; try lra. Qed.
Example C69_ones : let V0 : env := fun _ _ => 1 in
  sane_but_MTOW SingleTurboPropEmptyWeight V0 /\ sane_but_MTOW TwinSeriesHybridEmptyWeight V0 /\
  sane_but_MTOW (JetTransportEmptyWeight jet_defaults) V0 /\ sane_but_MTOW (BWBEmptyWeight bwb_defaults) V0 /\ sweep_ok V0.
Proof.
  assert (S : forall x, sane x 1).
  { intro x. unfold sane. pose proof PI2_1.  destruct (mem _ _); [lra|]. destruct (mem _ _); [lra|]. destruct (String.eqb _ _); lra. }
  repeat split; try (intros x _ _; apply S).
  unfold sweep_ok, raymer_kws; cbv beta. replace (1 * 1) with 1 by ring. rewrite sqrt_1. assert (0 < tan 1) by (apply tan_gt_0; pose proof PI2_1; lra). lra.
Qed.
