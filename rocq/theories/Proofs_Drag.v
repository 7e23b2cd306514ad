(** Reading the equations of the drag build-ups. *)
From Coq Require Import Reals List Bool PeanoNat String Lia Lra.
From Coquelicot Require Import Coquelicot.
From Verif Require Import Base Py RSum Model_Algebra Model_Vectors Model_Net Model_Thermal Model_Ducts Model_HeatPipe Model_Systems Model_Aero Model_Drag Spec_Drag
  Proofs_Net Proofs_Cs Proofs_Ducts Proofs_Systems Proofs_Exec.
Import ListNotations.
Open Scope R_scope.
Open Scope string_scope.
Open Scope list_scope.

Lemma fits1 n : fits 1 n = true.
Proof. unfold fits. reflexivity. Qed.
Lemma bidx1 i : bidx 1 1 i = 0%nat.
Proof. unfold bidx. cbn [Nat.eqb]. apply Nat.mod_1_r. Qed.
Ltac mul_value := unfold mul_compute, mul_resolve;
  cbn [ms_ins ms_div ms_units ms_sf ms_vec ms_len List.length repeat read_sizes Nat.eqb negb res_bind fst snd forallb].
Ltac mul_value2 := rewrite ?fits_refl, ?fits1; cbn [andb negb combine res_bind fold_left fst snd]; rewrite ?bidx1.
Lemma surface_drag_value nn out a f c w k E i : (i < nn)%nat ->
  mul_compute (surface_drag nn out a f c w k) E i = Ok (k * (E a 0%nat * E f 0%nat * E c i / E w 0%nat)).
Proof.
  intro H. unfold surface_drag. mul_value. replace (list_max [1; 1; nn; 1]%nat) with nn by (cbn [list_max fold_right]; lia).
  mul_value2. rewrite bidx_row by auto. f_equal. unfold Rdiv. ring.
Qed.
Lemma nacelle_drag_value nn w E i : (i < nn)%nat ->
  mul_compute (nacelle_drag nn w) E i = Ok (E "ac|geom|nacelle|S_wet" 0%nat * E "FF_nacelle" 0%nat * E "Cf_nacelle" i * E "ac|propulsion|num_engines" 0%nat / E w 0%nat).
Proof.
  intro H. unfold nacelle_drag. mul_value. replace (list_max [1; 1; nn; 1; 1]%nat) with nn by (cbn [list_max fold_right]; lia).
  mul_value2. rewrite bidx_row by auto. f_equal. unfold Rdiv. ring.
Qed.
Lemma wing_drag_value nn E i : (i < nn)%nat -> mul_compute (wing_drag nn) E i = Ok (2 * (E "FF_wing" 0%nat * E "Cf_wing" i)).
Proof.
  intro H. unfold wing_drag. mul_value. replace (list_max [1; nn]%nat) with nn by (cbn [list_max fold_right]; lia).
  mul_value2. rewrite bidx_row by auto. f_equal. ring.
Qed.
Definition total nn ins k : add_sys :=
  {| as_out := "CD0"; as_ins := ins; as_vec := VList (repeat nn (List.length ins - 2) ++ [1; 1]%nat); as_len := 1; as_sf := Some (repeat k (List.length ins)); as_units := None |}.
Lemma total3 nn a b c k E i : (i < nn)%nat -> add_compute (total nn [a; b; c] k) E i = Ok (k * (E a i + E b 0%nat + E c 0%nat)).
Proof.
  intro H. unfold total, add_compute, add_resolve. cbn [as_ins as_sf as_vec as_len List.length repeat read_sizes Nat.sub app Nat.eqb negb res_bind fst snd forallb].
  replace (list_max [nn; 1; 1]%nat) with nn by (cbn [list_max fold_right]; lia). mul_value2. rewrite bidx_row by auto. f_equal. ring.
Qed.
Lemma total6 nn a b c d e f k E i : (i < nn)%nat -> add_compute (total nn [a; b; c; d; e; f] k) E i = Ok (k * (E a i + E b i + E c i + E d i + E e 0%nat + E f 0%nat)).
Proof.
  intro H. unfold total, add_compute, add_resolve. cbn [as_ins as_sf as_vec as_len List.length repeat read_sizes Nat.sub app Nat.eqb negb res_bind fst snd forallb].
  replace (list_max [nn; nn; nn; nn; 1; 1]%nat) with nn by (cbn [list_max fold_right]; lia). mul_value2. rewrite bidx_row by auto. f_equal. ring.
Qed.
Lemma total7 nn a b c d e f g k E i : (i < nn)%nat -> add_compute (total nn [a; b; c; d; e; f; g] k) E i = Ok (k * (E a i + E b i + E c i + E d i + E e i + E f 0%nat + E g 0%nat)).
Proof.
  intro H. unfold total, add_compute, add_resolve. cbn [as_ins as_sf as_vec as_len List.length repeat read_sizes Nat.sub app Nat.eqb negb res_bind fst snd forallb].
  replace (list_max [nn; nn; nn; nn; nn; 1; 1]%nat) with nn by (cbn [list_max fold_right]; lia). mul_value2. rewrite bidx_row by auto. f_equal. ring.
Qed.
Lemma total_rows nn ins k i : (2 < List.length ins)%nat -> (i < nn)%nat -> (i < rows (as_vec (total nn ins k)))%nat.
Proof.
  intros L H. cbn [total as_vec rows]. destruct (List.length ins - 2)%nat as [|m] eqn:E; [lia|]. cbn [repeat app list_max fold_right]. lia.
Qed.
Lemma sol_multipliers G V name l pin pout s i : solution G V -> In (multipliers name l pin pout) (g_subs G) -> In s l -> (i < rows (ms_vec s))%nat ->
  mul_compute s (fun x => V (source G (gname name pin x))) i = Ok (V (gname name pout (ms_out s)) i).
Proof. intros S I Hs Hi. exact (S _ I s Hs i Hi). Qed.
Lemma sol_constants G V name l x v : solution G V -> In (constants name l) (g_subs G) -> In (x, v) l -> V (gname name [] x) 0%nat = v.
Proof. intros S I Hx. exact (S _ I x v Hx). Qed.
(** Friction, as the model and the specification write it. *)
Lemma Rpower_32 T : 0 < T -> Rpower T (3/2) = T * sqrt T.
Proof. intro H. replace (3/2) with (1 + / 2) by field. rewrite Rpower_plus, Rpower_1, Rpower_sqrt by assumption. reflexivity. Qed.
Lemma visc_eq T : 0 < T -> viscosity T = sutherland T.
Proof. intro H. unfold viscosity, sutherland. rewrite Rpower_32 by assumption. f_equal. f_equal. field. Qed.
Lemma sutherland_pos T : 0 < T -> 0 < sutherland T.
Proof.
  intro H. unfold sutherland. pose proof (sqrt_lt_R0 _ H). apply Rdiv_lt_0_compat; [|lra]. apply Rmult_lt_0_compat; [|now apply Rmult_lt_0_compat].
  apply Rdiv_lt_0_compat; [lra|]. apply pow_lt. lra.
Qed.
Lemma Re_eq U rho T L : 0 < T -> rho <> 0 -> U * L / (viscosity T / rho) = reynolds U rho T L.
Proof. intros HT HR. rewrite visc_eq by assumption. unfold reynolds. pose proof (sutherland_pos T HT). field. split; [lra|assumption]. Qed.
Lemma Cf_eq lam Re : (if Rlt_dec 0 lam then spalding Re + (blasius (Re * lam) - spalding (Re * lam)) * lam else spalding Re) = friction lam Re.
Proof. unfold friction, spalding, blasius, turbulent, laminar. rewrite (Rmult_comm Re lam). destruct Rlt_dec; [ring|reflexivity]. Qed.
Lemma mac_eq S AR t : 0 <= S / AR -> 0 < S / AR -> 0 <= t -> mac_of (sqrt (S / AR) * 2 / (1 + t)) (t * (sqrt (S / AR) * 2 / (1 + t))) = mean_chord S AR t.
Proof.
  intros _ H Ht. unfold mac_of, mean_chord. pose proof (sqrt_lt_R0 _ H). set (q := sqrt (S / AR)) in *. clearbody q. field. nra.
Qed.
Lemma friction_in G V nn name lam pin i : solution G V -> In (comp nn name (SkinFrictionCoefficient_JetTransport lam) pin []) (g_subs G) -> (i < nn)%nat ->
  let r x := V (source G (gname name pin x)) in 0 < r "fltcond|T" i -> r "fltcond|rho" i <> 0 ->
  V (gname name [] "Cf") i = friction lam (reynolds (r "fltcond|Utrue" i) (r "fltcond|rho" i) (r "fltcond|T" i) (r "L" 0%nat)).
Proof.
  intros S I Hi r HT HR. etransitivity; [exact (sol_comp G V nn name _ pin [] "Cf" _ _ i S I eq_refl Hi)|]. fold r.
  rewrite <- Cf_eq, <- (Re_eq _ _ _ _ HT HR). reflexivity.
Qed.
Lemma mac_in G V name pin : solution G V -> In (comp 1 name WingMACTrapezoidal pin []) (g_subs G) ->
  let r x := V (source G (gname name pin x)) in 0 < r "S_ref" 0%nat / r "AR" 0%nat -> 0 <= r "taper" 0%nat ->
  V (gname name [] "MAC") 0%nat = mean_chord (r "S_ref" 0%nat) (r "AR" 0%nat) (r "taper" 0%nat).
Proof.
  intros S I r HS HT. etransitivity; [exact (sol_comp G V 1 name _ pin [] "MAC" _ _ 0%nat S I eq_refl ltac:(cbn; lia))|]. fold r.
  rewrite <- mac_eq by lra. reflexivity.
Qed.
Lemma wing_form_in G V name Q pin : solution G V -> In (comp 1 name (WingFormFactor_JetTransport Q) pin []) (g_subs G) ->
  V (gname name [] "FF_wing") 0%nat = Q * form_wing (V (source G (gname name pin "toverc")) 0%nat).
Proof. intros S I. exact (sol_comp G V 1 name _ pin [] "FF_wing" _ _ 0%nat S I eq_refl ltac:(cbn; lia)). Qed.
Lemma body_form_in G V name Q pin : solution G V -> In (comp 1 name (FuselageFormFactor_JetTransport Q) pin []) (g_subs G) ->
  let r x := V (source G (gname name pin x)) 0%nat in r "ac|geom|fuselage|length" <> 0 -> r "ac|geom|fuselage|height" <> 0 ->
  V (gname name [] "FF_fuselage") 0%nat = Q * form_body (r "ac|geom|fuselage|length") (r "ac|geom|fuselage|height").
Proof.
  intros S I r H1 H2. etransitivity; [exact (sol_comp G V 1 name _ pin [] "FF_fuselage" _ _ 0%nat S I eq_refl ltac:(cbn; lia))|].
  unfold form_body. match goal with |- ?l = _ => change l with (Q * (1 + 22/10 / (r "ac|geom|fuselage|length" / r "ac|geom|fuselage|height") + 38/10 / (r "ac|geom|fuselage|length" / r "ac|geom|fuselage|height") ^ 3)) end.
  field. auto.
Qed.
Lemma flaps_in G V name cf Q fr pin : solution G V -> In (comp 1 name (FlapDrag_JetTransport cf Q fr) pin []) (g_subs G) ->
  V (gname name [] "CD_flap") 0%nat = flap_drag cf Q fr (V (source G (gname name pin "flap_extension")) 0%nat) (V (source G (gname name pin "ac|geom|wing|c4sweep")) 0%nat).
Proof.
  intros S I. etransitivity; [exact (sol_comp G V 1 name _ pin [] "CD_flap" _ _ 0%nat S I eq_refl ltac:(cbn; lia))|].
  set (d := V (source G (gname name pin "flap_extension")) 0%nat). set (s := V (source G (gname name pin "ac|geom|wing|c4sweep")) 0%nat).
  unfold flap_drag. match goal with |- ?l = _ => change l with (flap_quadratic cf * d ^ 2 * cos s * fr * Q) end. unfold flap_quadratic. field.
Qed.
Lemma rows_surface nn out a f c w k i : (i < nn)%nat -> (i < rows (ms_vec (surface_drag nn out a f c w k)))%nat.
Proof. intro. cbn [surface_drag ms_vec rows list_max fold_right]. lia. Qed.
Lemma rows_nacelle nn w i : (i < nn)%nat -> (i < rows (ms_vec (nacelle_drag nn w)))%nat.
Proof. intro. cbn [nacelle_drag ms_vec rows list_max fold_right]. lia. Qed.
Lemma rows_wing nn i : (i < nn)%nat -> (i < rows (ms_vec (wing_drag nn)))%nat.
Proof. intro. cbn [wing_drag ms_vec rows list_max fold_right]. lia. Qed.
Lemma Ok_inj {A} (x y : A) : Ok x = Ok y -> x = y.
Proof. now intros [=]. Qed.

Lemma bwb_value o nn V i : solution (ParasiteDragCoefficient_BWB o nn) V -> (i < nn)%nat -> 0 < V "fltcond|T" i -> V "fltcond|rho" i <> 0 -> V "CD0" i = bwb_drag o V i.
Proof.
  intros S Hi HT HR. destruct o as [tk fu FF cf Q fr lam]. set (o := {| bo_takeoff := tk |}) in *. set (G := ParasiteDragCoefficient_BWB o nn) in *.
  pose proof (friction_in G V nn "nacelle_friction" lam _ i S ltac:(nth_sub 1%nat) Hi HT HR) as EC.
  match type of EC with _ = ?rhs => change (V "nacelle_friction.Cf" i = rhs) in EC end. cbv beta zeta in EC.
  pose proof (sol_multipliers G V "drag_coeffs" _ _ _ (nacelle_drag nn "ac|geom|wing|S_ref") i S ltac:(nth_sub 2%nat) ltac:(now left) (rows_nacelle _ _ _ Hi)) as EN.
  rewrite nacelle_drag_value in EN by assumption. apply Ok_inj in EN.
  change (V "ac|geom|nacelle|S_wet" 0%nat * V "iv.FF_nacelle" 0%nat * V "nacelle_friction.Cf" i * V "ac|propulsion|num_engines" 0%nat / V "ac|geom|wing|S_ref" 0%nat = V "drag_coeffs.CD_nacelle" i) in EN.
  destruct tk.
  - pose proof (sol_constants G V "iv" _ "FF_nacelle" FF S ltac:(nth_sub 0%nat) ltac:(cbn; auto)) as E1.
    pose proof (sol_constants G V "iv" _ "CD_landing_gear" (1/100) S ltac:(nth_sub 0%nat) ltac:(cbn; auto)) as E2.
    pose proof (flaps_in G V "flaps" cf Q fr _ S ltac:(nth_sub 3%nat)) as E3.
    pose proof (sol_adders G V "sum_CD0" [total nn ["CD_nacelle"; "CD_flap"; "CD_landing_gear"] fu] _ _ _ i S ltac:(nth_sub 4%nat) ltac:(now left) ltac:(apply total_rows; [cbn; lia|assumption])) as ET.
    rewrite total3 in ET by assumption. apply Ok_inj in ET.
    change (fu * (V "drag_coeffs.CD_nacelle" i + V "flaps.CD_flap" 0%nat + V "iv.CD_landing_gear" 0%nat) = V "CD0" i) in ET.
    change (V "iv.FF_nacelle" 0%nat = FF) in E1. change (V "iv.CD_landing_gear" 0%nat = 1/100) in E2.
    change (V "flaps.CD_flap" 0%nat = flap_drag cf Q fr (V "ac|aero|takeoff_flap_deg" 0%nat) (V "ac|geom|wing|c4sweep" 0%nat)) in E3.
    rewrite <- ET, <- EN, E1, E2, E3, EC. unfold bwb_drag, o, nacelle_area, takeoff_drag, s_, Re_of. cbn [bo_takeoff bo_fudge bo_FF_nacelle bo_lam_nacelle bo_flap_chord bo_Q_flap bo_flapped]. 
    unfold Rdiv. match goal with |- context [friction _ ?x] => match goal with |- _ = ?r => match r with context [friction _ ?y] => change y with x end end end. ring.
  - pose proof (sol_constants G V "iv" _ "FF_nacelle" FF S ltac:(nth_sub 0%nat) ltac:(cbn; auto)) as E1.
    pose proof (sol_constants G V "iv" _ "CD_landing_gear" 0 S ltac:(nth_sub 0%nat) ltac:(cbn; auto)) as E2.
    pose proof (sol_constants G V "iv" _ "CD_flap" 0 S ltac:(nth_sub 0%nat) ltac:(cbn; auto)) as E3.
    pose proof (sol_adders G V "sum_CD0" [total nn ["CD_nacelle"; "CD_flap"; "CD_landing_gear"] fu] _ _ _ i S ltac:(nth_sub 3%nat) ltac:(now left) ltac:(apply total_rows; [cbn; lia|assumption])) as ET.
    rewrite total3 in ET by assumption. apply Ok_inj in ET.
    change (fu * (V "drag_coeffs.CD_nacelle" i + V "iv.CD_flap" 0%nat + V "iv.CD_landing_gear" 0%nat) = V "CD0" i) in ET.
    change (V "iv.FF_nacelle" 0%nat = FF) in E1. change (V "iv.CD_landing_gear" 0%nat = 0) in E2. change (V "iv.CD_flap" 0%nat = 0) in E3.
    rewrite <- ET, <- EN, E1, E2, E3, EC. unfold bwb_drag, o, nacelle_area, takeoff_drag, s_, Re_of. cbn [bo_takeoff bo_fudge bo_FF_nacelle bo_lam_nacelle bo_flap_chord bo_Q_flap bo_flapped].
    unfold Rdiv. match goal with |- context [friction _ ?x] => match goal with |- _ = ?r => match r with context [friction _ ?y] => change y with x end end end. ring.
Qed.

(** The jet transport's subsystems, for every choice of options. *)
Definition jet_ok (V : env) (i : nat) (surf : list string) : Prop :=
  0 < V "fltcond|T" i /\ V "fltcond|rho" i <> 0 /\ V "ac|geom|fuselage|length" 0%nat <> 0 /\ V "ac|geom|fuselage|height" 0%nat <> 0 /\
  V "ac|geom|wing|S_ref" 0%nat <> 0 /\
  forall s, In s surf -> 0 < V (String.append "ac|geom|" (String.append s "|S_ref")) 0%nat / V (String.append "ac|geom|" (String.append s "|AR")) 0%nat
                         /\ 0 <= V (String.append "ac|geom|" (String.append s "|taper")) 0%nat.
Lemma jet_value o nn V i : solution (ParasiteDragCoefficient_JetTransport o nn) V -> (i < nn)%nat ->
  jet_ok V i (if do_wing o then ["hstab"; "vstab"; "wing"] else ["hstab"; "vstab"]) -> V "CD0" i = jet_drag o V i.
Proof.
  intros S Hi (HT & HR & HL & HD & HW & HS). destruct o as [wing tk fu FF Qf Qt Qw cf Q fr lf lh lv lw ln].
  set (o := {| do_wing := wing |}) in *. set (G := ParasiteDragCoefficient_JetTransport o nn) in *.
  assert (N : V "iv.FF_nacelle" 0%nat = FF).
  { destruct tk; exact (sol_constants G V "iv" _ "FF_nacelle" FF S ltac:(nth_sub 0%nat) ltac:(cbn; auto)). }
  assert (EF : V "fuselage_form.FF_fuselage" 0%nat = Qf * form_body (V "ac|geom|fuselage|length" 0%nat) (V "ac|geom|fuselage|height" 0%nat)).
  { destruct wing; exact (body_form_in G V "fuselage_form" Qf _ S ltac:(nth_sub 1%nat) HL HD). }
  assert (EH : V "hstab_form.FF_wing" 0%nat = Qt * form_wing (V "ac|geom|hstab|toverc" 0%nat)).
  { destruct wing; exact (wing_form_in G V "hstab_form" Qt _ S ltac:(nth_sub 2%nat)). }
  assert (EV : V "vstab_form.FF_wing" 0%nat = Qt * form_wing (V "ac|geom|vstab|toverc" 0%nat)).
  { destruct wing; exact (wing_form_in G V "vstab_form" Qt _ S ltac:(nth_sub 3%nat)). }
  assert (FFu : V "fuselage_friction.Cf" i = friction lf (Re_of V i (V "ac|geom|fuselage|length" 0%nat))).
  { destruct wing; [exact (friction_in G V nn "fuselage_friction" lf _ i S ltac:(nth_sub 5%nat) Hi HT HR)|exact (friction_in G V nn "fuselage_friction" lf _ i S ltac:(nth_sub 4%nat) Hi HT HR)]. }
  assert (MH : V "hstab_MAC_calc.MAC" 0%nat = mean_chord (V "ac|geom|hstab|S_ref" 0%nat) (V "ac|geom|hstab|AR" 0%nat) (V "ac|geom|hstab|taper" 0%nat)).
  { destruct wing; destruct (HS "hstab" ltac:(cbn; auto)) as [H1 H2];
      [exact (mac_in G V "hstab_MAC_calc" _ S ltac:(nth_sub 6%nat) H1 H2)|exact (mac_in G V "hstab_MAC_calc" _ S ltac:(nth_sub 5%nat) H1 H2)]. }
  assert (FH : V "hstab_friction.Cf" i = friction lh (Re_of V i (V "hstab_MAC_calc.MAC" 0%nat))).
  { destruct wing; [exact (friction_in G V nn "hstab_friction" lh _ i S ltac:(nth_sub 7%nat) Hi HT HR)|exact (friction_in G V nn "hstab_friction" lh _ i S ltac:(nth_sub 6%nat) Hi HT HR)]. }
  assert (MV : V "vstab_MAC_calc.MAC" 0%nat = mean_chord (V "ac|geom|vstab|S_ref" 0%nat) (V "ac|geom|vstab|AR" 0%nat) (V "ac|geom|vstab|taper" 0%nat)).
  { destruct wing; destruct (HS "vstab" ltac:(cbn; auto)) as [H1 H2];
      [exact (mac_in G V "vstab_MAC_calc" _ S ltac:(nth_sub 8%nat) H1 H2)|exact (mac_in G V "vstab_MAC_calc" _ S ltac:(nth_sub 7%nat) H1 H2)]. }
  assert (FV : V "vstab_friction.Cf" i = friction lv (Re_of V i (V "vstab_MAC_calc.MAC" 0%nat))).
  { destruct wing; [exact (friction_in G V nn "vstab_friction" lv _ i S ltac:(nth_sub 9%nat) Hi HT HR)|exact (friction_in G V nn "vstab_friction" lv _ i S ltac:(nth_sub 8%nat) Hi HT HR)]. }
  assert (FN : V "nacelle_friction.Cf" i = friction ln (Re_of V i (V "ac|geom|nacelle|length" 0%nat))).
  { destruct wing; [exact (friction_in G V nn "nacelle_friction" ln _ i S ltac:(nth_sub 12%nat) Hi HT HR)|exact (friction_in G V nn "nacelle_friction" ln _ i S ltac:(nth_sub 9%nat) Hi HT HR)]. }
  assert (M : forall s, In s ([surface_drag nn "CD_fuselage" "ac|geom|fuselage|S_wet" "FF_fuselage" "Cf_fuselage" "S_wing_1" 1;
             surface_drag nn "CD_hstab" "ac|geom|hstab|S_ref" "FF_hstab" "Cf_hstab" "S_wing_2" 2;
             surface_drag nn "CD_vstab" "ac|geom|vstab|S_ref" "FF_vstab" "Cf_vstab" "S_wing_3" 2;
             nacelle_drag nn "S_wing_4"] ++ (if wing then [wing_drag nn] else [])) -> (i < rows (ms_vec s))%nat ->
     mul_compute s (fun x => V (source G (gname "drag_coeffs" [P "ac|geom|fuselage|S_wet"; P "ac|geom|hstab|S_ref"; P "ac|geom|vstab|S_ref"; P "ac|geom|nacelle|S_wet"; P "ac|propulsion|num_engines";
            As "S_wing_1" "ac|geom|wing|S_ref"; As "S_wing_2" "ac|geom|wing|S_ref"; As "S_wing_3" "ac|geom|wing|S_ref"; As "S_wing_4" "ac|geom|wing|S_ref"] x))) i
       = Ok (V (gname "drag_coeffs" [] (ms_out s)) i)).
  { intros s Is Hs. destruct wing; [refine (sol_multipliers G V "drag_coeffs" _ _ _ s i S _ Is Hs); nth_sub 13%nat|refine (sol_multipliers G V "drag_coeffs" _ _ _ s i S _ Is Hs); nth_sub 10%nat]. }
  pose proof (M (surface_drag nn "CD_fuselage" "ac|geom|fuselage|S_wet" "FF_fuselage" "Cf_fuselage" "S_wing_1" 1) ltac:(cbn [app In]; auto) (rows_surface nn "CD_fuselage" "ac|geom|fuselage|S_wet" "FF_fuselage" "Cf_fuselage" "S_wing_1" 1 i Hi)) as DF.
  pose proof (M (surface_drag nn "CD_hstab" "ac|geom|hstab|S_ref" "FF_hstab" "Cf_hstab" "S_wing_2" 2) ltac:(cbn [app In]; auto) (rows_surface nn "CD_hstab" "ac|geom|hstab|S_ref" "FF_hstab" "Cf_hstab" "S_wing_2" 2 i Hi)) as DH.
  pose proof (M (surface_drag nn "CD_vstab" "ac|geom|vstab|S_ref" "FF_vstab" "Cf_vstab" "S_wing_3" 2) ltac:(cbn [app In]; auto) (rows_surface nn "CD_vstab" "ac|geom|vstab|S_ref" "FF_vstab" "Cf_vstab" "S_wing_3" 2 i Hi)) as DV.
  pose proof (M (nacelle_drag nn "S_wing_4") ltac:(cbn [app In]; auto) (rows_nacelle nn "S_wing_4" i Hi)) as DN.
  rewrite surface_drag_value in DF, DH, DV by assumption. rewrite nacelle_drag_value in DN by assumption. apply Ok_inj in DF, DH, DV, DN.
  assert (DF' : 1 * (V "ac|geom|fuselage|S_wet" 0%nat * V "fuselage_form.FF_fuselage" 0%nat * V "fuselage_friction.Cf" i / V "ac|geom|wing|S_ref" 0%nat) = V "drag_coeffs.CD_fuselage" i) by (destruct wing; exact DF).
  assert (DH' : 2 * (V "ac|geom|hstab|S_ref" 0%nat * V "hstab_form.FF_wing" 0%nat * V "hstab_friction.Cf" i / V "ac|geom|wing|S_ref" 0%nat) = V "drag_coeffs.CD_hstab" i) by (destruct wing; exact DH).
  assert (DV' : 2 * (V "ac|geom|vstab|S_ref" 0%nat * V "vstab_form.FF_wing" 0%nat * V "vstab_friction.Cf" i / V "ac|geom|wing|S_ref" 0%nat) = V "drag_coeffs.CD_vstab" i) by (destruct wing; exact DV).
  assert (DN' : V "ac|geom|nacelle|S_wet" 0%nat * V "iv.FF_nacelle" 0%nat * V "nacelle_friction.Cf" i * V "ac|propulsion|num_engines" 0%nat / V "ac|geom|wing|S_ref" 0%nat = V "drag_coeffs.CD_nacelle" i) by (destruct wing; exact DN).
  clear DF DH DV DN.
  assert (X : V (flap_source tk) 0%nat + V "iv.CD_landing_gear" 0%nat = if tk then takeoff_drag V (2/100) cf Q fr else 0).
  { destruct tk.
    - pose proof (sol_constants G V "iv" _ "CD_landing_gear" (2/100) S ltac:(nth_sub 0%nat) ltac:(cbn; auto)) as E2.
      assert (E3 : V "flaps.CD_flap" 0%nat = flap_drag cf Q fr (V "ac|aero|takeoff_flap_deg" 0%nat) (V "ac|geom|wing|c4sweep" 0%nat)).
      { destruct wing; [exact (flaps_in G V "flaps" cf Q fr _ S ltac:(nth_sub 14%nat))|exact (flaps_in G V "flaps" cf Q fr _ S ltac:(nth_sub 11%nat))]. }
      change (V "iv.CD_landing_gear" 0%nat = 2/100) in E2. cbn [flap_source]. rewrite E2, E3. unfold takeoff_drag, s_. ring.
    - pose proof (sol_constants G V "iv" _ "CD_landing_gear" 0 S ltac:(nth_sub 0%nat) ltac:(cbn; auto)) as E2.
      pose proof (sol_constants G V "iv" _ "CD_flap" 0 S ltac:(nth_sub 0%nat) ltac:(cbn; auto)) as E3.
      change (V "iv.CD_landing_gear" 0%nat = 0) in E2. change (V "iv.CD_flap" 0%nat = 0) in E3. cbn [flap_source]. rewrite E2, E3. ring. }
  assert (W : wing = true -> V "drag_coeffs.CD_wing" i = wing_area o V i / V "ac|geom|wing|S_ref" 0%nat).
  { intros ->. destruct (HS "wing" ltac:(cbn; auto)) as [H1 H2].
    pose proof (wing_form_in G V "wing_form" Qw _ S ltac:(nth_sub 4%nat)) as E1.
    pose proof (mac_in G V "wing_MAC_calc" _ S ltac:(nth_sub 10%nat) H1 H2) as E2.
    pose proof (friction_in G V nn "wing_friction" lw _ i S ltac:(nth_sub 11%nat) Hi HT HR) as E3.
    pose proof (M (wing_drag nn) ltac:(cbn [app In]; auto 7) (rows_wing nn i Hi)) as DW. rewrite wing_drag_value in DW by assumption. apply Ok_inj in DW.
    change (2 * (V "wing_form.FF_wing" 0%nat * V "wing_friction.Cf" i) = V "drag_coeffs.CD_wing" i) in DW.
    change (V "wing_form.FF_wing" 0%nat = Qw * form_wing (V "ac|geom|wing|toverc" 0%nat)) in E1.
    change (V "wing_MAC_calc.MAC" 0%nat = mean_chord (V "ac|geom|wing|S_ref" 0%nat) (V "ac|geom|wing|AR" 0%nat) (V "ac|geom|wing|taper" 0%nat)) in E2.
    change (V "wing_friction.Cf" i = friction lw (Re_of V i (V "wing_MAC_calc.MAC" 0%nat))) in E3.
    rewrite <- DW, E1, E3, E2. unfold wing_area, lifting_area, s_, o. cbn [do_Q_wing do_lam_wing]. field. exact HW. }
  clear M.
  assert (ET : fu * (V "drag_coeffs.CD_fuselage" i + V "drag_coeffs.CD_hstab" i + V "drag_coeffs.CD_vstab" i + V "drag_coeffs.CD_nacelle" i + (if wing then V "drag_coeffs.CD_wing" i else 0)
              + V (flap_source tk) 0%nat + V "iv.CD_landing_gear" 0%nat) = V "CD0" i).
  { destruct wing.
    - assert (K : In (adders "sum_CD0" [total nn ["CD_fuselage"; "CD_hstab"; "CD_vstab"; "CD_nacelle"; "CD_wing"; "CD_flap"; "CD_landing_gear"] fu] [] [P "CD0"]) (g_subs G)).
      { destruct tk; [nth_sub 15%nat|nth_sub 14%nat]. }
      pose proof (sol_adders G V "sum_CD0" _ _ _ _ i S K ltac:(now left) ltac:(apply total_rows; [cbn; lia|assumption])) as E.
      rewrite total7 in E by assumption. apply Ok_inj in E. destruct tk; exact E.
    - assert (K : In (adders "sum_CD0" [total nn ["CD_fuselage"; "CD_hstab"; "CD_vstab"; "CD_nacelle"; "CD_flap"; "CD_landing_gear"] fu] [] [P "CD0"]) (g_subs G)).
      { destruct tk; [nth_sub 12%nat|nth_sub 11%nat]. }
      pose proof (sol_adders G V "sum_CD0" _ _ _ _ i S K ltac:(now left) ltac:(apply total_rows; [cbn; lia|assumption])) as E.
      rewrite total6 in E by assumption. apply Ok_inj in E. rewrite Rplus_0_r. destruct tk; exact E. }
  rewrite <- ET, Rplus_assoc, X, <- DF', <- DH', <- DV', <- DN', N, EF, EH, EV, FFu, FH, FV, FN, MH, MV.
  unfold jet_drag, fuselage_area, hstab_area, vstab_area, nacelle_area, lifting_area, s_, o.
  cbn [do_fudge do_wing do_takeoff do_FF_nacelle do_lam_nacelle do_lam_fuselage do_lam_hstab do_lam_vstab do_Q_fuselage do_Q_tail do_flap_chord do_Q_flap do_flapped].
  fold o. destruct wing; [rewrite W by reflexivity|]; field; exact HW.
Qed.
