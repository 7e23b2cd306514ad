(** C85: AerostructDragPolarExact. *)
From Coq Require Import Reals List Bool PeanoNat String Ascii Lia Lra DecimalString DecimalNat FinFun.
From Verif Require Import Base Py Model_Algebra Model_Vectors Proofs_Vectors Model_Net Proofs_Net Model_Systems Model_Training Spec_Training Proofs_Training Props_Training Model_Polar Spec_Polar Props_Polar Proofs_Thermal.
From Coquelicot Require Import Coquelicot.
Import ListNotations.
Open Scope string_scope.
Open Scope list_scope.
Open Scope R_scope.

(** ** Numbered names *)
Notation digits := NilEmpty.string_of_uint.
Lemma digits_dot u : forall u' r r', String.append (digits u) (String "." r) = String.append (digits u') (String "." r') -> u = u' /\ r = r'.
Proof.
  induction u; intros u' r r' H; destruct u'; cbn [NilEmpty.string_of_uint String.append] in H; try discriminate H; injection H as H; try (apply IHu in H; destruct H as [-> ->]; auto). auto.
Qed.
Lemma digits_inj u : forall u', digits u = digits u' -> u = u'.
Proof. induction u; intros u' H; destruct u'; cbn in H; try discriminate H; try injection H as H; try (apply IHu in H; now subst); reflexivity. Qed.
Lemma append_inj s : forall a b, String.append s a = String.append s b -> a = b.
Proof. induction s as [|c s IH]; intros a b H; [exact H|]. cbn in H. injection H as H. now apply IH. Qed.
Lemma append_assoc a : forall b c, String.append (String.append a b) c = String.append a (String.append b c).
Proof. induction a as [|x a IH]; intros b c; [reflexivity|]. cbn. now rewrite IH. Qed.
Lemma numbered_inj s k k' : numbered s k = numbered s k' -> k = k'.
Proof. intros H. apply append_inj, digits_inj, Unsigned.to_uint_inj in H. exact H. Qed.
Lemma numbered_dot s k k' r r' : String.append (numbered s k) (String "." r) = String.append (numbered s k') (String "." r') -> k = k' /\ r = r'.
Proof.
  intros H. unfold numbered in H. rewrite !append_assoc in H. apply append_inj, digits_dot in H. destruct H as [H ->]. split; [now apply Unsigned.to_uint_inj | reflexivity].
Qed.

(** ** Reading the group *)
Lemma nth_numbered s n i : (i < n)%nat -> nth i (map (numbered s) (seq 0 n)) "" = numbered s i.
Proof. intros Hi. rewrite (nth_indep _ "" (numbered s 0)) by (rewrite map_length, seq_length; exact Hi). rewrite map_nth, seq_nth by exact Hi. reflexivity. Qed.
Lemma firstn_ones n i : (i <= n)%nat -> list_sum (firstn i (repeat 1%nat n)) = i.
Proof. revert i. induction n as [|n IH]; intros [|i] Hi; try reflexivity; [lia|]. cbn [repeat firstn]. change (1 + list_sum (firstn i (repeat 1%nat n)) = S i)%nat. rewrite IH by lia. reflexivity. Qed.
Lemma combine_at nn out stem I i : (i < nn)%nat -> nth i (concat_compute (combine_rel nn out stem) I) 0 = I (numbered stem i) 0%nat.
Proof.
  intros Hi. set (s := combine_rel nn out stem).
  assert (W : cs_wf s) by (unfold cs_wf, s; cbn; rewrite repeat_length, map_length, seq_length; reflexivity).
  assert (B := concat_block s I i 0 W). unfold start_idx in B. cbn [s combine_rel cs_sizes cs_len cs_many] in B. rewrite firstn_ones in B by lia.
  rewrite nth_numbered in B by exact Hi. replace (i * 1 + 0)%nat with i in B by lia. apply B.
  - rewrite map_length, seq_length. exact Hi.
  - rewrite (nth_indep _ 0%nat 1%nat) by (rewrite repeat_length; exact Hi). rewrite nth_repeat. lia.
Qed.

Section Exact.
  Variables (T : tools) (nn : nat) (o : options).
  Let G := AerostructDragPolarExact T nn o.
  Definition node_conns (k : nat) : list (string * string) :=
    [(String.append (numbered "aerostruct_" k) ".fltcond|CL", String.append "vec_combine." (numbered "CL_" k));
     (String.append (numbered "aerostruct_" k) ".fltcond|CD", String.append "vec_combine." (numbered "CD_" k));
     (String.append (numbered "aerostruct_" k) ".failure", String.append "vec_combine." (numbered "failure_" k))].
  Lemma find_skip (l : list nat) x r : (forall k c, In k l -> In c (node_conns k) -> String.eqb (snd c) x = false) ->
    find (fun c => String.eqb (snd c) x) (flat_map node_conns l ++ r) = find (fun c => String.eqb (snd c) x) r.
  Proof.
    induction l as [|k l IH]; intros H; [reflexivity|]. cbn [flat_map]. rewrite <- app_assoc.
    assert (P : forall cs : list (string * string), (forall c, In c cs -> String.eqb (snd c) x = false) -> forall r', find (fun c => String.eqb (snd c) x) (cs ++ r') = find (fun c => String.eqb (snd c) x) r').
    { induction cs as [|c cs IHc]; intros Hc r'; [reflexivity|]. cbn [app find]. rewrite (Hc c (or_introl eq_refl)). apply IHc. intros; apply Hc; now right. }
    rewrite P by (intros c Hc; apply (H k); [now left | exact Hc]). apply IH. intros; eapply H; [right|]; eassumption.
  Qed.
  (** Names without connection. *)
  Lemma source_own x : match x with String c _ => negb (Ascii.eqb c "v") && negb (Ascii.eqb c "d") | EmptyString => false end = true ->
    String.eqb x "alpha_bal.CL_OAS" = false -> source G x = x.
  Proof.
    intros H Hb. unfold source, G. cbn [g_conns AerostructDragPolarExact].
    change (flat_map _ (seq 0 nn)) with (flat_map node_conns (seq 0 nn)). rewrite find_skip.
    - cbn [find snd]. rewrite String.eqb_sym, Hb. destruct x as [|c x]; [discriminate H|]. apply andb_true_iff in H. destruct H as [_ H]. apply negb_true_iff in H.
      change (String.eqb "drag_calc.CD" (String c x)) with (if Ascii.eqb "d" c then String.eqb "rag_calc.CD" x else false). rewrite Ascii.eqb_sym, H. reflexivity.
    - intros k c _ Hc. destruct x as [|a x]; [discriminate H|]. apply andb_true_iff in H. destruct H as [H _]. apply negb_true_iff in H.
      assert (E : forall y, String.eqb (String.append "vec_combine." y) (String a x) = false) by (intros y; cbn [String.append String.eqb]; rewrite Ascii.eqb_sym, H; reflexivity).
      destruct Hc as [<- | [<- | [<- | []]]]; apply E.
  Qed.
  Lemma source_other x y : In (x, y) [("alpha_bal.CL_OAS", "vec_combine.CL_OAS"); ("drag_calc.CD", "vec_combine.CD_OAS")] -> source G x = y.
  Proof.
    intros H. unfold source, G. cbn [g_conns AerostructDragPolarExact].
    change (flat_map _ (seq 0 nn)) with (flat_map node_conns (seq 0 nn)).
    destruct H as [[= <- <-] | [[= <- <-] | []]]; (rewrite find_skip; [reflexivity | intros k c _ [<- | [<- | [<- | []]]]; reflexivity]).
  Qed.
  (** The inputs of the concatenation come from the analysis of their node. *)
  Lemma source_node k stem out : (k < nn)%nat -> In (stem, out) [("CL_", ".fltcond|CL"); ("CD_", ".fltcond|CD"); ("failure_", ".failure")] ->
    source G (String.append "vec_combine." (numbered stem k)) = String.append (numbered "aerostruct_" k) out.
  Proof.
    intros Hk Hs. unfold source, G. cbn [g_conns AerostructDragPolarExact].
    change (flat_map _ (seq 0 nn)) with (flat_map node_conns (seq 0 nn)).
    replace (seq 0 nn) with (seq 0 k ++ k :: seq (S k) (nn - k - 1)).
    2:{ replace nn with (k + S (nn - k - 1))%nat at 2 by lia. rewrite seq_app. reflexivity. }
    rewrite flat_map_app, <- app_assoc. rewrite find_skip.
    - cbn [flat_map node_conns app find snd].
      assert (N : forall a b, String.eqb (String.append "vec_combine." (String.append a (digits (Nat.to_uint k)))) (String.append "vec_combine." (String.append b (digits (Nat.to_uint k)))) = String.eqb (String.append a (digits (Nat.to_uint k))) (String.append b (digits (Nat.to_uint k)))).
      { intros a b. reflexivity. }
      unfold numbered. rewrite !N. destruct Hs as [[= <- <-] | [[= <- <-] | [[= <- <-] | []]]]; cbn [String.append String.eqb Ascii.eqb Bool.eqb]; rewrite ?String.eqb_refl; reflexivity.
    - intros k' c Hk' Hc. apply in_seq in Hk'. apply String.eqb_neq. intros E.
      destruct Hs as [[= <- <-] | [[= <- <-] | [[= <- <-] | []]]]; destruct Hc as [<- | [<- | [<- | []]]]; cbn [snd] in E; apply append_inj in E; try discriminate E; apply numbered_inj in E; lia.
  Qed.

  Variable (V : env).
  Hypothesis (S : solution G V).
  Lemma node_reads k : same_design o (reads G (aerostruct_sub T o k) V) V /\ forall x, In x ["fltcond|M"; "fltcond|alpha"; "fltcond|h"] -> reads G (aerostruct_sub T o k) V x = V x.
  Proof.
    assert (P : forall x, In x (gs_ins (aerostruct_sub T o k)) -> reads G (aerostruct_sub T o k) V x = V x).
    { intros x H. unfold reads. replace (gname _ _ x) with x by (repeat (destruct H as [<- | H]; [reflexivity|]); destruct H).
      rewrite source_own; [reflexivity | |]; repeat (destruct H as [<- | H]; [reflexivity|]); destruct H. }
    split; [|intros x H; apply P; cbn in H |- *; tauto].
    intros x n H. apply P. cbn [design In] in H. cbn [gs_ins aerostruct_sub In]. intuition congruence.
  Qed.
  Lemma node_writes k x : In x ["fltcond|CL"; "fltcond|CD"; "failure"] -> writes (aerostruct_sub T o k) V x = V (String.append (numbered "aerostruct_" k) (String "." x)).
  Proof. intros H. unfold writes. f_equal. destruct k as [|k]; (destruct H as [<- | [<- | [<- | []]]]; reflexivity). Qed.
  Lemma in_subs s : In s [combine_sub nn; balance2 nn "alpha_bal" "fltcond|alpha" "CL_OAS" "fltcond|CL" [P "fltcond|CL"] [P "fltcond|alpha"];
     comp nn "drag_calc" ExactDrag [As "q" "fltcond|q"; S_as; As "CD0" "ac|aero|CD_nonwing"] [P "drag"]] -> In s (g_subs G).
  Proof. intros H. unfold G. cbn [g_subs AerostructDragPolarExact]. apply in_or_app. right. exact H. Qed.
  Lemma combined k : (k < nn)%nat ->
    V "vec_combine.CL_OAS" k = V (String.append (numbered "aerostruct_" k) ".fltcond|CL") 0%nat /\
    V "vec_combine.CD_OAS" k = V (String.append (numbered "aerostruct_" k) ".fltcond|CD") 0%nat /\
    V "failure" k = V (String.append (numbered "aerostruct_" k) ".failure") 0%nat.
  Proof.
    intros Hk. assert (R := sol_rel G V _ S (in_subs _ (or_introl eq_refl))). cbn [gs_rel combine_sub] in R.
    assert (Q : forall out stem, In (out, stem) [("CL_OAS", "CL_"); ("CD_OAS", "CD_"); ("failure", "failure_")] -> writes (combine_sub nn) V out k = V (source G (String.append "vec_combine." (numbered stem k))) 0%nat).
    { intros out stem H. rewrite (R out stem H k Hk), combine_at by exact Hk. reflexivity. }
    split; [|split].
    - rewrite <- (source_node k "CL_" ".fltcond|CL" Hk) by (cbn; tauto). apply (Q "CL_OAS" "CL_"). cbn; tauto.
    - rewrite <- (source_node k "CD_" ".fltcond|CD" Hk) by (cbn; tauto). apply (Q "CD_OAS" "CD_"). cbn; tauto.
    - rewrite <- (source_node k "failure_" ".failure" Hk) by (cbn; tauto). apply (Q "failure" "failure_"). cbn; tauto.
  Qed.
End Exact.

(** ** C85 *)
(** Every node has its own analysis at its own Mach number, altitude and angle of attack; the
    angle gives the node's lift coefficient; drag, failure and wing weight are those of the analyses. *)
Theorem C85_nodes : forall T nn o V, solution (AerostructDragPolarExact T nn o) V -> forall k, (k < nn)%nat ->
  exists x r, same_design o x V /\
    t_struct T (o_x o) (o_y o) (o_surf o) x (V "fltcond|M" k) (V "fltcond|alpha" k) (V "fltcond|h" k) = Some r /\
    V "fltcond|CL" k = a_out r "CL_train" /\
    V "drag" k = V "fltcond|q" k * V "ac|geom|wing|S_ref" 0%nat * (a_out r "CD_train" + V "ac|aero|CD_nonwing" 0%nat) /\
    V "failure" k = a_out r "failure_train" /\
    (k = 0%nat -> V "ac|weights|W_wing" 0%nat = a_out r "W_wing").
Proof.
  intros T nn o V S k Hk. set (G := AerostructDragPolarExact T nn o) in *.
  assert (Ik : In (aerostruct_sub T o k) (g_subs G)).
  { unfold G. cbn [g_subs AerostructDragPolarExact]. apply in_or_app. left. apply in_map. apply in_seq. lia. }
  destruct (sol_rel G V _ S Ik) as (r & R1 & R2 & R3 & R4 & R5). destruct (node_reads T nn o V k) as [D F]. fold G in D, F.
  rewrite !node_writes in R2, R3, R4 by (cbn; tauto).
  destruct (combined T nn o V S k Hk) as (C1 & C2 & C3). cbn [String.append] in *.
  exists (reads G (aerostruct_sub T o k) V), r. split; [exact D|]. rewrite !F in R1 by (cbn; tauto). split; [exact R1|]. split; [|split; [|split]].
  - assert (B := sol_rel G V _ S (in_subs T nn o _ (or_intror (or_introl eq_refl))) k Hk). unfold reads in B. cbn [gname gs_name gs_pin balance2] in B.
    change (V (source G "alpha_bal.CL_OAS") k = V (source G "fltcond|CL") k) in B. unfold G in B. rewrite (source_other T nn o "alpha_bal.CL_OAS" "vec_combine.CL_OAS") in B by (cbn; tauto).
    rewrite (source_own T nn o "fltcond|CL") in B by reflexivity. rewrite <- B, C1. exact R2.
  - assert (B := sol_comp G V _ _ _ _ _ "drag" Vec _ k S (in_subs T nn o _ (or_intror (or_intror (or_introl eq_refl)))) eq_refl Hk).
    change (gname "drag_calc" [P "drag"] "drag") with "drag" in B. rewrite B. cbv beta. unfold node. cbn [assoc pc_ins ExactDrag String.eqb Ascii.eqb Bool.eqb].
    change (V (source G "fltcond|q") k * V (source G "ac|geom|wing|S_ref") 0%nat * (V (source G "drag_calc.CD") k + V (source G "ac|aero|CD_nonwing") 0%nat) =
            V "fltcond|q" k * V "ac|geom|wing|S_ref" 0%nat * (a_out r "CD_train" + V "ac|aero|CD_nonwing" 0%nat)).
    unfold G. rewrite (source_other T nn o "drag_calc.CD" "vec_combine.CD_OAS") by (cbn; tauto). rewrite !source_own by reflexivity. rewrite C2, R3. reflexivity.
  - rewrite C3. exact R4.
  - intros ->. exact R5.
Qed.
Print Assumptions C85_nodes.

(** *** The group can be set up *)
Lemma mem_In x l : mem x l = true <-> In x l.
Proof. unfold mem. rewrite existsb_exists. split; [intros (y & I & E); apply String.eqb_eq in E; now subst | intros I; exists x; split; [exact I | apply String.eqb_refl]]. Qed.
Lemma no_dup_NoDup l : NoDup l -> no_dup l = true.
Proof. induction 1 as [|x l N _ IH]; [reflexivity|]. cbn [no_dup]. rewrite IH, andb_true_r. apply negb_true_iff. destruct (mem x l) eqn:E; [|reflexivity]. exfalso. apply N, mem_In, E. Qed.
Lemma NoDup_app {A} (l r : list A) : NoDup l -> NoDup r -> (forall x, In x l -> ~ In x r) -> NoDup (l ++ r).
Proof.
  induction 1 as [|x l N _ IH]; intros Hr D; [exact Hr|]. cbn [app]. constructor.
  - rewrite in_app_iff. intros [H | H]; [exact (N H) | exact (D x (or_introl eq_refl) H)].
  - apply IH; [exact Hr|]. intros y Hy. apply D. now right.
Qed.
Lemma NoDup_flat {A B} (f : A -> list B) l : NoDup l -> (forall k, In k l -> NoDup (f k)) -> (forall k k' x, In x (f k) -> In x (f k') -> k = k') -> NoDup (flat_map f l).
Proof.
  induction 1 as [|k l N _ IH]; intros F D; [constructor|]. cbn [flat_map]. apply NoDup_app.
  - apply F. now left.
  - apply IH; [intros; apply F; now right | exact D].
  - intros x Hx H. apply in_flat_map in H. destruct H as (k' & Ik & Hx'). rewrite (D k k' x Hx Hx') in N. exact (N Ik).
Qed.
Definition node_outs (k : nat) : list string :=
  [String.append (numbered "aerostruct_" k) ".fltcond|CL"; String.append (numbered "aerostruct_" k) ".fltcond|CD"; String.append (numbered "aerostruct_" k) ".failure";
   match k with O => "ac|weights|W_wing" | _ => String.append (numbered "aerostruct_" k) ".ac|weights|W_wing" end].
Lemma node_outs_eq T o k : map (gname (gs_name (aerostruct_sub T o k)) (gs_pout (aerostruct_sub T o k))) (gs_outs (aerostruct_sub T o k)) = node_outs k.
Proof. destruct k; reflexivity. Qed.
Lemma node_outs_nodup k : NoDup (node_outs k).
Proof.
  destruct k as [|k].
  - repeat constructor; cbn; intuition discriminate.
  - unfold node_outs. repeat constructor; cbn [In]; intros H; repeat (destruct H as [H|H]; [apply append_inj in H; discriminate H|]); exact H.
Qed.
Lemma node_outs_own k k' x : In x (node_outs k) -> In x (node_outs k') -> k = k'.
Proof.
  intros H H'. unfold node_outs in *. destruct k as [|k], k' as [|k']; [reflexivity | | |].
  all: cbn [In] in H, H'.
  all: destruct H as [<-|[<-|[<-|[<-|[]]]]]; destruct H' as [H'|[H'|[H'|[H'|[]]]]]; try discriminate H'; apply numbered_dot in H'; destruct H' as [E ?]; congruence.
Qed.
Theorem C85_connected : forall T nn o, Model_Net.setup (AerostructDragPolarExact T nn o) = Ok (AerostructDragPolarExact T nn o).
Proof.
  intros T nn o. set (G := AerostructDragPolarExact T nn o).
  assert (GO : group_outs G = flat_map node_outs (seq 0 nn) ++ ["vec_combine.CL_OAS"; "vec_combine.CD_OAS"; "failure"; "fltcond|alpha"; "drag"]).
  { unfold group_outs, G. cbn [g_subs AerostructDragPolarExact]. rewrite flat_map_app. f_equal. rewrite flat_map_concat_map, map_map, flat_map_concat_map. f_equal. apply map_ext. intros k. apply node_outs_eq. }
  assert (GI : group_ins G = flat_map (fun k => map (gname (gs_name (aerostruct_sub T o k)) (gs_pin (aerostruct_sub T o k))) (gs_ins (aerostruct_sub T o k))) (seq 0 nn) ++
     (map (gname "vec_combine" []) (map (numbered "CL_") (seq 0 nn) ++ map (numbered "CD_") (seq 0 nn) ++ map (numbered "failure_") (seq 0 nn))) ++ ["alpha_bal.CL_OAS"; "fltcond|CL"; "fltcond|q"; "ac|geom|wing|S_ref"; "drag_calc.CD"; "ac|aero|CD_nonwing"]).
  { unfold group_ins, G. cbn [g_subs AerostructDragPolarExact]. rewrite flat_map_app. f_equal. rewrite flat_map_concat_map, map_map, flat_map_concat_map. reflexivity. }
  assert (GC : g_conns G = flat_map node_conns (seq 0 nn) ++ [("vec_combine.CL_OAS", "alpha_bal.CL_OAS"); ("vec_combine.CD_OAS", "drag_calc.CD")]) by reflexivity.
  unfold Model_Net.setup.
  replace (forallb (fun s => promos_ok (gs_pin s) (gs_ins s) && promos_ok (gs_pout s) (gs_outs s)) (g_subs G)) with true.
  2:{ symmetry. unfold G. cbn [g_subs AerostructDragPolarExact]. rewrite forallb_app. apply andb_true_iff. split; [|reflexivity].
      apply forallb_forall. intros s Hs. apply in_map_iff in Hs. destruct Hs as ([|k] & <- & _); reflexivity. }
  replace (forallb _ (g_conns G)) with true.
  2:{ symmetry. apply forallb_forall. intros c Hc. rewrite GC in Hc. apply andb_true_iff. rewrite !mem_In, GO, GI. apply in_app_or in Hc. destruct Hc as [Hc | [<- | [<- | []]]].
      - apply in_flat_map in Hc. destruct Hc as (k & Ik & Hc). split.
        + apply in_or_app. left. apply in_flat_map. exists k. split; [exact Ik|]. destruct Hc as [<-|[<-|[<-|[]]]]; cbn; tauto.
        + apply in_or_app. right. apply in_or_app. left. assert (Q : forall st, In st ["CL_"; "CD_"; "failure_"] -> In (gname "vec_combine" [] (numbered st k)) (map (gname "vec_combine" []) (map (numbered "CL_") (seq 0 nn) ++ map (numbered "CD_") (seq 0 nn) ++ map (numbered "failure_") (seq 0 nn)))).
          { intros st Hst. apply in_map. rewrite !in_app_iff, !in_map_iff. destruct Hst as [<-|[<-|[<-|[]]]]; [left | right; left | right; right]; exists k; split; auto. }
          destruct Hc as [<-|[<-|[<-|[]]]]; [apply (Q "CL_") | apply (Q "CD_") | apply (Q "failure_")]; cbn; tauto.
      - split; rewrite !in_app_iff; cbn; tauto.
      - split; rewrite !in_app_iff; cbn; tauto. }
  replace (no_dup (group_outs G)) with true.
  2:{ symmetry. apply no_dup_NoDup. rewrite GO. apply NoDup_app.
      - apply NoDup_flat; [apply seq_NoDup | intros; apply node_outs_nodup | exact node_outs_own].
      - repeat constructor; cbn; intuition discriminate.
      - intros x Hx. apply in_flat_map in Hx. destruct Hx as ([|k] & _ & Hx); destruct Hx as [<-|[<-|[<-|[<-|[]]]]]; cbn [In]; intros H; repeat (destruct H as [H|H]; [discriminate H|]); exact H. }
  replace (no_dup (map snd (g_conns G))) with true; [reflexivity|].
  symmetry. apply no_dup_NoDup. rewrite GC, map_app. apply NoDup_app.
  - replace (map snd (flat_map node_conns (seq 0 nn))) with (flat_map (fun k => map snd (node_conns k)) (seq 0 nn)).
    2:{ generalize (seq 0 nn). induction l as [|k l IH]; [reflexivity|]. cbn [flat_map]. rewrite IH, map_app. reflexivity. }
    apply NoDup_flat; [apply seq_NoDup | |].
    + intros k _. repeat constructor; cbn; intuition discriminate.
    + intros k k' x H H'. cbn [map snd node_conns In] in H, H'. destruct H as [<-|[<-|[<-|[]]]]; destruct H' as [H'|[H'|[H'|[]]]]; try discriminate H'; apply append_inj, numbered_inj in H'; congruence.
  - repeat constructor; cbn; intuition discriminate.
  - intros x Hx. apply in_map_iff in Hx. destruct Hx as (c & <- & Hc). apply in_flat_map in Hc. destruct Hc as (k & _ & Hc).
    destruct Hc as [<-|[<-|[<-|[]]]]; cbn [In snd map]; intros H; repeat (destruct H as [H|H]; [discriminate H|]); exact H.
Qed.
Print Assumptions C85_connected.

(** The component that collects the nodes accepts its relations. *)
Theorem C85_collects : forall nn, cs_setup [combine_rel nn "CL_OAS" "CL_"; combine_rel nn "CD_OAS" "CD_"; combine_rel nn "failure" "failure_"] = Ok tt.
Proof.
  intros nn. apply cs_setup_iff. split.
  - repeat (apply List.Forall_cons || apply List.Forall_nil); unfold cs_wf; cbn; rewrite repeat_length, map_length, seq_length; reflexivity.
  - cbn [concat map combine_rel cs_one cs_many].
    assert (N : forall st, NoDup (map (numbered st) (seq 0 nn))).
    { intros st. apply FinFun.Injective_map_NoDup; [intros k k' H; exact (numbered_inj _ _ _ H) | apply seq_NoDup]. }
    assert (D : forall st x, In x (map (numbered st) (seq 0 nn)) -> exists k, x = String.append st (digits (Nat.to_uint k))).
    { intros st x H. apply in_map_iff in H. destruct H as (k & <- & _). exists k. reflexivity. }
    rewrite app_nil_r.
    assert (X : forall o1 o2 o3 s1 s2 s3, (s1, s2, s3) = ("CL_", "CD_", "failure_") -> (o1, o2, o3) = ("CL_OAS", "CD_OAS", "failure") ->
       NoDup ((o1 :: map (numbered s1) (seq 0 nn)) ++ (o2 :: map (numbered s2) (seq 0 nn)) ++ (o3 :: map (numbered s3) (seq 0 nn)))).
    { intros o1 o2 o3 s1 s2 s3 [= -> -> ->] [= -> -> ->].
      assert (B : forall k s, String.append "OAS" s <> digits (Nat.to_uint k)) by (intros k s H; destruct (Nat.to_uint k); discriminate H).
      apply NoDup_app; [|apply NoDup_app|].
      - constructor; [|apply N]. intros H. apply D in H. destruct H as [k H]. injection H as H. exact (B k "" H).
      - constructor; [|apply N]. intros H. apply D in H. destruct H as [k H]. injection H as H. exact (B k "" H).
      - constructor; [|apply N]. intros H. apply D in H. destruct H as [k H]. discriminate H.
      - intros x [<-|Hx] [H|H]; try discriminate H; try (apply D in H; destruct H as [k H]; discriminate H).
        + apply D in Hx. destruct Hx as [k ->]. discriminate H.
        + apply D in Hx. destruct Hx as [k ->]. apply D in H. destruct H as [k' H]. discriminate H.
      - intros x Hx H. apply in_app_or in H. destruct Hx as [<-|Hx].
        + destruct H as [[H|H]|[H|H]]; try discriminate H; apply D in H; destruct H as [k H]; discriminate H.
        + apply D in Hx. destruct Hx as [k ->]. destruct H as [[H|H]|[H|H]]; try discriminate H; apply D in H; destruct H as [k' H]; discriminate H. }
    apply (X "CL_OAS" "CD_OAS" "failure" "CL_" "CD_" "failure_" eq_refl eq_refl).
Qed.
Print Assumptions C85_collects.

(** At a training point the two aerostructural polars agree: same wing and day, the surrogate
    reproduces its table, and the table has not been made for other inputs. *)
Theorem C85_agrees : forall T es nn nn' o g V W i k a b c,
  AerostructDragPolar T es nn o = Ok g -> solution g V -> positive_tol OASData o -> usable OASData (t_struct T) o es V -> flat_map inputs_of es = [] ->
  interpolates T (values (o_Mach o)) (values (o_alpha o)) (values (o_alt o)) -> of_design (t_struct T) o ->
  solution (AerostructDragPolarExact T nn' o) W -> same_inputs OASData o V W -> (i < nn)%nat -> (k < nn')%nat -> in_grid o a b c ->
  V "fltcond|M" i = nth a (values (o_Mach o)) 0 -> V "alpha_bal.alpha" i = nth b (values (o_alpha o)) 0 -> V "fltcond|h" i = nth c (values (o_alt o)) 0 ->
  W "fltcond|M" k = V "fltcond|M" i -> W "fltcond|alpha" k = V "alpha_bal.alpha" i -> W "fltcond|h" k = V "fltcond|h" i ->
  W "fltcond|q" k = V "fltcond|q" i -> W "ac|geom|wing|S_ref" 0%nat = V "ac|geom|wing|S_ref" 0%nat -> W "ac|aero|CD_nonwing" 0%nat = V "ac|aero|CD_nonwing" 0%nat ->
  W "fltcond|CL" k = V "fltcond|CL" i /\ W "drag" k = V "drag" i /\ W "failure" k = V "failure" i.
Proof.
  intros T es nn nn' o g V W i k a b c H S TP U NE Int OD SW SI Hi Hk Gr EM Ea Eh WM Wa Wh Wq WS WC.
  destruct (C81_aerostruct_drag T es nn o g V H S TP U) as (x0 & CLt & CDt & Ft & _ & [I0 | I0] & TL & TD & TF & _ & Q); [|rewrite NE in I0; destruct I0].
  destruct (Q i Hi) as (Q1 & Q2 & Q3). cbv beta zeta in Q1, Q2, Q3. rewrite EM, Ea, Eh in Q1, Q2, Q3.
  assert (Gr' := Gr). destruct Gr' as (G1 & G2 & G3). rewrite Int in Q1, Q2, Q3 by assumption.
  destruct (TL a b c Gr) as (r & A & B). destruct (TD a b c Gr) as (r' & A' & B'). rewrite A in A'. injection A' as <-. destruct (TF a b c Gr) as (r' & A' & B''). rewrite A in A'. injection A' as <-.
  destruct (C85_nodes T nn' o W SW k Hk) as (y & r' & D & E & F1 & F2 & F3 & _).
  assert (r' = r).
  { rewrite WM, Wa, Wh, EM, Ea, Eh in E. unfold analysed in A. rewrite (OD x0 y) in A; [congruence|].
    intros z n j Hz Hj. rewrite (I0 z n j Hz Hj), (SI z n j Hz Hj), (D z n Hz). reflexivity. }
  subst r'. split; [lra|]. split; [|lra]. rewrite F2, Q3, B', Wq, WS, WC. reflexivity.
Qed.
Print Assumptions C85_agrees.

(** Two nodes at different speeds: a wing whose lift rises with the angle of attack and the speed. *)
Definition plate : analysis := fun nx ny s x M al h =>
  Some {| a_out := fun f => if String.eqb f "CL_train" then x "fltcond|TempIncrement" 0%nat + al + M else if String.eqb f "CD_train" then 1 + al else M; a_d := fun _ _ _ => 0 |}.
Definition plate_tools : tools := {| t_vlm := plate; t_struct := plate; t_rotate := fun _ _ m _ => m; t_spline := fun _ _ f j => f j;
  t_surrogate := fun _ _ _ t _ al _ => t 0%nat 0%nat 0%nat |}.
Definition plate_values : env := fun x k =>
  match assoc x [("fltcond|TempIncrement", 10); ("fltcond|M", INR (k + 1)); ("fltcond|h", 0); ("fltcond|CL", 12); ("fltcond|alpha", 1 - INR k); ("fltcond|q", 3); ("ac|geom|wing|S_ref", 4);
    ("aerostruct_0.fltcond|CL", 12); ("aerostruct_0.fltcond|CD", 2); ("aerostruct_0.failure", 1); ("ac|weights|W_wing", 1);
    ("aerostruct_1.fltcond|CL", 12); ("aerostruct_1.fltcond|CD", 1); ("aerostruct_1.failure", 2); ("aerostruct_1.ac|weights|W_wing", 2);
    ("vec_combine.CL_OAS", 12); ("vec_combine.CD_OAS", 2 - INR k); ("failure", INR (k + 1)); ("ac|aero|CD_nonwing", 5); ("drag", 3 * 4 * (2 - INR k + 5))] with
  | Some v => v | None => 1 end.
Example C85_case : solution (AerostructDragPolarExact plate_tools 2 (one_point 2 (1/2))) plate_values /\ of_design plate (one_point 2 (1/2)) /\
  plate_values "drag" 0%nat <> plate_values "drag" 1%nat.
Proof.
  split; [|split].
  - intros s [<-|[<-|[<-|[<-|[<-|[]]]]]].
    + eexists. split; [reflexivity|]. cbn. repeat split; lra.
    + eexists. split; [reflexivity|]. cbn. repeat split; lra.
    + intros out stem H i Hi. assert (i = 0 \/ i = 1)%nat as [-> | ->] by lia; destruct H as [[= <- <-]|[[= <- <-]|[[= <- <-]|[]]]]; cbn; lra.
    + intros i Hi. reflexivity.
    + intros f k F i E Hi. cbn in E. destruct (String.eqb_spec f "drag") as [->|N]; [|discriminate E]. injection E as <- <-. cbn. ring.
  - intros x y M al h H. unfold plate. rewrite (H "fltcond|TempIncrement" 1%nat 0%nat); [reflexivity | cbn; tauto | lia].
  - cbn. lra.
Qed.

(** Derivatives of the drag in the three groups. *)
Theorem C85_drag_partials : forall n E C, (0 < n)%nat -> In C [VLMDrag true; VLMDrag false; AerostructDrag; ExactDrag] -> jac_correct n C E.
Proof.
  intros n E C Hn [<-|[<-|[<-|[<-|[]]]]]; to_node.
  - generalize (node (VLMDrag true) E i). intros e. split_jac VLMDrag; auto_derive; auto; ring.
  - generalize (node (VLMDrag false) E i). intros e. split_jac VLMDrag; auto_derive; auto; ring.
  - generalize (node AerostructDrag E i). intros e. split_jac AerostructDrag; auto_derive; auto; ring.
  - generalize (node ExactDrag E i). intros e. split_jac ExactDrag; auto_derive; auto; ring.
Qed.
Print Assumptions C85_drag_partials.
