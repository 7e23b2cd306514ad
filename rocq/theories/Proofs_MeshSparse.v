(** Lemmas on Jacobians given by rows and columns. *)
From Coq Require Import Reals List Bool PeanoNat Lia Lra.
From Verif Require Import RSum Py Model_Algebra Model_Vectors Model_Aero Model_Mesh Spec_Mesh Proofs_Mesh.
Import ListNotations.
Open Scope R_scope.

Lemma assembled_app a b r c : assembled (app a b) r c = assembled a r c + assembled b r c.
Proof. induction a as [|e a IH]; cbn [app assembled]; [ring|]. rewrite IH. ring. Qed.
Lemma assembled_flat_map f n r c : assembled (flat_map f (seq 0 n)) r c = rsum n (fun i => assembled (f i) r c).
Proof.
  induction n as [|n IH]; [reflexivity|]. rewrite seq_S, flat_map_app, assembled_app, IH. cbn [flat_map rsum]. rewrite app_nil_r. reflexivity.
Qed.
Lemma assembled_seq row col val a n r c :
  assembled (map (fun jj => (row jj, col, val jj)) (seq a n)) r c = rsum n (fun q => if Nat.eqb (row (a + q)%nat) r && Nat.eqb col c then val (a + q)%nat else 0).
Proof.
  induction n as [|n IH]; [reflexivity|]. rewrite seq_S, map_app, assembled_app, IH. cbn [map assembled rsum]. unfold row_of, col_of. cbn [fst snd]. ring.
Qed.
Lemma assembled_scale k L r c : assembled (map (fun e => (fst e, snd e * k)) L) r c = assembled L r c * k.
Proof. induction L as [|e L IH]; cbn [map assembled]; [ring|]. rewrite IH. unfold row_of, col_of. cbn [fst snd]. destruct (_ && _); ring. Qed.
Lemma map_flat (A B C : Type) (F : B -> C) (g : A -> list B) L : map F (flat_map g L) = flat_map (fun x => map F (g x)) L.
Proof. induction L as [|a L IH]; [reflexivity|]. cbn [flat_map]. now rewrite map_app, IH. Qed.
(** Entries on one column of the Jacobian, for consecutive rows. *)
Lemma assembled_rows st col val a n j c :
  assembled (map (fun jj => ((st + jj)%nat, col, val jj)) (seq a n)) j c = if (Nat.leb (st + a) j && Nat.ltb j (st + a + n)) && Nat.eqb c col then val (j - st)%nat else 0.
Proof.
  rewrite (assembled_seq (fun jj => (st + jj)%nat)). destruct (Nat.eqb_spec c col) as [->|N].
  - rewrite Nat.eqb_refl. destruct (Nat.leb_spec (st + a) j) as [H|H]; cbn [andb]; [destruct (Nat.ltb_spec j (st + a + n)) as [H2|H2]|].
    + rewrite (rsum_one _ _ (j - st - a)%nat); [|lia|intros q Hq Hn; destruct (Nat.eqb_spec (st + (a + q)) j); [lia|reflexivity]].
      replace (st + (a + (j - st - a)))%nat with j by lia. rewrite Nat.eqb_refl. cbn [andb]. f_equal. lia.
    + apply rsum_zero. intros q Hq. destruct (Nat.eqb_spec (st + (a + q)) j); [lia|reflexivity].
    + apply rsum_zero. intros q Hq. destruct (Nat.eqb_spec (st + (a + q)) j); [lia|reflexivity].
  - rewrite andb_false_r. apply rsum_zero. intros q Hq. destruct (Nat.eqb_spec col c); [congruence|]. now rewrite andb_false_r.
Qed.
Lemma flat_eqb ny ix j ix' j' d : (j < ny)%nat -> (j' < ny)%nat -> (d < 3)%nat -> Nat.eqb (flat ny ix' j' 0) (flat ny ix j d) = Nat.eqb d 0 && (Nat.eqb ix' ix && Nat.eqb j' j).
Proof.
  intros H H' Hd. destruct (Nat.eqb_spec (flat ny ix' j' 0) (flat ny ix j d)) as [E|E].
  - destruct (flat_div ny ix j d H Hd) as (A1 & A2 & A3). destruct (flat_div ny ix' j' 0 H' ltac:(lia)) as (B1 & B2 & B3). rewrite <- E in A1, A2, A3. rewrite B1 in A1. rewrite B2 in A2. rewrite B3 in A3. subst. now rewrite !Nat.eqb_refl.
  - destruct (Nat.eqb_spec d 0) as [->|]; [|reflexivity]. destruct (Nat.eqb_spec ix' ix) as [->|]; [|reflexivity]. destruct (Nat.eqb_spec j' j) as [->|]; [congruence|reflexivity].
Qed.
(** Entries on one column of the Jacobian, for the x coordinates of the points of a region. *)
Lemma assembled_points ny nx st col val a n ix j d c : (j < ny)%nat -> (st + a + n <= ny)%nat -> (d < 3)%nat -> (ix < nx)%nat ->
  assembled (map (fun p => (flat ny (fst p) (st + snd p) 0, col, val (snd p))) (flat_map (fun i => map (fun jj => (i, jj)) (seq a n)) (seq 0 nx))) (flat ny ix j d) c
  = if Nat.eqb d 0 && (Nat.leb (st + a) j && Nat.ltb j (st + a + n)) && Nat.eqb c col then val (j - st)%nat else 0.
Proof.
  intros Hj Hn Hd Hi. rewrite map_flat, assembled_flat_map.
  rewrite (rsum_ext nx _ (fun i => if Nat.eqb i ix then (if Nat.eqb d 0 && (Nat.leb (st + a) j && Nat.ltb j (st + a + n)) && Nat.eqb c col then val (j - st)%nat else 0) else 0)).
  - rewrite (rsum_one _ _ ix); [now rewrite Nat.eqb_refl|assumption|]. intros q _ Hq. destruct (Nat.eqb_spec q ix); [congruence|reflexivity].
  - intros i _. rewrite map_map. cbn [fst snd]. rewrite (assembled_seq (fun jj => flat ny i (st + jj) 0)).
    transitivity (rsum n (fun q => if Nat.eqb i ix && Nat.eqb d 0 then (if Nat.eqb (st + (a + q)) j && Nat.eqb col c then val (a + q)%nat else 0) else 0)).
    { apply rsum_ext. intros q Hq. rewrite flat_eqb by lia. destruct (Nat.eqb d 0), (Nat.eqb i ix); reflexivity. }
    destruct (Nat.eqb i ix), (Nat.eqb d 0); cbn [andb]; try (apply rsum_zero; reflexivity).
    rewrite <- (assembled_seq (fun jj => (st + jj)%nat)). apply assembled_rows.
Qed.

(** ** No row and column given twice *)
Definition ones (L : list entry) : list entry := map (fun e => (fst e, 1)) L.
Lemma pair_dec (p q : nat * nat) : {p = q} + {p <> q}.
Proof. decide equality; apply Nat.eq_dec. Qed.
Lemma ones_count L r c : assembled (ones L) r c = INR (count_occ pair_dec (map fst L) (r, c)).
Proof.
  induction L as [|[[r' c'] v] L IH]; [reflexivity|]. unfold ones in *. cbn [map assembled count_occ fst snd]. unfold row_of, col_of. cbn [fst snd]. rewrite IH.
  destruct (pair_dec (r', c') (r, c)) as [E|E].
  - injection E as -> ->. rewrite !Nat.eqb_refl. cbn [andb]. rewrite S_INR. ring.
  - destruct (Nat.eqb_spec r' r) as [->|]; cbn [andb]; [|ring]. destruct (Nat.eqb_spec c' c) as [->|]; [congruence|ring].
Qed.
Lemma no_duplicates L : (forall r c, assembled (ones L) r c < 2) -> NoDup (map fst L).
Proof.
  intro H. apply (NoDup_count_occ pair_dec). intros [r c]. specialize (H r c). rewrite ones_count in H. apply (INR_lt _ 2) in H. lia.
Qed.
Lemma assembled_points_out ny nx st col val a n ix j d c : (j < ny)%nat -> (st + a + n <= ny)%nat -> (d < 3)%nat -> (nx <= ix)%nat ->
  assembled (map (fun p => (flat ny (fst p) (st + snd p) 0, col, val (snd p))) (flat_map (fun i => map (fun jj => (i, jj)) (seq a n)) (seq 0 nx))) (flat ny ix j d) c = 0.
Proof.
  intros Hj Hn Hd Hi. rewrite map_flat, assembled_flat_map. apply rsum_zero. intros i H. rewrite map_map. cbn [fst snd]. rewrite (assembled_seq (fun jj => flat ny i (st + jj) 0)). apply rsum_zero. intros q Hq.
  rewrite flat_eqb by lia. destruct (Nat.eqb_spec i ix); [lia|]. cbn [andb]. now rewrite andb_false_r.
Qed.
Lemma flat_split ny r : (0 < ny)%nat -> exists ix j d, (j < ny)%nat /\ (d < 3)%nat /\ r = flat ny ix j d.
Proof.
  intro H. exists (r / 3 / ny)%nat, ((r / 3) mod ny)%nat, (r mod 3)%nat. split; [apply Nat.mod_upper_bound; lia|]. split; [apply Nat.mod_upper_bound; lia|]. unfold flat.
  pose proof (Nat.div_mod r 3 ltac:(lia)). pose proof (Nat.div_mod (r / 3) ny ltac:(lia)). nia.
Qed.
