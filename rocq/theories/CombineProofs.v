(** * CombineProofs: combine merges exactly the columns that are equal. *)
From Verif Require Import Base Spec BaseFacts Matrix Solve SolverSpec MatrixProofs LinFacts ChunkProofs SolveProofs.
Open Scope Z_scope.

Lemma Forall2_map_self {X Y} (P : X -> Y -> Prop) f l : (forall a, In a l -> P a (f a)) -> Forall2 P l (map f l).
Proof. induction l; cbn; constructor; auto. Qed.

Section Combine.
Variables (A : list (list Z)) (n : nat).
Hypothesis HA : Forall (fun r => length r = n) A.

(** columns i and j agree in every row *)
Definition same_col (i j : nat) : bool := forallb (fun r => nth i r 0 =? nth j r 0) A.
Lemma same_col_spec i j : same_col i j = true <-> forall r, In r A -> nth i r 0 = nth j r 0.
Proof. unfold same_col. rewrite forallb_forall. split; intros H r Hr; specialize (H r Hr); now apply Z.eqb_eq. Qed.
Definition group (i : nat) : list nat := i :: filter (same_col i) (rng (i + 1) n).

Lemma differ_ok i j : (i < n)%nat -> (j < n)%nat -> differ A i j = Ok (negb (same_col i j)).
Proof.
  intros Hi Hj. unfold differ. rewrite (@findM_ok _ _ (fun r => negb (nth i r 0 =? nth j r 0))).
  - unfold same_col. f_equal. clear. induction A as [|r l IH]; cbn; auto. rewrite IH. now destruct (nth i r 0 =? nth j r 0).
  - intros r Hr. rewrite Forall_forall in HA. specialize (HA r Hr). rewrite (@vget_ok _ r i 0) by lia. cbn [bind]. rewrite (@vget_ok _ r j 0) by lia. reflexivity.
Qed.

Definition dropped : list nat := flat_map (fun i => filter (same_col i) (rng (i + 1) n)) (seq 0 n).
Definition mask : list bool := map (fun k => existsb (Nat.eqb k) dropped) (seq 0 n).
(** the columns that are kept: equal to no earlier column *)
Definition reps : list nat := unmarked mask.
Lemma length_mask : length mask = n. Proof. unfold mask. now rewrite map_length, seq_length. Qed.
Lemma In_dropped k : In k dropped <-> exists i, (i < k)%nat /\ (k < n)%nat /\ same_col i k = true.
Proof.
  unfold dropped. rewrite in_flat_map. split.
  - intros (i & Hi & Hk). apply filter_In in Hk as [Hk E]. apply in_rng in Hk. exists i. split; [lia|split; [lia|auto]].
  - intros (i & H1 & H2 & H3). exists i. split; [apply in_seq; lia|]. apply filter_In. split; auto. apply in_rng. lia.
Qed.
Lemma In_reps k : In k reps <-> (k < n)%nat /\ forall i, (i < k)%nat -> same_col i k = false.
Proof.
  unfold reps. rewrite In_unmarked, length_mask. split; intros [H1 H2]; split; auto.
  - intros i Hi. destruct (same_col i k) eqn:E; auto. unfold mask in H2.
    rewrite (@nth_map_seq _ _ n k false) in H2 by auto.
    assert (In k dropped) by (apply In_dropped; eauto). rewrite <- H2. symmetry. apply existsb_exists. exists k. split; auto. apply Nat.eqb_refl.
  - unfold mask. rewrite (@nth_map_seq _ _ n k false) by auto. apply not_true_iff_false. intros E. apply existsb_exists in E as (j & Hj & E).
    apply Nat.eqb_eq in E. subst j. apply In_dropped in Hj as (i & I1 & I2 & I3). rewrite H2 in I3; auto. discriminate.
Qed.
Lemma NoDup_reps : NoDup reps. Proof. apply NoDup_filter, seq_NoDup. Qed.
Lemma In_group k j : In j (group k) <-> j = k \/ (k < j < n)%nat /\ same_col k j = true.
Proof. unfold group. cbn [In]. rewrite filter_In, in_rng. intuition lia. Qed.
Lemma same_col_refl i : same_col i i = true. Proof. apply same_col_spec. auto. Qed.
Lemma same_col_sym i j : same_col i j = same_col j i.
Proof. apply eq_true_iff_eq. rewrite !same_col_spec. split; intros H r Hr; symmetry; auto. Qed.
Lemma same_col_trans i j k : same_col i j = true -> same_col j k = true -> same_col i k = true.
Proof. rewrite !same_col_spec. intros H1 H2 r Hr. rewrite H1, H2; auto. Qed.

Lemma NoDup_flat_map {X Y} (f : X -> list Y) l : NoDup l -> (forall k, In k l -> NoDup (f k)) ->
  (forall k k' j, In k l -> In k' l -> In j (f k) -> In j (f k') -> k = k') -> NoDup (flat_map f l).
Proof.
  induction 1 as [|k l Hk Hnd IH]; intros H1 H2; cbn; [constructor|]. apply NoDup_app_disj.
  - apply H1. now left.
  - apply IH; [intros; apply H1; now right|]. intros a b j Ha Hb. apply H2; now right.
  - intros j Hj Hj'. apply in_flat_map in Hj' as (k' & Hk' & Hj'). assert (k = k') by (eapply H2; eauto; [now left|now right]). subst. contradiction.
Qed.

Lemma groups_partition : Permutation (concat (map group reps)) (seq 0 n).
Proof.
  rewrite <- flat_map_concat_map. apply NoDup_Permutation; [|apply seq_NoDup|].
  - apply NoDup_flat_map; [apply NoDup_reps| |].
    + intros k _. unfold group. constructor; [|apply NoDup_filter, NoDup_rng]. intros H. apply filter_In in H as [H _]. apply in_rng in H. lia.
    + intros k k' j Hk Hk' Hj Hj'. apply In_reps in Hk as [K1 K2], Hk' as [K1' K2'].
      assert (E : same_col k j = true) by (apply In_group in Hj as [->|[_ E]]; auto using same_col_refl).
      assert (E' : same_col k' j = true) by (apply In_group in Hj' as [->|[_ E']]; auto using same_col_refl).
      assert (Ek : same_col k k' = true) by (eapply same_col_trans; [exact E|]; rewrite same_col_sym; auto).
      destruct (Nat.lt_trichotomy k k') as [Hl|[Hl|Hl]]; auto.
      * rewrite K2' in Ek by auto. discriminate.
      * rewrite same_col_sym, K2 in Ek by auto. discriminate.
  - intros j. rewrite in_flat_map, in_seq. split.
    + intros (k & Hk & Hj). apply In_reps in Hk. apply In_group in Hj. lia.
    + intros [_ Hj]. cbn in Hj.
      (* least column equal to j *)
      assert (H : forall m, (m <= j)%nat -> same_col m j = true -> exists k, In k reps /\ (k <= j)%nat /\ same_col k j = true).
      { induction m as [m IH] using lt_wf_ind. intros Hm Hs. destruct (existsb (fun i => same_col i m) (seq 0 m)) eqn:E.
        - apply existsb_exists in E as (i & Hi & Ei). apply in_seq in Hi. apply (IH i); try lia. eapply same_col_trans; eauto.
        - exists m. split; [|auto]. apply In_reps. split; [lia|]. intros i Hi. destruct (same_col i m) eqn:Ei; auto.
          rewrite <- E. symmetry. apply existsb_exists. exists i. split; auto. apply in_seq. lia. }
      destruct (H j) as (k & K1 & K2 & K3); auto using same_col_refl.
      exists k. split; auto. apply In_group. destruct (Nat.eq_dec k j); [now left|right]. split; auto. lia.
Qed.

Definition squeezed : list (list Z) := map (fun r => map (fun k => nth k r 0 * Z.of_nat (length (group k))) reps) A.

Lemma removing_cols {X} (d : X) js : forall (A1 A1' : list (list Z)) (x x' : list X) (P P' : list (list nat)),
  Forall2 (fun r r' => foldM (fun l i => vremove l i) js r = Ok r') A1 A1' ->
  foldM (fun l i => vremove l i) js x = Ok x' -> foldM (fun l i => vremove l i) js P = Ok P' ->
  foldM (fun '(A, x, pairs) i =>
               let* A := mapM (fun r => vremove r i) A in
               let* x := vremove x i in
               let* pairs := vremove pairs i in
               Ok (A, x, pairs)) js (A1, x, P) = Ok (A1', x', P').
Proof.
  induction js as [|j js IH]; intros A1 A1' x x' P P' F Hx HP; cbn [foldM] in *.
  - injection Hx as <-. injection HP as <-. do 3 f_equal. induction F; auto. injection H as <-. congruence.
  - destruct (vremove x j) as [x1| | |] eqn:Ex; try discriminate. destruct (vremove P j) as [P1| | |] eqn:EP; try discriminate. cbn [bind] in *.
    assert (E : exists A2, mapM (fun r => vremove r j) A1 = Ok A2 /\ Forall2 (fun r r' => foldM (fun l i => vremove l i) js r = Ok r') A2 A1').
    { clear - F. induction F as [|r r' l l' H F (A2 & I1 & I2)]; [exists []; auto|]. cbn [mapM].
      destruct (vremove r j) as [a1| | |]; try discriminate. cbn [bind] in *. rewrite I1. cbn [bind]. exists (a1 :: A2). auto. }
    destruct E as (A2 & E1 & E2). rewrite E1. cbn [bind]. now apply IH.
Qed.

Theorem combine_cells_ok x : length x = n -> combine_cells A x = Ok (squeezed, sel (0, 0)%nat x reps, map group reps).
Proof.
  intros Hx. unfold combine_cells. rewrite Hx.
  match goal with |- context [foldM ?F (seq 0 n) ([], [])] =>
    destruct (@foldM_inv _ _ F (fun done st => st = (map group done, flat_map (fun i => filter (same_col i) (rng (i + 1) n)) done)) (seq 0 n) ([], []))
      as (st & E & Hst) end.
  { reflexivity. }
  { intros done i rest st El ->.
    assert (Hi : (i < n)%nat). { assert (In i (seq 0 n)) by (rewrite El; apply in_app_iff; right; now left). apply in_seq in H. lia. }
    set (del := flat_map (fun i => filter (same_col i) (rng (i + 1) n)) done).
    match goal with |- context [foldM ?F (rng (i + 1) n) ([i], del)] =>
      destruct (@foldM_inv _ _ F (fun d2 st2 => st2 = (i :: filter (same_col i) d2, del ++ filter (same_col i) d2)) (rng (i + 1) n) ([i], del))
        as (st2 & E2 & Hst2) end.
    { cbn. now rewrite app_nil_r. }
    { intros d2 j r2 st2 El2 ->.
      assert (Hj : (i < j < n)%nat). { assert (In j (rng (i + 1) n)) by (rewrite El2; apply in_app_iff; right; now left). apply in_rng in H. lia. }
      rewrite differ_ok by lia. cbn [bind]. eexists. split; [reflexivity|]. rewrite filter_app. cbn [filter].
      destruct (same_col i j); cbn [negb]; rewrite ?app_nil_r, <- ?app_assoc; reflexivity. }
    rewrite E2. cbn [bind]. eexists. split; [reflexivity|]. subst st2. cbn [fst snd]. rewrite map_app, flat_map_app. cbn [map flat_map]. rewrite app_nil_r. reflexivity. }
  rewrite E. cbn [bind]. rewrite Hst. clear E Hst st. fold dropped. rewrite sort_dedup_mask. fold mask.
  rewrite (@removing_cols _ (0, 0)%nat _ A (map (fun r => sel 0 r reps) A) x (sel (0, 0)%nat x reps) (map group (seq 0 n)) (sel [] (map group (seq 0 n)) reps)).
  2:{ apply Forall2_map_self. intros r Hr. apply remove_marked0. rewrite length_mask. rewrite Forall_forall in HA. auto. }
  2:{ apply remove_marked0. now rewrite length_mask. }
  2:{ apply remove_marked0. now rewrite map_length, seq_length, length_mask. }
  cbn [bind].
  assert (Ep : sel [] (map group (seq 0 n)) reps = map group reps).
  { unfold sel. apply map_ext_in. intros k Hk. apply In_reps in Hk. now rewrite nth_map_seq by lia. }
  rewrite Ep. rewrite map_length.
  rewrite (@mapM_ok _ _ _ (fun r => map (fun i => nth i r 0 * Z.of_nat (length (nth i (map group reps) []))) (seq 0 (length reps)))).
  2:{ intros r Hr. apply in_map_iff in Hr as (r0 & <- & Hr0). apply mapM_ok. intros i Hi. apply in_seq in Hi.
      rewrite (@vget_ok _ _ i 0) by (unfold sel; rewrite map_length; lia). cbn [bind].
      rewrite (@vget_ok _ _ i []) by (rewrite map_length; lia). reflexivity. }
  cbn [bind]. do 3 f_equal. unfold squeezed. rewrite map_map. apply map_ext. intros r.
  transitivity (map (fun k => nth k r 0 * Z.of_nat (length (group k))) (sel 0%nat reps (seq 0 (length reps)))); [|f_equal; apply sel_seq].
  unfold sel. rewrite map_map. apply map_ext_in. intros i Hi. apply in_seq in Hi.
  rewrite (@nth_map_lt _ _ _ reps i 0 0%nat) by lia. rewrite (@nth_map_lt _ _ group reps i [] 0%nat) by lia. reflexivity.
Qed.
End Combine.
