(** * MatrixMeaning: the forms of the matrix and table results used by the property file. *)
From Verif Require Import Base Spec BaseFacts Matrix Solve SolverSpec MatrixProofs LinFacts DirectProofs
  ChunkProofs SolveProofs CombineProofs TableProofs EnumProofs EnumBlock EnumSolve PosProofs.
Open Scope Z_scope.

Lemma pos_front_iff row column g p : inb row column p -> (pos_front row column g p = true <-> front_number row column g p /\ 0 < cell g p).
Proof.
  intros Hp. unfold pos_front. rewrite !andb_true_iff, existsb_exists. unfold front_number, number. split.
  - intros [[H1 H2] (q & Hq & Hc)]. destruct p as [i j], q as [a b]. apply in_zone in Hq as (A & B). split; [|lia]. split; auto. split; [lia|]. exists (a, b). split; auto. split; auto. lia.
  - intros ((_ & H1 & q & Hq & Hn & Hc) & H2). split; [split; lia|]. exists q. split; [|lia]. destruct p as [i j], q as [a b]. apply in_zone. auto.
Qed.
Theorem refresh_matrix_meaning : forall row column g, rect row column g -> (0 < row)%nat ->
  exists B, refresh_matrix g = Ok B /\ wf B /\
    (forall q, In q (vars B) <-> inb row column q /\ cell g q = 10 /\
       exists n, front_number row column g n /\ 0 < cell g n /\ near n q) /\
    (forall v, sat v B <-> forall n, front_number row column g n -> 0 < cell g n -> number_ok row column g v n).
Proof.
  intros row column g Hr H0. destruct (refresh_matrix_ok Hr H0) as (B & E & D). exists B. split; auto.
  assert (Hf : forall n, In n (filter (pos_front row column g) (positions row column)) <-> front_number row column g n /\ 0 < cell g n).
  { intros n. rewrite filter_In, in_positions. split.
    - intros [H1 H2]. now apply pos_front_iff in H2.
    - intros [H1 H2]. assert (inb row column n) by apply H1. split; auto. now apply pos_front_iff. }
  split; [|split].
  - destruct D as (Nd & _ & He). split; auto. rewrite He, Forall_map. apply Forall_forall. intros n _. split; cbn; [apply map_length|]. rewrite Forall_map. apply Forall_forall. intros q _. destruct (nearb n q); auto.
  - intros q. destruct D as (_ & HI & _). rewrite HI. split; intros (H1 & H2 & n & H3); (split; [auto|split; [auto|]]); exists n.
    + destruct H3 as [H3 H4]. apply Hf in H3. tauto.
    + split; [apply Hf; tauto|tauto].
  - intros v. rewrite (describes_sat H0 v D).
    + rewrite Forall_forall. split; [intros H n H1 H2; apply H, Hf; auto|intros H n Hn; apply Hf in Hn; apply H; tauto].
    + apply Forall_forall. intros n Hn. apply Hf in Hn as [(H1 & H2 & _) _]. auto.
Qed.

Theorem refresh_matrixs_meaning : forall row column g, rect row column g -> (0 < row)%nat ->
  exists bl k1 k2, refresh_matrixs g = Ok (bl, k1, k2) /\
    (forall q, In q (concat (map vars bl)) <-> front_cell row column g q) /\
    (forall v, sats v bl <-> forall n, front_number row column g n -> number_ok row column g v n) /\
    (forall v m0, consistent row column g m0 ->
       (sats v bl <-> consistent row column g (fun p => flaggedb g p || coveredb g p && v p))).
Proof.
  intros row column g Hr H0. destruct (refresh_blocks Hr H0) as (bl & k1 & k2 & E & _ & _ & _ & C & S). exists bl, k1, k2.
  split; auto. split; auto. split; auto. intros v m0 Hm0. rewrite S. split.
  - intros H. exact (fill_consistent Hm0 H).
  - intros H n Hn. pose proof (consistent_front H Hn) as K. unfold number_ok in *. rewrite K. do 2 f_equal. unfold adj_count. apply count_ext. intros q _. unfold coveredb, flaggedb.
    destruct (Z.eqb_spec (cell g q) 10), (Z.eqb_spec (cell g q) 11), (adjb n q); cbn; auto; lia.
Qed.

Theorem refresh_matrixs_partition : forall row column g, rect row column g -> (0 < row)%nat ->
  exists bl k1 k2 numss, refresh_matrixs g = Ok (bl, k1, k2) /\
    Forall2 (describes row column g) numss bl /\
    NoDup (concat numss) /\ (forall n, In n (concat numss) <-> front_number row column g n) /\
    NoDup (concat (map vars bl)) /\ (forall q, In q (concat (map vars bl)) <-> front_cell row column g q) /\
    k1 = count (fun p => (cell g p =? 10) && negb (existsb (fun q => cell g q <? 10) (zone row column (fst p) (snd p)))) (positions row column) /\
    k2 = count (fun p => cell g p =? 11) (positions row column).
Proof.
  intros row column g Hr H0. destruct (refresh_matrixs_ok Hr H0) as (bl & numss & E & F & Hne & P & Hsep).
  destruct (refresh_blocks Hr H0) as (bl2 & k1 & k2 & E2 & _ & _ & Nd & C & _). rewrite E2 in E. injection E as -> -> ->.
  exists bl, (count (innerb row column g) (positions row column)), (count (fun p => cell g p =? 11) (positions row column)), numss.
  split; auto. split; auto. split; [eapply Permutation_NoDup; [symmetry; exact P|apply NoDup_filter, NoDup_positions]|]. split.
  - intros n. split; intros Hn.
    + eapply Permutation_in in Hn; [|exact P]. apply filter_In in Hn as [H1 H2]. apply in_positions in H1. now apply front_numberb_iff in H2.
    + eapply Permutation_in; [symmetry; exact P|]. apply filter_In. split; [apply in_positions, Hn|]. apply front_numberb_iff; auto. apply Hn.
  - auto.
Qed.

Lemma length_subs {A} (l : list A) : length (subs l) = (2 ^ length l)%nat.
Proof. induction l as [|a l IH]; auto. cbn [subs length Nat.pow]. rewrite app_length, map_length, IH. lia. Qed.
Theorem n_sol_small : forall B k, (n_sol B k <= 2 ^ length (vars B))%nat.
Proof.
  intros B k. unfold n_sol. etransitivity; [apply count_le|]. unfold solutions. rewrite <- length_subs. clear.
  induction (subs (vars B)) as [|s l IH]; cbn [filter length]; [lia|]. destruct (satb _ _); cbn [length]; lia.
Qed.

Theorem table_meaning : forall B, good (vars B) (eqs B) -> eqs B <> [] -> Forall (fun e => 0 <= snd e) (eqs B) ->
  exists A x groups, combine_cells (map fst (eqs B)) (vars B) = Ok (A, x, groups) /\
  ((length groups <= ENUM_LIMIT)%nat ->
   (solutions B = [] /\ cal_table_minenum_recursion A x (map snd (eqs B)) groups = Err 1) \/
   exists table, cal_table_minenum_recursion A x (map snd (eqs B)) groups = Ok table /\
     (forall k c cells, In (k, c, cells) table ->
        c = n_sol B k /\ length cells = length groups /\
        forall j q, (j < length groups)%nat -> In q (nth j groups []) -> nth j cells 0%nat = n_sol_at B k (nth q (vars B) (0, 0)%nat)) /\
     (forall k, n_sol B k <> 0%nat -> In k (map (fun l => fst (fst l)) table)) /\
     NoDup (map (fun l => fst (fst l)) table)).
Proof.
  intros B Hg Hne Hp. do 3 eexists. split; [apply (combine_B Hg)|]. intros Hl.
  destruct (@block_table B Hg Hne Hp Hl) as [H|(Hs & lo & c0 & E & Hc & Hout)]; [left; exact H|right].
  exists (map (line B) (seq lo c0)). split; [exact E|].
  assert (Ek : map (fun l => fst (fst l)) (map (line B) (seq lo c0)) = seq lo c0) by (rewrite map_map; cbn; apply map_id).
  rewrite Ek. split; [|split].
  - intros k c cells Hin. apply in_map_iff in Hin as (k' & El & _). unfold line in El. injection El as <- <- <-. split; auto. split; [now rewrite map_length|].
    intros j q Hj Hq. rewrite (@nth_map_lt _ _ _ _ j 0%nat []) by auto. symmetry. apply (group_cells Hg); auto. now apply nth_In.
  - intros k Hk. apply in_seq. destruct (Nat.lt_ge_cases k lo); [rewrite Hout in Hk by auto; lia|]. destruct (Nat.le_gt_cases (lo + c0) k); [rewrite Hout in Hk by auto; lia|lia].
  - apply seq_NoDup.
Qed.

Lemma sumz_concat {A} (f : A -> Z) ll : sumz f (concat ll) = sumz (fun l => sumz f l) ll.
Proof. induction ll as [|l ll IH]; auto. cbn [concat sumz]. now rewrite sumz_app, IH. Qed.
Lemma dot_nth r x v : length r = length x -> dot r x v = sumz (fun j => nth j r 0 * b2z (v (nth j x (0, 0)%nat))) (seq 0 (length x)).
Proof.
  revert x; induction r as [|c r IH]; intros [|p x] H; cbn in H; try lia; auto. cbn [dot length]. rewrite IH by lia. rewrite <- cons_seq, <- seq_shift. cbn [sumz nth].
  f_equal. clear. induction (seq 0 (length x)) as [|j l IH]; auto. cbn [sumz map nth]. now rewrite IH.
Qed.
Theorem combine_meaning : forall (A : list (list Z)) (x : list pos), Forall (fun r => length r = length x) A ->
  exists A' x' groups, combine_cells A x = Ok (A', x', groups) /\
    Permutation (concat groups) (seq 0 (length x)) /\
    (forall g i j, In g groups -> In i g -> (j < length x)%nat ->
       (In j g <-> forall r, In r A -> nth i r 0 = nth j r 0)) /\
    length x' = length groups /\ length A' = length A /\
    (forall k, (k < length groups)%nat -> exists h, hd_error (nth k groups []) = Some h /\ nth k x' (0, 0)%nat = nth h x (0, 0)%nat /\
       forall i, (i < length A)%nat -> nth k (nth i A' []) 0 = nth h (nth i A []) 0 * Z.of_nat (length (nth k groups []))) /\
    (forall r v, In r A -> dot r x v = sumz (fun g => nth (hd 0%nat g) r 0 * Z.of_nat (count (fun j => v (nth j x (0, 0)%nat)) g)) groups).
Proof.
  intros A x HA. set (n := length x). do 3 eexists. split; [apply combine_cells_ok with (n := n); auto|].
  pose proof (groups_partition A n) as P. split; auto. 
  assert (Hsame : forall k i, In k (reps A n) -> In i (group A n k) -> (k < n)%nat /\ (i < n)%nat /\ same_col A k i = true).
  { intros k i Hk Hi. apply In_reps in Hk as [Hk _]. apply In_group in Hi as [->|[Hi E]]; repeat split; auto; try lia. apply same_col_refl. }
  split; [|split; [|split; [|split]]].
  - intros g i j Hg Hi Hj. apply in_map_iff in Hg as (k & <- & Hk). destruct (Hsame k i Hk Hi) as (Kn & In_ & Ei). rewrite <- same_col_spec. split.
    + intros Hj'. destruct (Hsame k j Hk Hj') as (_ & _ & Ej). eapply same_col_trans; [rewrite same_col_sym; exact Ei|exact Ej].
    + intros E. assert (Ej : same_col A k j = true) by (eapply same_col_trans; eauto). apply In_group. apply In_reps in Hk as [_ Hmin].
      destruct (Nat.lt_trichotomy j k) as [Hl|[Hl|Hl]]; auto. rewrite same_col_sym, Hmin in Ej; auto. discriminate.
  - unfold sel. now rewrite !map_length.
  - unfold squeezed. now rewrite map_length.
  - intros k Hk. rewrite map_length in Hk. exists (nth k (reps A n) 0%nat). rewrite (@nth_map_lt _ _ _ (reps A n) k [] 0%nat) by auto. split; [reflexivity|]. split.
    + unfold sel. now rewrite (@nth_map_lt _ _ _ (reps A n) k _ 0%nat).
    + intros i Hi. unfold squeezed. rewrite (@nth_map_lt _ _ _ A i [] []) by auto. now rewrite (@nth_map_lt _ _ _ (reps A n) k 0 0%nat).
  - intros r v Hr. rewrite Forall_forall in HA. rewrite dot_nth by auto. fold n. rewrite <- (sumz_perm _ P), sumz_concat.
    assert (E : forall ks, (forall k, In k ks -> In k (reps A n)) -> sumz (fun l => sumz (fun j => nth j r 0 * b2z (v (nth j x (0, 0)%nat))) l) (map (group A n) ks) =
        sumz (fun g => nth (hd 0%nat g) r 0 * Z.of_nat (count (fun j => v (nth j x (0, 0)%nat)) g)) (map (group A n) ks)).
    { induction ks as [|k ks IH]; intros H; auto. cbn [map sumz]. rewrite IH by (intros; apply H; now right). f_equal.
      assert (Hk : In k (reps A n)) by (apply H; now left).
      rewrite (@sumz_ext _ _ (fun j => nth k r 0 * b2z (v (nth j x (0, 0)%nat)))).
      - rewrite sumz_scale, sumz_count. reflexivity.
      - intros j Hj. destruct (Hsame k j Hk Hj) as (_ & _ & Ej). rewrite same_col_spec in Ej. now rewrite (Ej r Hr). }
    apply E. auto.
Qed.

(** ** good_system *)
Lemma sumz_coef_count x a : NoDup x -> length a = length x -> Forall (fun c => c = 0 \/ c = 1) a ->
  sumz (coef a x) x = Z.of_nat (count (Z.eqb 1) a).
Proof.
  revert a; induction x as [|p x IH]; intros [|c a] Nd Hl Ha; cbn in Hl; try lia; auto.
  inversion Nd; subst. inversion Ha; subst. rewrite count_cons. cbn [sumz coef]. rewrite posb_refl.
  rewrite (@sumz_ext _ _ (coef a x)).
  - rewrite IH by (auto; lia). destruct (Z.eqb_spec 1 c); lia.
  - intros q Hq. destruct (posb_spec p q); [subst; contradiction|auto].
Qed.
Lemma good_system_block B : good_system B -> good_block B.
Proof.
  intros ([Hw Nd] & Hne & Hc & He). split; auto.
  assert (Hwe : Forall (wfe (vars B)) (eqs B)) by (eapply Forall_impl; [|exact Hw]; intros e Hx; now apply wf_eq_wfe).
  rewrite Forall_forall in *. constructor; auto.
  - now apply Forall_forall.
  - intros q Hq. apply (In_nth _ _ (0, 0)%nat) in Hq as (k & Hk & <-). destruct (Hc k Hk) as (e & Hi & E). exists e. split; auto. rewrite coef_nth; auto. apply (Hw e Hi).
  - apply Forall_forall. intros e Hi. unfold light. destruct (Hw e Hi) as [Hl Hb]. rewrite sumz_coef_count; auto. destruct (He e Hi). lia.
  - apply Forall_forall. intros e Hi. destruct (He e Hi) as [H1 _]. destruct (Hw e Hi) as [Hl Hb].
    apply (In_nth _ _ 0) in H1 as (k & Hk & E). exists (nth k (vars B) (0, 0)%nat). split; [apply nth_In; lia|]. rewrite coef_nth; auto. lia.
Qed.
Lemma good_block_system B : good_block B -> good_system B.
Proof.
  intros [[Nd Hwe Hc Hl Hz] Hne].
  assert (Hw : Forall (wf_eq (length (vars B))) (eqs B)) by (eapply Forall_impl; [|exact Hwe]; intros e Hx; now apply wf_eq_wfe).
  split; [split; auto|]. split; auto. rewrite Forall_forall in *. split.
  - intros k Hk. destruct (Hc (nth k (vars B) (0, 0)%nat)) as (e & Hi & E); [now apply nth_In|]. exists e. split; auto. rewrite coef_nth in E; auto. apply (Hw e Hi).
  - intros e Hi. destruct (Hw e Hi) as [Hlen Hb]. split.
    + destruct (Hz e Hi) as (q & Hq & E). apply (In_nth _ _ (0, 0)%nat) in Hq as (k & Hk & <-). rewrite coef_nth in E; auto. rewrite <- E. apply nth_In. lia.
    + specialize (Hl e Hi). unfold light in Hl. rewrite sumz_coef_count in Hl; auto. lia.
Qed.
