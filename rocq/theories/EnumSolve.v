(** * EnumSolve: solve_enumerate finds exactly the safe cells, and mines only. *)
From Verif Require Import Base Spec BaseFacts Matrix Solve SolverSpec MatrixProofs LinFacts ChunkProofs SolveProofs CombineProofs TableProofs EnumProofs EnumBlock.
Open Scope nat_scope.

(** ** placements and solutions *)
Lemma filter_in_subs {A} (f : A -> bool) l : In (filter f l) (subs l).
Proof.
  induction l as [|a l IH]; cbn; auto. apply in_app_iff. destruct (f a); [right; now apply in_map|now left].
Qed.
Lemma dot_ext_in a x v v' : (forall p, In p x -> v p = v' p) -> dot a x v = dot a x v'.
Proof. revert x; induction a as [|c a IH]; intros [|p x] H; cbn; auto. rewrite H by now left. rewrite IH; auto. intros q Hq. apply H. now right. Qed.
Lemma sat_ext_in v v' B : (forall p, In p (vars B) -> v p = v' p) -> sat v B -> sat v' B.
Proof. intros H. unfold sat, sat_eq. rewrite !Forall_forall. intros Hs e He. rewrite <- (Hs e He). symmetry. now apply dot_ext_in. Qed.
Definition sol_of (v : placement) (B : block) : list pos := filter v (vars B).
Lemma sol_of_mem v B p : In p (vars B) -> mem_pos p (sol_of v B) = v p.
Proof.
  intros Hp. apply eq_true_iff_eq. rewrite mem_pos_true. unfold sol_of. rewrite filter_In. tauto.
Qed.
Lemma sol_of_in v B : sat v B -> In (sol_of v B) (solutions B).
Proof.
  intros H. unfold solutions. apply filter_In. split; [apply filter_in_subs|]. apply satb_sat. eapply sat_ext_in; [|exact H]. intros p Hp. symmetry. now apply sol_of_mem.
Qed.
Lemma solution_sat s B : In s (solutions B) -> sat (mines_at s) B.
Proof. intros H. apply filter_In in H as [_ H]. now apply satb_sat. Qed.

Lemma window_count B lo c0 (g : list pos -> bool) : (forall k, k < lo \/ lo + c0 <= k -> n_sol B k = 0) ->
  sumn (fun k => count (fun s => (length s =? k) && g s) (solutions B)) (seq lo c0) = count g (solutions B).
Proof.
  intros H.
  assert (Hin : forall s, In s (solutions B) -> lo <= length s < lo + c0).
  { intros s Hs. destruct (Nat.lt_ge_cases (length s) lo) as [Hl|Hl]; [|destruct (Nat.le_gt_cases (lo + c0) (length s)) as [Hh|Hh]; [|lia]].
    - specialize (H (length s) (or_introl Hl)). unfold n_sol in H. pose proof (count_zero_inv H Hs) as Hz. cbn beta in Hz. now rewrite Nat.eqb_refl in Hz.
    - specialize (H (length s) (or_intror Hh)). unfold n_sol in H. pose proof (count_zero_inv H Hs) as Hz. cbn beta in Hz. now rewrite Nat.eqb_refl in Hz. }
  revert Hin. generalize (solutions B) as l. clear H. induction l as [|s l IH]; intros Hin.
  - rewrite count_nil. apply sumn_zero. reflexivity.
  - rewrite count_cons, <- IH by (intros; apply Hin; now right). 
    rewrite (@sumn_ext _ _ (fun k => (if (length s =? k) && g s then 1 else 0) + count (fun s => (length s =? k) && g s) l)).
    2:{ intros k _. now rewrite count_cons. }
    rewrite sumn_add. f_equal. destruct (g s).
    + specialize (Hin s (or_introl eq_refl)). rewrite (@sumn_ext _ _ (fun k => if length s =? k then 1 else 0)) by (intros k _; now rewrite andb_true_r).
      clear - Hin. revert lo Hin. induction c0 as [|c IH]; intros lo H; [lia|]. cbn [seq sumn]. destruct (Nat.eqb_spec (length s) lo).
      * rewrite sumn_zero; auto. intros k Hk. apply in_seq in Hk. destruct (Nat.eqb_spec (length s) k); [lia|auto].
      * rewrite IH; lia.
    + rewrite sumn_zero; auto. intros k _. now rewrite andb_false_r.
Qed.

(** column of an unknown: its coefficients in all equations *)

Section One.
Variable B : block.
Hypothesis Hgood : good_block B.
Hypothesis Hpos : Forall (fun e => (0 <= snd e)%Z) (eqs B).
Let x := vars B.
Let n := length x.
Let A0 := map fst (eqs B).
Let rp := reps A0 n.
Let groups := map (group A0 n) rp.

Lemma cells_ok idxs : (forall k, In k idxs -> k < n) -> mapM (fun kk => vget (vars B) kk) idxs = Ok (sel (0, 0) x idxs).
Proof. intros H. unfold sel. apply mapM_ok. intros k Hk. apply vget_ok. apply H, Hk. Qed.

Lemma same_col_same i j : i < n -> j < n -> (same_col A0 i j = true <-> same_column B (nth i x (0, 0)) (nth j x (0, 0))).
Proof.
  intros Hi Hj. rewrite same_col_spec. unfold same_column. destruct Hgood as [Hg _]. pose proof (gd_wf Hg) as Hw. rewrite Forall_forall in Hw.
  unfold A0. split.
  - intros H e He. destruct (Hw e He) as [Hl _]. fold x. rewrite !coef_nth by (auto; apply Hg). apply H. now apply in_map.
  - intros H r Hr. apply in_map_iff in Hr as (e & <- & He). destruct (Hw e He) as [Hl _]. specialize (H e He). fold x in H. rewrite !coef_nth in H by (auto; apply Hg). exact H.
Qed.

Lemma group_alone k : In k rp -> forall q, In q (group A0 n k) -> (alone B (nth q x (0, 0)) <-> length (group A0 n k) = 1).
Proof.
  intros Hk q Hq. pose proof Hk as Hk'. apply In_reps in Hk' as [Kn Kmin].
  destruct Hgood as [Hg _]. pose proof (gd_nodup Hg) as Nd. fold x in Nd.
  assert (Hqn : q < n) by (apply In_group in Hq; lia).
  assert (Hkq : same_col A0 k q = true) by (apply In_group in Hq as [->|[_ E]]; auto; apply same_col_refl).
  split.
  - intros Ha. destruct (group A0 n k) as [|a [|b l]] eqn:E; [destruct Hq|reflexivity|]. exfalso.
    assert (Hall : forall r, In r (group A0 n k) -> r = q).
    { intros r Hr. assert (Hrn : r < n) by (apply In_group in Hr; lia).
      assert (Hkr : same_col A0 k r = true) by (apply In_group in Hr as [->|[_ E1]]; auto; apply same_col_refl).
      rewrite NoDup_nth in Nd. apply Nd; auto. apply Ha; [now apply nth_In|]. apply same_col_same; auto.
      eapply same_col_trans; [rewrite same_col_sym; exact Hkq|exact Hkr]. }
    assert (Ngr : NoDup (group A0 n k)).
    { unfold group. constructor; [|apply NoDup_filter, NoDup_rng]. intros H. apply filter_In in H as [H _]. apply in_rng in H. lia. }
    rewrite E in *. pose proof (Hall a ltac:(now left)). pose proof (Hall b ltac:(right; now left)). subst. inversion Ngr; subst. apply H1. now left.
  - intros H1 p Hp Hs. apply (In_nth _ _ (0, 0)) in Hp as (r & Hr & <-). fold x in Hr |- *.
    assert (Hqr : same_col A0 q r = true) by (apply same_col_same; auto).
    assert (Hkr : same_col A0 k r = true) by (eapply same_col_trans; eauto).
    assert (Hrg : In r (group A0 n k)).
    { apply In_group. destruct (Nat.lt_trichotomy r k) as [Hl|[Hl|Hl]]; auto. rewrite same_col_sym in Hkr. rewrite Kmin in Hkr; auto. discriminate. }
    destruct (group A0 n k) as [|a [|b l]]; cbn in H1; try lia. destruct Hq as [<-|[]], Hrg as [<-|[]]. reflexivity.
Qed.

Theorem enumerate_block_ok notm ism : solutions B <> [] -> length (vars B) <= ENUM_LIMIT ->
  exists N I, enumerate_block B notm ism = Ok (notm ++ N, ism ++ I) /\
    (forall p, In p N <-> In p (vars B) /\ forall v, sat v B -> v p = false) /\
    (forall p, In p I <-> In p (vars B) /\ alone B p /\ forall v, sat v B -> v p = true).
Proof.
  intros Hsol Hlen. destruct Hgood as [Hg Hne]. unfold enumerate_block. rewrite (combine_B Hg). cbn [bind]. fold x n A0 rp groups.
  assert (Hlim : length groups <= ENUM_LIMIT).
  { unfold groups. rewrite map_length. etransitivity; [|exact Hlen]. unfold rp.
    pose proof (NoDup_incl_length (NoDup_reps A0 n) (l' := seq 0 n)) as L. rewrite seq_length in L. apply L. intros k Hk. apply In_reps in Hk. apply in_seq. lia. }
  destruct (@block_table B Hg Hne Hpos Hlim) as [[Hno _]|(_ & lo & c0 & E & Hc & Hout)]; [contradiction|].
  fold x n A0 rp groups in E. rewrite E. cbn [unwrap bind].
  assert (Ecell : match map (line B) (seq lo c0) with [] => Panic | (_, _, cells) :: _ => Ok (length cells) end = Ok (length groups)).
  { destruct c0; [lia|]. cbn [seq map line]. f_equal. unfold line. now rewrite map_length. }
  rewrite Ecell. cbn [bind]. clear Ecell.
  set (tot := nsum (map (fun '(_, c, _) => c) (map (line B) (seq lo c0)))).
  assert (Etot : tot = length (solutions B)).
  { unfold tot. rewrite nsum_sumn, map_map, sumn_map. cbn. unfold n_sol.
    rewrite (@sumn_ext _ _ (fun k => count (fun s => (length s =? k) && true) (solutions B))) by (intros k _; apply count_ext; intros; now rewrite andb_true_r).
    rewrite window_count by auto. clear. unfold count. induction (solutions B); cbn; congruence. }
  assert (Htot : 0 < tot) by (rewrite Etot; destruct (solutions B); [contradiction|cbn; lia]).
  (* what is decided for group j *)
  set (cnt_at := fun j => count (mem_pos (head_cell B (nth j groups []))) (solutions B)).
  assert (Hrows : forall j, j < length groups -> exists ns, mapM (fun '(_, _, cells) => vget cells j) (map (line B) (seq lo c0)) = Ok ns /\ nsum ns = cnt_at j).
  { intros j Hj. exists (map (fun k => n_sol_at B k (head_cell B (nth j groups []))) (seq lo c0)). split.
    - rewrite (@mapM_ok _ _ _ (fun '(k, _, _) => n_sol_at B k (head_cell B (nth j groups [])))).
      + now rewrite map_map.
      + intros r Hr. apply in_map_iff in Hr as (k & <- & _). unfold line. fold x n A0 rp groups.
        rewrite (@vget_ok _ _ j 0) by (now rewrite map_length). f_equal. now rewrite (@nth_map_lt _ _ _ groups j 0 []).
    - rewrite nsum_sumn, sumn_map. unfold n_sol_at. now rewrite window_count. }
  (* semantic meaning *)
  assert (Hgj : forall j, j < length groups -> forall q, In q (nth j groups []) -> q < n /\ forall v, sat v B -> True).
  { intros j Hj q Hq. unfold groups in Hj, Hq. rewrite map_length in Hj. rewrite (@nth_map_lt _ _ _ rp j [] 0) in Hq by auto. split; auto.
    eapply group_lt; [|exact Hq]. now apply nth_In. }
  assert (Hcell : forall j, j < length groups -> forall q, In q (nth j groups []) ->
     count (mem_pos (nth q x (0, 0))) (solutions B) = cnt_at j).
  { intros j Hj q Hq. unfold cnt_at. rewrite <- !(window_count _ Hout). apply sumn_ext. intros k _. apply (@group_cells B Hg (nth j groups []) q); auto. now apply nth_In. }
  assert (Hsafe : forall j, j < length groups -> forall q, In q (nth j groups []) -> (cnt_at j = 0 <-> forall v, sat v B -> v (nth q x (0, 0)) = false)).
  { intros j Hj q Hq. rewrite <- (Hcell j Hj q Hq). destruct (Hgj j Hj q Hq) as [Hqn _]. assert (Hqx : In (nth q x (0, 0)) (vars B)) by (now apply nth_In). split.
    - intros H0 v Hv. pose proof (count_zero_inv H0 (sol_of_in Hv)) as H1. now rewrite sol_of_mem in H1.
    - intros H0. apply count_zero. intros s Hs. exact (H0 _ (solution_sat Hs)). }
  assert (Hmine : forall j, j < length groups -> forall q, In q (nth j groups []) -> (cnt_at j = tot <-> forall v, sat v B -> v (nth q x (0, 0)) = true)).
  { intros j Hj q Hq. rewrite <- (Hcell j Hj q Hq), Etot. destruct (Hgj j Hj q Hq) as [Hqn _]. assert (Hqx : In (nth q x (0, 0)) (vars B)) by (now apply nth_In).
    set (p := nth q x (0, 0)) in *. pose proof (@count_split _ (fun _ => true) (mem_pos p) (solutions B)) as Sp. cbn [andb] in Sp.
    assert (Ht : count (fun _ => true) (solutions B) = length (solutions B)) by (unfold count; clear; induction (solutions B); cbn; congruence).
    rewrite Ht in Sp. split.
    - intros H0 v Hv. assert (H1 : count (fun a => negb (mem_pos p a)) (solutions B) = 0) by (change (count (fun a => mem_pos p a) (solutions B)) with (count (mem_pos p) (solutions B)) in Sp; lia).
      pose proof (count_zero_inv H1 (sol_of_in Hv)) as H2. cbn in H2. rewrite sol_of_mem in H2 by auto. now destruct (v p).
    - intros H0. change (count (fun a => mem_pos p a) (solutions B)) with (count (mem_pos p) (solutions B)) in Sp. rewrite Sp.
      rewrite (@count_zero _ (fun a => negb (mem_pos p a))); [lia|]. intros s Hs. apply negb_false_iff. exact (H0 _ (solution_sat Hs)). }
  assert (Hle : forall j, cnt_at j <= tot) by (intros j; rewrite Etot; apply count_le).
  match goal with |- context [foldM ?F (seq 0 (length groups)) (notm, ism)] =>
    destruct (@foldM_inv _ _ F (fun done st => exists N I, st = (notm ++ N, ism ++ I) /\
        (forall p, In p N <-> exists j q, In j done /\ In q (nth j groups []) /\ p = nth q x (0, 0) /\ cnt_at j = 0) /\
        (forall p, In p I <-> exists j q, In j done /\ In q (nth j groups []) /\ p = nth q x (0, 0) /\ cnt_at j = tot /\ length (nth j groups []) = 1))
      (seq 0 (length groups)) (notm, ism)) as (st & Ef & N & I & -> & HN & HI) end.
  { exists [], []. rewrite !app_nil_r. split; auto. split; intros p; split; cbn; [tauto|intros (j & q & [] & _)|tauto|intros (j & q & [] & _)]. }
  { intros done j rest st El (N & I & -> & HN & HI).
    assert (Hj : j < length groups). { assert (In j (seq 0 (length groups))) by (rewrite El; apply in_app_iff; right; now left). apply in_seq in H. lia. }
    destruct (Hrows j Hj) as (ns & E1 & E2). rewrite E1. cbn [bind]. rewrite E2.
    rewrite (@vget_ok _ groups j []) by auto. cbn [bind].
    rewrite cells_ok by (intros k Hk; apply (Hgj j Hj k Hk)). cbn [bind].
    assert (Hl1 : 1 <= length (nth j groups [])).
    { pose proof (Hgroups Hg) as Hgr. fold x n A0 rp groups in Hgr. rewrite Forall_forall in Hgr. apply Hgr. now apply nth_In. }
    assert (Hsel : forall p, In p (sel (0, 0) x (nth j groups [])) <-> exists q, In q (nth j groups []) /\ p = nth q x (0, 0)).
    { intros p. unfold sel. rewrite in_map_iff. split; intros (q & H1 & H2); exists q; auto. }
    destruct (Nat.eqb_spec (cnt_at j) 0) as [E0|E0].
    - eexists. split; [reflexivity|]. exists (N ++ sel (0, 0) x (nth j groups [])), I. rewrite app_assoc. split; auto. split.
      + intros p. rewrite in_app_iff, HN, Hsel. split.
        * intros [(i & q & H1 & H2)|(q & H1 & H2)]; [exists i, q; split; auto; apply in_app_iff; auto|]. exists j, q. split; [apply in_app_iff; right; now left|auto].
        * intros (i & q & H1 & H2 & H3). apply in_app_iff in H1 as [H1|[<-|[]]]; [left; exists i, q; auto|right; exists q; tauto].
      + intros p. rewrite HI. split; intros (i & q & H1 & H2).
        * exists i, q. split; auto. apply in_app_iff; auto.
        * apply in_app_iff in H1 as [H1|[<-|[]]]; [exists i, q; auto|]. exfalso. lia.
    - destruct (Nat.eqb_spec (cnt_at j) (tot * length (nth j groups []))) as [Em|Em].
      + assert (Hone : length (nth j groups []) = 1 /\ cnt_at j = tot).
        { pose proof (Hle j). assert (length (nth j groups []) = 1) by nia. split; auto. nia. }
        eexists. split; [reflexivity|]. exists N, (I ++ sel (0, 0) x (nth j groups [])). rewrite app_assoc. split; auto. split.
        * intros p. rewrite HN. split; intros (i & q & H1 & H2).
          -- exists i, q. split; auto. apply in_app_iff; auto.
          -- apply in_app_iff in H1 as [H1|[<-|[]]]; [exists i, q; auto|]. exfalso. lia.
        * intros p. rewrite in_app_iff, HI, Hsel. split.
          -- intros [(i & q & H1 & H2)|(q & H1 & H2)]; [exists i, q; split; auto; apply in_app_iff; auto|]. exists j, q. split; [apply in_app_iff; right; now left|tauto].
          -- intros (i & q & H1 & H2 & H3). apply in_app_iff in H1 as [H1|[<-|[]]]; [left; exists i, q; auto|right; exists q; tauto].
      + eexists. split; [reflexivity|]. exists N, I. split; auto. split.
        * intros p. rewrite HN. split; intros (i & q & H1 & H2).
          -- exists i, q. split; auto. apply in_app_iff; auto.
          -- apply in_app_iff in H1 as [H1|[<-|[]]]; [exists i, q; auto|]. exfalso. lia.
        * intros p. rewrite HI. split; intros (i & q & H1 & H2).
          -- exists i, q. split; auto. apply in_app_iff; auto.
          -- apply in_app_iff in H1 as [H1|[<-|[]]]; [exists i, q; auto|]. exfalso. destruct H2 as (_ & _ & H2 & H3). apply Em. rewrite H2, H3. lia. }
  exists N, I. split; [exact Ef|].
  assert (Hx : forall p, In p x <-> exists j q, In j (seq 0 (length groups)) /\ In q (nth j groups []) /\ p = nth q x (0, 0)).
  { intros p. split.
    - intros Hp. eapply Permutation_in in Hp; [|symmetry; exact (concat_G B)]. apply in_concat in Hp as (g & Hg1 & Hp). apply in_map_iff in Hg1 as (g0 & <- & Hg0).
      fold x n A0 rp groups in Hg0. apply (In_nth _ _ []) in Hg0 as (j & Hj & <-). apply in_map_iff in Hp as (q & <- & Hq). exists j, q. split; [apply in_seq; lia|auto].
    - intros (j & q & Hj & Hq & ->). apply in_seq in Hj. apply nth_In. apply (Hgj j ltac:(lia) q Hq). }
  assert (Hal : forall j q, In j (seq 0 (length groups)) -> In q (nth j groups []) -> (alone B (nth q x (0, 0)) <-> length (nth j groups []) = 1)).
  { intros j q Hj Hq. apply in_seq in Hj. unfold groups in Hj, Hq |- *. rewrite map_length in Hj. rewrite (@nth_map_lt _ _ _ rp j [] 0) in Hq |- * by lia. apply group_alone; auto. apply nth_In. lia. }
  split; intros p.
  - rewrite HN, Hx. split.
    + intros (j & q & Hj & Hq & -> & H0). split; [exists j, q; auto|]. apply (Hsafe j) with (q := q); auto. apply in_seq in Hj. lia.
    + intros [(j & q & Hj & Hq & ->) H0]. exists j, q. repeat split; auto. apply (Hsafe j) with (q := q); auto. apply in_seq in Hj. lia.
  - rewrite HI, Hx. split.
    + intros (j & q & Hj & Hq & -> & H0 & H1). split; [exists j, q; auto|]. split; [now apply (Hal j)|]. apply (Hmine j) with (q := q); auto. apply in_seq in Hj. lia.
    + intros [(j & q & Hj & Hq & ->) [H1 H0]]. exists j, q. repeat split; auto; [|now apply (Hal j q Hj Hq)]. apply (Hmine j) with (q := q); auto. apply in_seq in Hj. lia.
Qed.
End One.

(** ** all blocks *)
Lemma sat_pos v B : good_block B -> sat v B -> Forall (fun e => (0 <= snd e)%Z) (eqs B).
Proof.
  intros [Hg _] Hs. pose proof (gd_wf Hg) as Hw. unfold sat in Hs. rewrite Forall_forall in *. intros e He. specialize (Hs e He). unfold sat_eq in Hs. rewrite <- Hs.
  apply (@dot_bounds v (vars B) e v); [apply Hg|auto].
Qed.
Lemma in_vars bl p : In p (concat (map vars bl)) <-> exists B, In B bl /\ In p (vars B).
Proof.
  rewrite in_concat. split.
  - intros (x & Hx & Hp). apply in_map_iff in Hx as (B & <- & HB). eauto.
  - intros (B & HB & Hp). exists (vars B). split; auto. now apply in_map.
Qed.
Lemma NoDup_app_not_in {A} (l1 l2 : list A) x : NoDup (l1 ++ l2) -> In x l1 -> ~ In x l2.
Proof. induction l1 as [|a l1 IH]; cbn; intros Nd H; [destruct H|]. inversion Nd; subst. destruct H as [<-|H]; auto. intros Hi. apply H2, in_app_iff. auto. Qed.
Lemma NoDup_blocks l1 B l2 : NoDup (concat (map vars (l1 ++ B :: l2))) ->
  forall B', In B' l1 \/ In B' l2 -> forall p, In p (vars B') -> ~ In p (vars B).
Proof.
  rewrite map_app, concat_app. cbn [map concat]. intros Nd B' [HB|HB] p Hp Hi.
  - apply (@NoDup_app_not_in _ _ _ p Nd); [apply in_vars; eauto|]. apply in_app_iff. now left.
  - apply NoDup_app_r in Nd. apply (@NoDup_app_not_in _ _ _ p Nd Hi). apply in_vars. eauto.
Qed.
Lemma one_block l1 B l2 v0 p b : NoDup (concat (map vars (l1 ++ B :: l2))) -> sats v0 (l1 ++ B :: l2) -> In p (vars B) ->
  ((forall v, sats v (l1 ++ B :: l2) -> v p = b) <-> (forall v, sat v B -> v p = b)).
Proof.
  intros Nd Hs Hp. unfold sats in *. split.
  - intros H v Hv. set (w := fun q => if mem_pos q (vars B) then v q else v0 q).
    assert (Hw : Forall (sat w) (l1 ++ B :: l2)).
    { apply Forall_forall. intros B' HB'. apply in_app_iff in HB' as [HB'|[<-|HB']].
      - apply (@sat_ext_in v0). + intros q Hq. unfold w. now rewrite (mem_false (@NoDup_blocks l1 B l2 Nd B' (or_introl HB') q Hq)).
        + rewrite Forall_forall in Hs. apply Hs, in_app_iff. auto.
      - apply (@sat_ext_in v); auto. intros q Hq. unfold w. now rewrite mem_true.
      - apply (@sat_ext_in v0). + intros q Hq. unfold w. now rewrite (mem_false (@NoDup_blocks l1 B l2 Nd B' (or_intror HB') q Hq)).
        + rewrite Forall_forall in Hs. apply Hs, in_app_iff. right. now right. }
    rewrite <- (H w Hw). unfold w. now rewrite mem_true.
  - intros H v Hv. apply H. rewrite Forall_forall in Hv. apply Hv, in_app_iff. right. now left.
Qed.

Theorem solve_enumerate_ok bl v0 : Forall good_block bl -> NoDup (concat (map vars bl)) -> sats v0 bl ->
  Forall (fun B => length (vars B) <= ENUM_LIMIT) bl ->
  exists N I, solve_enumerate bl = Ok (N, I) /\
    (forall p, In p N <-> In p (concat (map vars bl)) /\ forall v, sats v bl -> v p = false) /\
    (forall p, In p I <-> exists B, In B bl /\ In p (vars B) /\ alone B p /\ forall v, sats v bl -> v p = true).
Proof.
  intros Hg Nd Hs Hl. unfold solve_enumerate.
  replace (existsb (fun B => ENUM_LIMIT <? length (vars B)) bl) with false.
  2:{ symmetry. apply not_true_iff_false. intros H. apply existsb_exists in H as (B & HB & H). rewrite Forall_forall in Hl. specialize (Hl B HB). apply Nat.ltb_lt in H. lia. }
  match goal with |- context [foldM ?F bl ([], [])] =>
    destruct (@foldM_inv _ _ F (fun done st => exists N I, st = (N, I) /\
        (forall p, In p N <-> exists B, In B done /\ In p (vars B) /\ forall v, sat v B -> v p = false) /\
        (forall p, In p I <-> exists B, In B done /\ In p (vars B) /\ alone B p /\ forall v, sat v B -> v p = true))
      bl ([], [])) as (st & Ef & N & I & -> & HN & HI) end.
  { exists [], []. split; auto. split; intros p; split; cbn; [tauto|intros (j & [] & _)|tauto|intros (j & [] & _)]. }
  { intros done B rest st El (N & I & -> & HN & HI). assert (HB : In B bl) by (rewrite El; apply in_app_iff; right; now left).
    rewrite Forall_forall in *. assert (HsB : sat v0 B) by (unfold sats in Hs; rewrite Forall_forall in Hs; auto).
    destruct (@enumerate_block_ok B (Hg B HB) (sat_pos (Hg B HB) HsB) N I) as (N1 & I1 & E & H1 & H2).
    - intros E. pose proof (sol_of_in HsB) as Hi. rewrite E in Hi. destruct Hi.
    - apply Hl, HB.
    - rewrite E. eexists. split; [reflexivity|]. exists (N ++ N1), (I ++ I1). split; auto. split; intros p; rewrite in_app_iff.
      + rewrite HN, H1. split.
        * intros [(B' & G1 & G2)|[G1 G2]]; [exists B'; split; auto; apply in_app_iff; auto|exists B; split; [apply in_app_iff; right; now left|auto]].
        * intros (B' & G1 & G2). apply in_app_iff in G1 as [G1|[<-|[]]]; [left; exists B'; auto|now right].
      + rewrite HI, H2. split.
        * intros [(B' & G1 & G2)|[G1 G2]]; [exists B'; split; auto; apply in_app_iff; auto|exists B; split; [apply in_app_iff; right; now left|auto]].
        * intros (B' & G1 & G2). apply in_app_iff in G1 as [G1|[<-|[]]]; [left; exists B'; auto|now right]. }
  exists N, I. split; auto. split; intros p.
  - rewrite HN, in_vars. split.
    + intros (B & HB & Hp & H). split; [eauto|]. intros v Hv. apply H. unfold sats in Hv. rewrite Forall_forall in Hv. auto.
    + intros [(B & HB & Hp) H]. exists B. split; auto. split; auto. destruct (in_split B bl HB) as (l1 & l2 & E). rewrite E in *. now apply (@one_block l1 B l2 v0).
  - rewrite HI. split.
    + intros (B & HB & Hp & Ha & H). exists B. repeat split; auto. intros v Hv. apply H. unfold sats in Hv. rewrite Forall_forall in Hv. auto.
    + intros (B & HB & Hp & Ha & H). exists B. repeat split; auto. destruct (in_split B bl HB) as (l1 & l2 & E). rewrite E in *. now apply (@one_block l1 B l2 v0).
Qed.
