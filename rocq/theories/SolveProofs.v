(** * SolveProofs: solve_direct and solve_minus keep the set of solutions. *)
From Verif Require Import Base Spec BaseFacts Matrix Solve SolverSpec MatrixProofs LinFacts DirectProofs ChunkProofs.
Open Scope Z_scope.

Lemma mem_pos_true p l : mem_pos p l = true <-> In p l.
Proof. destruct (mem_pos_spec p l); split; auto; try tauto; discriminate. Qed.
Ltac permut := rewrite (Permutation_count_occ pos_eq_dec); intro; repeat rewrite count_occ_app; cbn [count_occ]; lia.

Section S.
Variables (row column : nat) (v0 : placement).

(** [bd'] is [bd] with [ism] marked 11 and [notm] marked 12; both lists agree with [v0]. *)
Record marks (notm ism : list pos) (bd bd' : board) : Prop := {
  mk_rect : rect row column bd';
  mk_cell : forall q, cell bd' q = if mem_pos q ism then 11 else if mem_pos q notm then 12 else cell bd q;
  mk_is : forall p, In p ism -> v0 p = true;
  mk_not : forall p, In p notm -> v0 p = false
}.
Lemma mem_app p l1 l2 : mem_pos p (l1 ++ l2) = mem_pos p l1 || mem_pos p l2.
Proof. unfold mem_pos. apply existsb_app. Qed.
Lemma mem_perm p l l' : Permutation l l' -> mem_pos p l = mem_pos p l'.
Proof.
  intros P. apply eq_true_iff_eq. rewrite !mem_pos_true. split; apply Permutation_in; auto; now symmetry.
Qed.
Lemma marks_nil bd : rect row column bd -> marks [] [] bd bd.
Proof. intros H. constructor; auto; intros p []. Qed.
Lemma marks_trans n1 i1 n2 i2 bd bd1 bd2 : marks n1 i1 bd bd1 -> marks n2 i2 bd1 bd2 -> marks (n1 ++ n2) (i1 ++ i2) bd bd2.
Proof.
  intros [R1 C1 I1 N1] [R2 C2 I2 N2]. constructor; auto.
  - intros q. rewrite C2, C1, !mem_app. 
    assert (A : mem_pos q i1 = true -> mem_pos q n2 = true -> False).
    { rewrite !mem_pos_true. intros a b. specialize (I1 q a). specialize (N2 q b). congruence. }
    destruct (mem_pos q i1), (mem_pos q n1), (mem_pos q i2), (mem_pos q n2); cbn; auto; exfalso; auto.
  - intros p Hp. apply in_app_iff in Hp as [|]; auto.
  - intros p Hp. apply in_app_iff in Hp as [|]; auto.
Qed.
Lemma marked_marks_is found bd bd' : marked_as row column 11 found bd bd' -> (forall p, In p found -> v0 p = true) -> marks [] found bd bd'.
Proof. intros [R H] Hv. constructor; auto. intros p []. Qed.
Lemma marked_marks_not found bd bd' : marked_as row column 12 found bd bd' -> (forall p, In p found -> v0 p = false) -> marks found [] bd bd'.
Proof. intros [R H] Hv. constructor; auto. Qed.

(** blocks the engines accept *)
Record pre (x : list pos) (es : list equation) : Prop := {
  pr_nodup : NoDup x;
  pr_in : Forall (inb row column) x;
  pr_wf : Forall (wfe x) es;
  pr_cov : cov x es;
  pr_light : Forall (light x) es
}.
Definition pre_block (B : block) : Prop := pre (vars B) (eqs B).

Lemma good_pre B : good_block B -> Forall (inb row column) (vars B) -> pre_block B.
Proof. intros [[A1 A2 A3 A4 A5] _] Hi. constructor; auto. Qed.

Lemma dot_bounds x e v : NoDup x -> wfe x e -> 0 <= dot (fst e) x v /\ (dot (fst e) x v <> 0 -> nz x e).
Proof.
  intros Hnd [Hl Hb]. rewrite dot_coef by auto. split.
  - apply sumz_nonneg. intros q _. destruct (Hb q) as [E|E]; rewrite E; destruct (v q); cbn; lia.
  - intros H. destruct (Exists_dec (fun q => coef (fst e) x q = 1) x) as [He|He].
    + intros q. destruct (Z.eq_dec (coef (fst e) x q) 1); auto.
    + apply Exists_exists in He as (q & Hq & E). exists q. auto.
    + exfalso. apply H, sumz_zero. intros q Hq. destruct (Hb q) as [E|E]; rewrite E; [lia|]. exfalso. apply He, Exists_exists. eauto.
Qed.

(** ** one block of solve_direct *)
Lemma direct_block_ok B notm ism bd : pre_block B -> rect row column bd -> sat v0 B ->
  exists es x n i bd', direct_block B notm ism bd = Ok (es, x, notm ++ n, ism ++ i, bd') /\
    pre x es /\ Permutation (vars B) (n ++ i ++ x) /\
    (forall v, sat v B <-> (forall p, In p i -> v p = true) /\ (forall p, In p n -> v p = false) /\ Forall (sat_eq x v) es) /\
    marks n i bd bd' /\ Forall (fun e => 0 < snd e) es /\ Forall (nz x) es.
Proof.
  intros [Hnd Hin Hw Hc Hl] Hbd Hs. unfold direct_block, direct_phase at 1.
  destruct (@direct_phase_ok row column true (length (eqs B)) (eqs B) (vars B) ism bd) as (es1 & x1 & i & bd1 & E1 & P1 & M1 & _); auto.
  rewrite E1. cbn [bind]. clear E1.
  pose proof (Permutation_NoDup (ph_perm P1) Hnd) as Hnd1. apply NoDup_app_r in Hnd1.
  pose proof (Permutation_Forall (ph_perm P1) Hin) as Hin1. apply Forall_app in Hin1 as [_ Hin1].
  unfold direct_phase at 1.
  destruct (@direct_phase_ok row column false (length es1) es1 x1 notm bd1) as (es2 & x2 & n & bd2 & E2 & P2 & M2 & Z2); auto; try apply P1; try apply M1.
  rewrite E2. cbn [bind]. clear E2.
  pose proof (Permutation_NoDup (ph_perm P2) Hnd1) as Hnd2. apply NoDup_app_r in Hnd2.
  pose proof (Permutation_Forall (ph_perm P2) Hin1) as Hin2. apply Forall_app in Hin2 as [_ Hin2].
  assert (Hsat : forall v, sat v B <-> (forall p, In p i -> v p = true) /\ (forall p, In p n -> v p = false) /\ Forall (sat_eq x2 v) es2).
  { intros v. unfold sat. rewrite (ph_sat P1), (ph_sat P2). tauto. }
  destruct (proj1 (Hsat v0) Hs) as (V1 & V2 & V3).
  assert (Hpos : Forall (fun e => 0 < snd e /\ nz x2 e) es2).
  { apply Forall_forall. intros e He. assert (snd e <> 0). { apply Z2; auto. intros k Hk. lia. }
    rewrite Forall_forall in V3. specialize (V3 e He). unfold sat_eq in V3.
    pose proof (ph_wf P2) as W2. rewrite Forall_forall in W2.
    destruct (@dot_bounds x2 e v0 Hnd2 (W2 e He)) as [D1 D2]. split; [lia|apply D2; lia]. }
  exists es2, x2, n, i, bd2. split; [reflexivity|]. split; [|split; [|split; [|split]]]; auto.
  - constructor; auto; [apply P2| |].
    + exact (ph_cov P2 (ph_cov P1 Hc)).
    + exact (ph_light P2 (ph_light P1 Hl)).
  - rewrite (ph_perm P1), (ph_perm P2). rewrite (Permutation_app_comm i), <- app_assoc. apply Permutation_app_head, Permutation_app_comm.
  - rewrite <- (app_nil_r i). apply (@marks_trans [] i n [] bd bd1 bd2) ; [now apply marked_marks_is|]. 
    now apply marked_marks_not.
  - split; [eapply Forall_impl; [|exact Hpos]; intros e [? _]; auto|eapply Forall_impl; [|exact Hpos]; intros e [_ ?]; auto].
Qed.

(** what a list of blocks is worth after some cells were decided *)
Record deduced (bl : list block) (notm ism : list pos) (bl' : list block) : Prop := {
  dd_perm : Permutation (concat (map vars bl)) (notm ++ ism ++ concat (map vars bl'));
  dd_sat : forall v, sats v bl <-> (forall p, In p ism -> v p = true) /\ (forall p, In p notm -> v p = false) /\ sats v bl'
}.
Lemma deduced_refl bl : deduced bl [] [] bl.
Proof. constructor; auto. intros v. split; [intros H; repeat split; auto; intros p []|tauto]. Qed.
Lemma deduced_trans b1 n1 i1 b2 n2 i2 b3 : deduced b1 n1 i1 b2 -> deduced b2 n2 i2 b3 -> deduced b1 (n1 ++ n2) (i1 ++ i2) b3.
Proof.
  intros [P1 S1] [P2 S2]. constructor.
  - rewrite P1, P2. rewrite <- !app_assoc. apply Permutation_app_head. rewrite !app_assoc.
    apply Permutation_app_tail. rewrite <- app_assoc, (app_assoc i1). rewrite (Permutation_app_comm i1 n2). now rewrite <- !app_assoc.
  - intros v. rewrite S1, S2. split.
    + intros (A & B & C & D & E). repeat split; auto; intros p Hp; apply in_app_iff in Hp as [|]; auto.
    + intros (A & B & C). repeat split; auto; intros p Hp; (apply A || apply B); apply in_app_iff; auto.
Qed.
Lemma deduced_perm b1 n1 i1 b2 n1' i1' : deduced b1 n1 i1 b2 -> Permutation n1 n1' -> Permutation i1 i1' -> deduced b1 n1' i1' b2.
Proof.
  intros [P S] Pn Pi. constructor.
  - rewrite P. apply Permutation_app; auto. apply Permutation_app; auto.
  - intros v. rewrite S. split; intros (A & B & C); repeat split; auto; intros p Hp; (apply A || apply B);
      (eapply Permutation_in; [|exact Hp]); auto; now symmetry.
Qed.
Lemma deduced_nil_l b1 n1 i1 b2 bl : deduced b1 n1 i1 b2 -> deduced (b1 ++ bl) n1 i1 (b2 ++ bl).
Proof.
  intros [P S]. constructor.
  - rewrite !map_app, !concat_app, P, <- !app_assoc. reflexivity.
  - intros v. unfold sats in *. rewrite !Forall_app, S. tauto.
Qed.

Lemma in_blocks bl B p : In B bl -> In p (vars B) -> In p (concat (map vars bl)).
Proof. intros HB Hp. apply in_concat. exists (vars B). split; auto. now apply in_map. Qed.

Lemma direct_blocks_ok l : forall keep notm ism bd, Forall pre_block l -> rect row column bd -> sats v0 l ->
  exists bl' n i bd',
   foldM (fun '(keep, notm, ism, bd) B =>
           let* st := direct_block B notm ism bd in
           let '(es, x, notm, ism, bd) := st in
           Ok (match es with [] => keep | _ => Blk es x :: keep end, notm, ism, bd))
        l (keep, notm, ism, bd) = Ok (bl' ++ keep, notm ++ n, ism ++ i, bd') /\
   deduced l n i bl' /\ marks n i bd bd' /\ Forall good_block bl' /\
   Forall (fun B => Forall (fun e => 0 < snd e) (eqs B)) bl'.
Proof.
  induction l as [|B l IH]; intros keep notm ism bd Hp Hbd Hs; cbn [foldM].
  - exists [], [], [], bd. cbn [app]. rewrite !app_nil_r. split; auto. split; [apply deduced_refl|]. split; [now apply marks_nil|]. auto.
  - inversion Hp as [|? ? HB Hp']; inversion Hs as [|? ? HsB Hs']; subst.
    destruct (@direct_block_ok B notm ism bd HB Hbd HsB) as (es & x & n & i & bd1 & E & Hpre & Pm & St & Mk & Pos & Nz). rewrite E. cbn [bind].
    set (k1 := match es with [] => keep | _ => Blk es x :: keep end).
    set (b1 := match es with [] => [] | _ => [Blk es x] end).
    assert (Ek : k1 = b1 ++ keep) by (unfold k1, b1; destruct es; reflexivity).
    assert (D1 : deduced [B] n i b1).
    { constructor.
      - cbn [map concat]. rewrite app_nil_r, Pm. unfold b1. destruct es; cbn [map concat vars]; [|rewrite app_nil_r; reflexivity].
        assert (x = []). { destruct x as [|q x]; auto. destruct (pr_cov Hpre (or_introl eq_refl : In q (q :: x))) as (e & [] & _). }
        subst x. reflexivity.
      - intros v. unfold sats. rewrite Forall_cons_iff, St. unfold b1. destruct es; split.
        + intros ((A1 & A2 & A3) & _). repeat split; auto.
        + intros (A1 & A2 & A3). repeat split; auto.
        + intros ((A1 & A2 & A3) & _). repeat split; auto.
        + intros (A1 & A2 & A3). inversion A3; subst. repeat split; auto. }
    destruct (IH k1 (notm ++ n) (ism ++ i) bd1 Hp' (mk_rect Mk) Hs') as (bl' & n' & i' & bd' & E' & D' & M' & G' & Z').
    rewrite E'. exists (bl' ++ b1), (n ++ n'), (i ++ i'), bd'. rewrite Ek, !app_assoc. split; auto. split; [|split; [eapply marks_trans; eauto|split]].
    + constructor.
      * cbn [map concat]. rewrite (dd_perm D'). pose proof (dd_perm D1) as Q. cbn [map concat] in Q. rewrite app_nil_r in Q. rewrite Q.
        rewrite !map_app, !concat_app. clear. generalize (concat (map vars bl')) (concat (map vars b1)). intros a b.
        permut.
      * intros v. unfold sats at 1. rewrite Forall_cons_iff. fold (sats v l). rewrite (dd_sat D').
        assert (Q : sat v B <-> sats v [B]) by (unfold sats; rewrite Forall_cons_iff; intuition). rewrite Q, (dd_sat D1).
        unfold sats. rewrite Forall_app. split.
        -- intros ((A1 & A2 & A3) & A4 & A5 & A6). repeat split; auto; intros p Hi; apply in_app_iff in Hi as [|]; auto.
        -- intros (A1 & A2 & A3 & A4). repeat split; auto; intros p Hi; (apply A1 || apply A2); apply in_app_iff; auto.
    + apply Forall_app. split; auto. unfold b1. destruct es as [|e es]; constructor; auto. split; [|discriminate]. destruct Hpre. constructor; auto.
    + apply Forall_app. split; auto. unfold b1. destruct es as [|e es]; constructor; auto.
Qed.

Lemma deduced_blocks_rev bl n i bl' : deduced (rev bl) n i bl' -> deduced bl n i bl'.
Proof.
  intros [P S]. constructor.
  - rewrite <- P. rewrite <- !flat_map_concat_map. apply Permutation_flat_map, Permutation_rev.
  - intros v. rewrite <- S. unfold sats. split; [apply Forall_rev|]. intros H. rewrite <- (rev_involutive bl). now apply Forall_rev.
Qed.
Lemma deduced_in bl n i bl' : deduced bl n i bl' -> Forall (fun B => Forall (inb row column) (vars B)) bl ->
  Forall (fun B => Forall (inb row column) (vars B)) bl'.
Proof.
  intros D H. assert (A : Forall (inb row column) (concat (map vars bl))).
  { apply Forall_concat. rewrite Forall_map. exact H. }
  rewrite (dd_perm D), !Forall_app in A. destruct A as (_ & _ & A). rewrite Forall_concat, Forall_map in A. exact A.
Qed.

(** ** solve_direct *)
Lemma solve_direct_ok bl bd : Forall pre_block bl -> rect row column bd -> sats v0 bl ->
  exists bl' n i bd', solve_direct_st bl bd = Ok (true, (bl', n, i, bd')) /\
    deduced bl n i bl' /\ marks n i bd bd' /\ Forall good_block bl' /\ Forall pre_block bl'.
Proof.
  intros Hp Hbd Hs. unfold solve_direct_st, direct_blocks.
  destruct (@direct_blocks_ok (rev bl) [] [] [] bd) as (b1 & n & i & bd1 & E & D & M & G & Z); auto.
  { now apply Forall_rev. } { now apply Forall_rev. }
  rewrite E. cbn [bind]. rewrite app_nil_r. apply deduced_blocks_rev in D. cbn [app].
  replace (existsb (fun B => existsb (fun e => snd e <? 0) (eqs B)) b1) with false.
  2:{ symmetry. apply not_true_iff_false. intros H. apply existsb_exists in H as (B & HB & He). apply existsb_exists in He as (e & He & Hn).
      rewrite Forall_forall in Z. specialize (Z B HB). rewrite Forall_forall in Z. specialize (Z e He). lia. }
  destruct (chunk_matrixes_ok G) as (b2 & E2 & P2 & S2 & G2). rewrite E2. cbn [bind].
  assert (D2 : deduced bl n i b2).
  { constructor; [rewrite (dd_perm D), P2; reflexivity|]. intros v. rewrite (dd_sat D), S2. tauto. }
  exists b2, n, i, bd1. split; auto. split; auto. split; auto. split; auto.
  apply Forall_forall. intros B HB. rewrite Forall_forall in G2. apply good_pre; auto.
  assert (Hin : Forall (fun B => Forall (inb row column) (vars B)) bl) by (eapply Forall_impl; [|exact Hp]; intros B0 HB0; apply HB0).
  pose proof (deduced_in D2 Hin) as Q. rewrite Forall_forall in Q. auto.
Qed.

(** ** the subtraction rule *)
Lemma pair_rule_ok x es i j : NoDup x -> Forall (wfe x) es -> (i < length es)%nat -> (j < length es)%nat ->
  exists p n, pair_rule es (length x) i j = Ok (p, n) /\
    (forall k, In k p \/ In k n -> (k < length x)%nat) /\
    forall v, Forall (sat_eq x v) es ->
      (forall k, In k p -> v (nth k x (0, 0)%nat) = true) /\ (forall k, In k n -> v (nth k x (0, 0)%nat) = false).
Proof.
  intros Hnd Hw Hi Hj. unfold pair_rule.
  rewrite (@vget_ok _ es i ([], 0)) by auto. cbn [bind]. rewrite (@vget_ok _ es j ([], 0)) by auto. cbn [bind].
  set (ei := nth i es ([], 0)). set (ej := nth j es ([], 0)).
  assert (Wi : wfe x ei) by (rewrite Forall_forall in Hw; apply Hw, nth_In; auto).
  assert (Wj : wfe x ej) by (rewrite Forall_forall in Hw; apply Hw, nth_In; auto).
  destruct Wi as [Li Bi], Wj as [Lj Bj].
  set (P := fun k => (nth k (fst ei) 0 =? 1) && (nth k (fst ej) 0 =? 0)).
  set (N := fun k => (nth k (fst ei) 0 =? 0) && (nth k (fst ej) 0 =? 1)).
  assert (Bi' : forall k, (k < length x)%nat -> bit (nth k (fst ei) 0)).
  { intros k Hk. rewrite <- (@coef_nth (0, 0)%nat _ x k) by auto. apply Bi. }
  assert (Bj' : forall k, (k < length x)%nat -> bit (nth k (fst ej) 0)).
  { intros k Hk. rewrite <- (@coef_nth (0, 0)%nat _ x k) by auto. apply Bj. }
  match goal with |- context [foldM ?F (seq 0 (length x)) ([], [], false)] =>
    destruct (@foldM_inv _ _ F (fun done st => fst (fst st) = filter P done /\ snd (fst st) = filter N done) (seq 0 (length x)) ([], [], false))
      as ([[p1 n1] adj] & E & H1 & H2) end.
  { auto. }
  { intros done k rest [[p1 n1] adj] El (A1 & A2). cbn [fst snd] in *.
    assert (Hk : (k < length x)%nat). { assert (In k (seq 0 (length x))) by (rewrite El; apply in_app_iff; right; now left). apply in_seq in H. lia. }
    rewrite (@vget_ok _ _ k 0) by lia. cbn [bind]. rewrite (@vget_ok _ _ k 0) by lia. cbn [bind].
    rewrite !filter_app. cbn [filter]. unfold P at 2, N at 2. rewrite A1, A2.
    destruct (Bi' k Hk) as [E1|E1], (Bj' k Hk) as [E2|E2]; rewrite E1, E2; cbn; eexists; (split; [reflexivity|]); cbn [fst snd]; rewrite ?app_nil_r; auto. }
  rewrite E. cbn [bind]. cbn [fst snd] in H1, H2.
  assert (Hrng : forall f k, In k (filter f (seq 0 (length x))) -> (k < length x)%nat) by (intros f k Hk; apply filter_In in Hk as [Hk _]; apply in_seq in Hk; lia).
  (* the difference of the two equations *)
  assert (Hdiff : forall v, Forall (sat_eq x v) es ->
      sumz (fun k => b2z (v (nth k x (0, 0)%nat))) p1 - sumz (fun k => b2z (v (nth k x (0, 0)%nat))) n1 = snd ei - snd ej).
  { intros v Hs. rewrite Forall_forall in Hs. assert (Si := Hs ei (nth_In es ([], 0) Hi)). assert (Sj := Hs ej (nth_In es ([], 0) Hj)).
    unfold sat_eq in Si, Sj. rewrite <- Si, <- Sj. rewrite !dot_coef by auto. rewrite H1, H2.
    assert (Hseq : forall f : pos -> Z, sumz f x = sumz (fun k => f (nth k x (0, 0)%nat)) (seq 0 (length x))).
    { intros f. rewrite <- (sel_seq (0, 0)%nat x) at 1. unfold sel. now rewrite sumz_map. }
    rewrite !Hseq.
    assert (Hfil : forall (f : nat -> bool) (h : nat -> Z) l, sumz h (filter f l) = sumz (fun k => if f k then h k else 0) l).
    { intros f h l. induction l as [|a l IHl]; cbn; auto. destruct (f a); cbn; rewrite IHl; lia. }
    rewrite !Hfil.
    match goal with |- sumz ?a ?l - sumz ?b ?l = sumz ?c ?l - sumz ?d ?l => assert (Q : sumz (fun k => a k + d k) l = sumz (fun k => b k + c k) l) end.
    { apply sumz_ext. intros k Hk. apply in_seq in Hk. rewrite !coef_nth by (auto; lia). unfold P, N.
      destruct (Bi' k ltac:(lia)) as [E1|E1], (Bj' k ltac:(lia)) as [E2|E2]; rewrite E1, E2; cbn; destruct (v (nth k x (0, 0)%nat)); cbn; lia. }
    rewrite !sumz_add in Q. lia. }
  assert (Hconcl : forall (a b : list nat) v, sumz (fun k => b2z (v (nth k x (0, 0)%nat))) a - sumz (fun k => b2z (v (nth k x (0, 0)%nat))) b = Z.of_nat (length a) ->
      (forall k, In k a -> v (nth k x (0, 0)%nat) = true) /\ (forall k, In k b -> v (nth k x (0, 0)%nat) = false)).
  { intros a b v Hd.
    assert (Ha : sumz (fun k => b2z (v (nth k x (0, 0)%nat))) a <= sumz (fun _ => 1) a) by (apply sumz_le; intros k _; destruct (v (nth k x (0, 0)%nat)); cbn; lia).
    assert (Hb : 0 <= sumz (fun k => b2z (v (nth k x (0, 0)%nat))) b) by (apply sumz_nonneg; intros k _; destruct (v (nth k x (0, 0)%nat)); cbn; lia).
    assert (H1l : sumz (fun _ : nat => 1) a = Z.of_nat (length a)) by (clear; induction a; cbn [sumz length]; lia).
    split; intros k Hk.
    - assert (Q := @sumz_tight _ (fun k => b2z (v (nth k x (0, 0)%nat))) (fun _ => 1) a). cbn beta in Q.
      specialize (Q ltac:(intros; destruct (v (nth _ x (0, 0)%nat)); cbn; lia) ltac:(lia) k Hk). destruct (v (nth k x (0, 0)%nat)); auto; cbn in Q; lia.
    - assert (Q := @sumz_tight _ (fun _ => 0) (fun k => b2z (v (nth k x (0, 0)%nat))) b). cbn beta in Q.
      specialize (Q ltac:(intros; destruct (v (nth _ x (0, 0)%nat)); cbn; lia)). rewrite (@sumz_zero _ (fun _ => 0)) in Q by auto. specialize (Q ltac:(lia) k Hk).
      destruct (v (nth k x (0, 0)%nat)); auto; cbn in Q; lia. }
  destruct adj; [|exists [], []; split; auto; split; [intros k [[]|[]]|]; intros v _; split; intros k []].
  destruct (Z.eqb_spec (Z.of_nat (length p1)) (snd ei - snd ej)) as [Ed|Ed].
  { exists p1, n1. split; auto. split; [intros k [Hk|Hk]; [rewrite H1 in Hk|rewrite H2 in Hk]; eauto|].
    intros v Hs. apply Hconcl. rewrite Hdiff by auto. auto. }
  destruct (Z.eqb_spec (Z.of_nat (length n1)) (- (snd ei - snd ej))) as [En|En].
  { exists n1, p1. split; auto. split; [intros k [Hk|Hk]; [rewrite H2 in Hk|rewrite H1 in Hk]; eauto|].
    intros v Hs. apply Hconcl. specialize (Hdiff v Hs). lia. }
  exists [], []. split; auto. split; [intros k [[]|[]]|]; intros v _; split; intros k [].
Qed.

Lemma In_lower_pairs n i j : In (i, j) (lower_pairs n) <-> (1 <= i < n)%nat /\ (j < i)%nat.
Proof.
  unfold lower_pairs. rewrite in_flat_map. split.
  - intros (a & Ha & Hb). apply in_map_iff in Hb as (b & E & Hb). injection E as <- <-. apply in_seq in Hb. unfold rng in Ha. apply in_seq in Ha. lia.
  - intros [A B]. exists i. split; [unfold rng; apply in_seq; lia|]. apply in_map_iff. exists j. split; auto. apply in_seq. lia.
Qed.

Lemma sort_dedup_mask n l : sort_dedup n l = marked (map (fun k => existsb (Nat.eqb k) l) (seq 0 n)).
Proof.
  unfold sort_dedup, marked. rewrite map_length, seq_length. apply filter_ext_in. intros k Hk. apply in_seq in Hk.
  rewrite (@nth_map_lt _ _ _ (seq 0 n) k false 0%nat) by (rewrite seq_length; lia). now rewrite seq_nth by lia.
Qed.
Lemma In_sort_dedup n l k : In k (sort_dedup n l) <-> (k < n)%nat /\ In k l.
Proof.
  unfold sort_dedup. rewrite filter_In, in_seq, existsb_exists. split.
  - intros [A (j & Hj & E)]. apply Nat.eqb_eq in E. subst. split; auto. lia.
  - intros [A B]. split; [lia|]. exists k. split; auto. apply Nat.eqb_refl.
Qed.
Lemma NoDup_sort_dedup n l : NoDup (sort_dedup n l).
Proof. apply NoDup_filter, seq_NoDup. Qed.

Lemma mark_safe x js : Forall (inb row column) x -> Forall (fun k => (k < length x)%nat) js -> forall notm bd, rect row column bd ->
  exists bd', foldM (fun '(notm, bd) i =>
                        let* p := vget x i in
                        let* bd := set bd (fst p) (snd p) 12 in
                        Ok (notm ++ [p], bd)) js (notm, bd) = Ok (notm ++ sel (0, 0)%nat x js, bd') /\
    marked_as row column 12 (sel (0, 0)%nat x js) bd bd'.
Proof.
  intros Hx Hj. induction Hj as [|k js Hk Hj IH]; intros notm bd Hbd; cbn [foldM].
  - exists bd. cbn. rewrite app_nil_r. split; auto. now apply marked_nil.
  - rewrite (@vget_ok _ x k (0, 0)%nat) by auto. cbn [bind].
    destruct (@set_marked row column 12 bd (nth k x (0, 0)%nat) Hbd) as (bd1 & E1 & M1); [rewrite Forall_forall in Hx; apply Hx, nth_In; auto|].
    rewrite E1. cbn [bind]. destruct (IH (notm ++ [nth k x (0, 0)%nat]) bd1 (proj1 M1)) as (bd2 & E2 & M2). exists bd2. rewrite E2, <- app_assoc.
    split; auto. exact (marked_trans M1 M2).
Qed.

Lemma mark_mines x js : Forall (inb row column) x -> Forall (fun k => (k < length x)%nat) js -> forall es ism bd, rect row column bd ->
  Forall (fun e => length (fst e) = length x) es ->
  exists bd', foldM (fun '(es, ism, bd) i =>
                        let* p := vget x i in
                        let* bd := set bd (fst p) (snd p) 11 in
                        let* es := mapM (fun '(a, b) => let* c := vget a i in Ok (a, b - c)) es in
                        Ok (es, ism ++ [p], bd)) js (es, ism, bd) =
      Ok (map (fun e : equation => (fst e, snd e - sumz (fun k => nth k (fst e) 0) js)) es, ism ++ sel (0, 0)%nat x js, bd') /\
    marked_as row column 11 (sel (0, 0)%nat x js) bd bd'.
Proof.
  intros Hx Hj. induction Hj as [|k js Hk Hj IH]; intros es ism bd Hbd Hl; cbn [foldM].
  - exists bd. cbn. rewrite app_nil_r. split; [|now apply marked_nil]. repeat f_equal. rewrite <- (map_id es) at 1. apply map_ext. intros [a b]. cbn. f_equal. lia.
  - rewrite (@vget_ok _ x k (0, 0)%nat) by auto. cbn [bind].
    destruct (@set_marked row column 11 bd (nth k x (0, 0)%nat) Hbd) as (bd1 & E1 & M1); [rewrite Forall_forall in Hx; apply Hx, nth_In; auto|].
    rewrite E1. cbn [bind]. rewrite (@mapM_ok _ _ _ (fun e : equation => (fst e, snd e - nth k (fst e) 0))).
    2:{ intros [a b] Hi. rewrite Forall_forall in Hl. specialize (Hl _ Hi). cbn in Hl. rewrite (@vget_ok _ a k 0) by lia. reflexivity. }
    cbn [bind]. destruct (IH (map (fun e : equation => (fst e, snd e - nth k (fst e) 0)) es) (ism ++ [nth k x (0, 0)%nat]) bd1 (proj1 M1)) as (bd2 & E2 & M2).
    { rewrite Forall_map. exact Hl. }
    exists bd2. rewrite E2, <- app_assoc. split; [|exact (marked_trans M1 M2)]. f_equal. f_equal. f_equal. rewrite map_map. apply map_ext. intros [a b]. cbn. f_equal. lia.
Qed.

Lemma remove_cols' js : forall (es : list equation) (x : list pos) es' x',
  Forall2 (fun e e' => foldM (fun l i => vremove l i) js (fst e) = Ok (fst e') /\ snd e' = snd e) es es' ->
  foldM (fun l i => vremove l i) js x = Ok x' ->
  foldM (fun '(es, x) i =>
                        let* x := vremove x i in
                        let* es := mapM (fun '(a, b) => let* a := vremove a i in Ok (a, b)) es in
                        Ok (es, x)) js (es, x) = Ok (es', x').
Proof.
  intros es x es' x' F Hx. rewrite <- (remove_cols F Hx). clear F.
  revert es x Hx. induction js as [|j js IH]; intros es x Hx; cbn [foldM] in *; auto.
  destruct (vremove x j) as [x1| | |]; try discriminate. cbn [bind] in *.
  destruct (mapM (fun '(a, b) => let* a0 := vremove a j in Ok (a0, b)) es); cbn [bind]; auto.
Qed.

Lemma perm_sel (x : list pos) a b : Permutation (seq 0 (length x)) (a ++ b) -> Permutation x (sel (0, 0)%nat x a ++ sel (0, 0)%nat x b).
Proof. intros P. rewrite <- (sel_seq (0, 0)%nat x) at 1. unfold sel. rewrite <- map_app. now apply Permutation_map. Qed.

Lemma minus_block_ok B notm ism bd : pre_block B -> rect row column bd -> sat v0 B ->
  exists B' n i bd', minus_block B notm ism bd = Ok (B', notm ++ n, ism ++ i, bd') /\
    pre_block B' /\ deduced [B] n i [B'] /\ marks n i bd bd'.
Proof.
  intros [Hnd Hin Hw Hc Hl] Hbd Hs. unfold minus_block.
  destruct (length (eqs B) <=? 1)%nat.
  { exists B, [], [], bd. rewrite !app_nil_r. split; auto. split; [constructor; auto|]. split; [apply deduced_refl|now apply marks_nil]. }
  set (x := vars B) in *. set (es := eqs B) in *.
  match goal with |- context [foldM ?F (lower_pairs ?m) ([], [])] =>
    destruct (@foldM_inv _ _ F (fun done st => (forall k, In k (fst st) \/ In k (snd st) -> (k < length x)%nat) /\
       forall v, Forall (sat_eq x v) es -> (forall k, In k (fst st) -> v (nth k x (0, 0)%nat) = true) /\ (forall k, In k (snd st) -> v (nth k x (0, 0)%nat) = false))
       (lower_pairs m) ([], [])) as ([is_rel not_rel] & E & R1 & R2) end.
  { cbn. split; [tauto|]. intros v _. split; intros k []. }
  { intros done [i j] rest [a b] El (A1 & A2). 
    assert (Hij : In (i, j) (lower_pairs (length es))) by (rewrite El; apply in_app_iff; right; now left). apply In_lower_pairs in Hij.
    destruct (@pair_rule_ok x es i j) as (p & n & Ep & Q1 & Q2); auto; try lia. rewrite Ep. cbn [bind fst snd] in *.
    eexists. split; [reflexivity|]. cbn [fst snd]. split.
    - intros k Hk. rewrite !in_app_iff in Hk. destruct Hk as [[Hk|Hk]|[Hk|Hk]]; auto.
    - intros v Hv. destruct (A2 v Hv), (Q2 v Hv). split; intros k Hk; apply in_app_iff in Hk as [|]; auto. }
  fold es. rewrite E. cbn [bind fst snd] in *. clear E.
  set (isr := sort_dedup (length x) is_rel). set (nor := sort_dedup (length x) not_rel).
  assert (Bi : Forall (fun k => (k < length x)%nat) isr) by (apply Forall_forall; intros k Hk; apply In_sort_dedup in Hk; tauto).
  assert (Bn : Forall (fun k => (k < length x)%nat) nor) by (apply Forall_forall; intros k Hk; apply In_sort_dedup in Hk; tauto).
  assert (Hlen : Forall (fun e => length (fst e) = length x) es) by (eapply Forall_impl; [|exact Hw]; intros e [H _]; exact H).
  destruct (@mark_safe x nor Hin Bn notm bd Hbd) as (bd1 & E1 & M1). fold x. rewrite E1. cbn [bind].
  destruct (@mark_mines x isr Hin Bi es ism bd1 (proj1 M1) Hlen) as (bd2 & E2 & M2). rewrite E2. cbn [bind].
  set (mask := map (fun k => existsb (Nat.eqb k) (nor ++ isr)) (seq 0 (length x))).
  assert (Hml : length mask = length x) by (unfold mask; now rewrite map_length, seq_length).
  rewrite sort_dedup_mask. fold mask.
  set (x' := sel (0, 0)%nat x (unmarked mask)).
  set (f := fun e : equation => (sel 0 (fst e) (unmarked mask), snd e - sumz (fun k => nth k (fst e) 0) isr)).
  rewrite (@remove_cols' _ _ _ (map f es) x').
  2:{ clear - Hlen Hml. induction es as [|e l IHl]; cbn [map]; constructor; inversion Hlen; subst; auto.
      split; auto. cbn [fst]. apply remove_marked0. congruence. }
  2:{ apply remove_marked0. auto. }
  cbn [bind].
  (* facts *)
  set (ip := sel (0, 0)%nat x isr). set (np := sel (0, 0)%nat x nor).
  assert (Hmarks : forall v, Forall (sat_eq x v) es -> (forall p, In p ip -> v p = true) /\ (forall p, In p np -> v p = false)).
  { intros v Hv. destruct (R2 v Hv) as [A1 A2]. split; intros p Hp; apply in_map_iff in Hp as (k & <- & Hk); apply In_sort_dedup in Hk as [_ Hk]; auto. }
  destruct (Hmarks v0 Hs) as [V1 V2].
  assert (Pm : Permutation (marked mask) (nor ++ isr)).
  { apply NoDup_Permutation.
    - apply NoDup_filter, seq_NoDup.
    - apply NoDup_app_disj; [apply NoDup_sort_dedup|apply NoDup_sort_dedup|].
      intros k Hk Hk'. assert (v0 (nth k x (0, 0)%nat) = false) by (apply V2; unfold np, sel; apply (in_map (fun j => nth j x (0, 0)%nat)), Hk).
      assert (v0 (nth k x (0, 0)%nat) = true) by (apply V1; unfold ip, sel; apply (in_map (fun j => nth j x (0, 0)%nat)), Hk'). congruence.
    - intros k. unfold mask. rewrite <- sort_dedup_mask, In_sort_dedup. split; [tauto|]. intros Hk. split; auto.
      apply in_app_iff in Hk as [Hk|Hk]; apply In_sort_dedup in Hk; tauto. }
  assert (Px : Permutation x (np ++ ip ++ x')).
  { unfold np, ip, x', sel. rewrite app_assoc, <- map_app.
    transitivity (sel (0, 0)%nat x (marked mask) ++ sel (0, 0)%nat x (unmarked mask)).
    - apply perm_sel. rewrite <- Hml. apply marked_perm.
    - apply Permutation_app_tail. unfold sel. now apply Permutation_map. }
  assert (Nx' : NoDup x') by (pose proof (Permutation_NoDup Px Hnd) as Q; apply NoDup_app_r, NoDup_app_r in Q; exact Q).
  assert (Hco : forall e q, In e es -> In q x' -> coef (fst (f e)) x' q = coef (fst e) x q).
  { intros e q He Hq. apply coef_sel; auto; [rewrite Forall_forall in Hlen; auto|].
    apply Forall_forall. intros k Hk. apply In_unmarked in Hk. lia. }
  assert (Hwf' : forall e, In e es -> wfe x' (f e)).
  { intros e He. split; [cbn; unfold x', sel; now rewrite !map_length|]. intros q. destruct (in_dec pos_eq_dec q x') as [Hq|Hq].
    - rewrite Hco by auto. rewrite Forall_forall in Hw. apply (Hw e He).
    - rewrite coef_out by auto. now left. }
  assert (Hst : forall v e, In e es -> (forall p, In p ip -> v p = true) -> (forall p, In p np -> v p = false) -> (sat_eq x v e <-> sat_eq x' v (f e))).
  { intros v e He A1 A2. assert (Le : length (fst e) = length x) by (rewrite Forall_forall in Hlen; auto). pose proof (proj1 (Hwf' e He)) as Lf.
    unfold sat_eq. rewrite !dot_coef by auto.
    rewrite (sumz_perm _ Px), !sumz_app.
    rewrite (@sumz_zero _ _ np) by (intros q Hq; rewrite (A2 q Hq); cbn; lia).
    assert (Ei : sumz (fun p => coef (fst e) x p * b2z (v p)) ip = sumz (fun k => nth k (fst e) 0) isr).
    { unfold ip, sel. rewrite sumz_map. apply sumz_ext. intros k Hk. rewrite A1 by (unfold ip, sel; apply (in_map (fun j => nth j x (0, 0)%nat)), Hk).
      rewrite Forall_forall in Bi. rewrite coef_nth by auto. cbn. lia. }
    rewrite Ei. rewrite (@sumz_ext _ (fun p => coef (fst (f e)) x' p * b2z (v p)) (fun p => coef (fst e) x p * b2z (v p)) x') by (intros q Hq; rewrite Hco; auto).
    unfold f. cbn [snd]. lia. }
  exists (Blk (map f es) x'), np, ip, bd2. split; [repeat f_equal; now rewrite map_map|]. split; [|split].
  - constructor; cbn [vars eqs]; auto.
    + rewrite Px, !Forall_app in Hin. tauto.
    + apply Forall_map, Forall_forall. auto.
    + intros q Hq. destruct (Hc q) as (e & He & Ec). { eapply Permutation_in; [symmetry; exact Px|]. rewrite !in_app_iff. auto. }
      exists (f e). split; [now apply in_map|]. rewrite Hco; auto.
    + apply Forall_map, Forall_forall. intros e He. unfold light. rewrite Forall_forall in Hl. specialize (Hl e He). unfold light in Hl.
      rewrite (sumz_perm _ Px), !sumz_app in Hl. rewrite (@sumz_ext _ _ (coef (fst e) x)) by auto.
      rewrite Forall_forall in Hw. destruct (Hw e He) as [_ Hb].
      assert (forall l, 0 <= sumz (coef (fst e) x) l) as Hp by (intros l; apply sumz_nonneg; intros q _; destruct (Hb q) as [->| ->]; lia).
      pose proof (Hp np). pose proof (Hp ip). lia.
  - constructor.
    + cbn [map concat vars]. fold x. rewrite !app_nil_r. exact Px.
    + intros v. unfold sats. rewrite !Forall_cons_iff. unfold sat. cbn [vars eqs]. fold x. fold es. split.
      * intros [A _]. destruct (Hmarks v A) as [B1 B2]. repeat split; auto. apply Forall_map, Forall_forall. intros e He. apply Hst; auto.
        rewrite Forall_forall in A. auto.
      * intros (A1 & A2 & A3 & _). split; auto. apply Forall_forall. intros e He. apply (Hst v e); auto. rewrite Forall_map, Forall_forall in A3. auto.
  - replace np with (np ++ []) by apply app_nil_r. apply (@marks_trans np [] [] ip bd bd1 bd2); [now apply marked_marks_not|now apply marked_marks_is].
Qed.

Lemma deduced_app a n1 i1 a' b n2 i2 b' : deduced a n1 i1 a' -> deduced b n2 i2 b' -> deduced (a ++ b) (n1 ++ n2) (i1 ++ i2) (a' ++ b').
Proof.
  intros [P1 S1] [P2 S2]. constructor.
  - rewrite !map_app, !concat_app, P1, P2. permut.
  - intros v. unfold sats in *. rewrite !Forall_app, S1, S2. split.
    + intros ((A1 & A2 & A3) & A4 & A5 & A6). repeat split; auto; intros p Hi; apply in_app_iff in Hi as [|]; auto.
    + intros (A1 & A2 & A3 & A4). repeat split; auto; intros p Hi; (apply A1 || apply A2); apply in_app_iff; auto.
Qed.
Lemma deduced_swap bl n i a b : deduced bl n i (a ++ b) -> deduced bl n i (b ++ a).
Proof.
  intros [P S]. constructor.
  - rewrite P, !map_app, !concat_app. permut.
  - intros v. rewrite S. unfold sats. rewrite !Forall_app. tauto.
Qed.

Lemma minus_blocks_ok l : forall keep notm ism bd, Forall pre_block l -> rect row column bd -> sats v0 l ->
  exists bl' n i bd',
   foldM (fun '(keep, notm, ism, bd) B =>
           let* st := minus_block B notm ism bd in
           let '(B', notm, ism, bd) := st in
           let drop := (2 <=? length (eqs B))%nat && match vars B' with [] => true | _ => false end in
           Ok (if drop then keep else B' :: keep, notm, ism, bd))
        l (keep, notm, ism, bd) = Ok (bl' ++ keep, notm ++ n, ism ++ i, bd') /\
   deduced l n i bl' /\ marks n i bd bd' /\ Forall pre_block bl'.
Proof.
  induction l as [|B l IH]; intros keep notm ism bd Hp Hbd Hs; cbn [foldM].
  - exists [], [], [], bd. cbn [app]. rewrite !app_nil_r. split; auto. split; [apply deduced_refl|]. split; [now apply marks_nil|]. auto.
  - inversion Hp as [|? ? HB Hp']; inversion Hs as [|? ? HsB Hs']; subst.
    destruct (@minus_block_ok B notm ism bd HB Hbd HsB) as (B' & n & i & bd1 & E & Hpre & D1 & Mk). rewrite E. cbn [bind]. 
    set (drop := (2 <=? length (eqs B))%nat && match vars B' with [] => true | _ => false end).
    set (k1 := if drop then keep else B' :: keep). set (b1 := if drop then [] else [B']).
    assert (Ek : k1 = b1 ++ keep) by (unfold k1, b1; destruct drop; reflexivity).
    assert (D2 : deduced [B] n i b1).
    { unfold b1. destruct drop eqn:Ed; auto. unfold drop in Ed. apply andb_true_iff in Ed as [_ Ed]. destruct B' as [es' [|q x']]; [|discriminate].
      destruct D1 as [P S]. constructor; auto. intros v. rewrite S. split; [intros (A1 & A2 & A3); repeat split; auto; constructor|].
      intros (A1 & A2 & _). repeat split; auto. constructor; auto.
      (* all remaining equations are 0 = 0 *)
      assert (Q : sats v0 [Blk es' []]). { apply (S v0). constructor; auto. }
      inversion Q as [|? ? Q0 _]; subst. unfold sat in *. cbn [vars eqs] in *. eapply Forall_impl; [|exact Q0]. intros [a b]. unfold sat_eq. destruct a; auto. }
    destruct (IH k1 (notm ++ n) (ism ++ i) bd1 Hp' (mk_rect Mk) Hs') as (bl' & n' & i' & bd' & E' & D' & M' & G').
    rewrite Ek in E'. exists (bl' ++ b1), (n ++ n'), (i ++ i'), bd'. split; [rewrite !app_assoc; rewrite !app_assoc in E'; etransitivity; [|exact E']; fold drop; fold k1; rewrite Ek; reflexivity|]. split; [|split; [eapply marks_trans; eauto|]].
    + apply deduced_swap. exact (deduced_app D2 D').
    + apply Forall_app. split; auto. unfold b1. destruct drop; auto.
Qed.

(** ** solve_minus *)
Lemma solve_minus_ok bl bd : Forall pre_block bl -> rect row column bd -> sats v0 bl ->
  exists bl' n i bd', solve_minus_st bl bd = Ok (true, (bl', n, i, bd')) /\
    deduced bl n i bl' /\ marks n i bd bd' /\ Forall good_block bl' /\ Forall pre_block bl'.
Proof.
  intros Hp Hbd Hs. unfold solve_minus_st.
  destruct (@minus_blocks_ok (rev bl) [] [] [] bd) as (b1 & n & i & bd1 & E & D & M & G); auto.
  { now apply Forall_rev. } { now apply Forall_rev. }
  assert (Em : minus_blocks bl bd = Ok (b1 ++ [], [] ++ n, [] ++ i, bd1)) by exact E.
  rewrite Em. cbn [bind]. rewrite app_nil_r. apply deduced_blocks_rev in D. cbn [app].
  assert (Hs1 : sats v0 b1) by (apply (dd_sat D), Hs).
  destruct (@solve_direct_ok b1 bd1 G (mk_rect M) Hs1) as (b2 & n2 & i2 & bd2 & E2 & D2 & M2 & G2 & Pr2). rewrite E2. cbn [bind].
  destruct (chunk_matrixes_ok G2) as (b3 & E3 & P3 & S3 & G3). rewrite E3. cbn [bind].
  pose proof (deduced_trans D D2) as D12.
  assert (D3 : deduced bl (n ++ n2) (i ++ i2) b3).
  { constructor; [rewrite (dd_perm D12), P3; reflexivity|]. intros v. rewrite (dd_sat D12), S3. tauto. }
  exists b3, (n ++ n2), (i ++ i2), bd2. split; auto. split; auto. split; [eapply marks_trans; eauto|]. split; auto.
  apply Forall_forall. intros B HB. rewrite Forall_forall in G3. apply good_pre; auto.
  assert (Hin : Forall (fun B => Forall (inb row column) (vars B)) bl) by (eapply Forall_impl; [|exact Hp]; intros B0 HB0; apply HB0).
  pose proof (deduced_in D3 Hin) as Q. rewrite Forall_forall in Q. auto.
Qed.
End S.
