(** * EnumBlock: combine + enumeration of one block. *)
From Verif Require Import Base Spec BaseFacts Matrix Solve SolverSpec MatrixProofs LinFacts ChunkProofs SolveProofs CombineProofs TableProofs EnumProofs.
Open Scope nat_scope.

(** ** trimming *)
Lemma trim_front_skip t : exists d, trim_front t = skipn d t /\ d <= length t /\ (forall l, In l (firstn d t) -> snd (fst l) = 0) /\
  (forall l t', trim_front t = l :: t' -> snd (fst l) <> 0).
Proof.
  induction t as [|[[k c] cells] t (d & E & Hd & H1 & H2)].
  - exists 0. cbn. repeat split; auto; [intros l []|discriminate].
  - cbn [trim_front]. destruct c as [|c].
    + exists (S d). cbn [skipn firstn length]. split; auto. split; [lia|]. split; auto. intros l [<-|Hl]; auto.
    + exists 0. cbn. repeat split; auto; [lia|intros l []|]. intros l t' El. injection El as <- <-. cbn. lia.
Qed.
Lemma trim_range (F : nat -> trow) N : (forall k, fst (fst (F k)) = k) ->
  exists lo cnt0, trim (map F (seq 0 N)) = map F (seq lo cnt0) /\ lo + cnt0 <= N /\
    (forall k, k < N -> k < lo \/ lo + cnt0 <= k -> snd (fst (F k)) = 0) /\
    (trim_front (map F (seq 0 N)) = [] <-> forall k, k < N -> snd (fst (F k)) = 0) /\
    (0 < cnt0 -> snd (fst (F lo)) <> 0 /\ snd (fst (F (lo + cnt0 - 1))) <> 0).
Proof.
  intros HF. destruct (trim_front_skip (map F (seq 0 N))) as (d & E & Hd & H1 & H2). rewrite map_length, seq_length in Hd.
  assert (Es : skipn d (map F (seq 0 N)) = map F (seq d (N - d))).
  { rewrite skipn_map. f_equal. replace N with (d + (N - d)) at 1 by lia. rewrite seq_app, skipn_app, seq_length, Nat.sub_diag. rewrite skipn_all2 by (rewrite seq_length; lia). reflexivity. }
  rewrite Es in E.
  destruct (trim_front_skip (rev (map F (seq d (N - d))))) as (d' & E' & Hd' & H1' & H3'). rewrite rev_length, map_length, seq_length in Hd'.
  assert (Er : rev (skipn d' (rev (map F (seq d (N - d))))) = map F (seq d (N - d - d'))).
  { rewrite skipn_rev, rev_involutive, map_length, seq_length. replace (N - d) with ((N - d - d') + d') at 2 by lia.
    rewrite seq_app, map_app, firstn_app, map_length, seq_length, Nat.sub_diag. cbn [firstn]. rewrite app_nil_r. apply firstn_all2. rewrite map_length, seq_length. lia. }
  exists d, (N - d - d'). split; [unfold trim; rewrite E, E'; exact Er|]. split; [lia|].
  assert (Hlow : forall k, k < d -> snd (fst (F k)) = 0).
  { intros k Hk. apply H1. rewrite firstn_map. apply in_map. replace N with (d + (N - d)) by lia. rewrite seq_app, firstn_app, seq_length, Nat.sub_diag. cbn [firstn].
    rewrite app_nil_r, firstn_all2 by (rewrite seq_length; lia). apply in_seq. lia. }
  split.
  - intros k Hk [Hl|Hl]; auto. apply H1'. rewrite firstn_rev, map_length, seq_length, <- in_rev, skipn_map. apply in_map.
    replace (N - d) with ((N - d - d') + d') at 2 by lia. rewrite seq_app, skipn_app, seq_length, Nat.sub_diag. rewrite skipn_all2 by (rewrite seq_length; lia). apply in_seq. lia.
  - split; [|intros Hc; split].
    2:{ rewrite E in H2. destruct (N - d) as [|e] eqn:En; [lia|]. cbn [seq map] in H2. eapply H2. reflexivity. }
    2:{ set (c := N - d - d') in *. assert (Ec : c = S (c - 1)) by lia.
        assert (El : skipn d' (rev (map F (seq d (N - d)))) = F (d + (c - 1)) :: rev (map F (seq d (c - 1)))).
        { rewrite <- (rev_involutive (skipn d' _)), Er, Ec, seq_S, map_app, rev_app_distr. cbn [map rev app]. now replace (S (c - 1) - 1) with (c - 1) by lia. }
        rewrite E' in H3'. replace (d + c - 1) with (d + (c - 1)) by lia. exact (H3' _ _ El). }
    rewrite E in H2 |- *. split.
    + intros H k Hk. apply Hlow. destruct (N - d) eqn:En; [lia|]. cbn in H. discriminate.
    + intros H. destruct (map F (seq d (N - d))) as [|l t'] eqn:Em; auto. exfalso. apply (H2 l t' eq_refl).
      assert (Hi : In l (map F (seq d (N - d)))) by (rewrite Em; now left). apply in_map_iff in Hi as (k & <- & Hk). apply in_seq in Hk. apply H. lia.
Qed.

Lemma dot_ext a x v v' : (forall p, v p = v' p) -> dot a x v = dot a x v'.
Proof. intros H. revert x; induction a as [|c a IH]; intros [|p x]; cbn; auto. now rewrite H, IH. Qed.
Lemma satb_ext v v' B : (forall p, v p = v' p) -> satb v B = satb v' B.
Proof. intros H. unfold satb. apply forallb_ext_in. intros e _. now rewrite (dot_ext _ _ H). Qed.
Lemma satb_sat v B : satb v B = true <-> sat v B.
Proof. unfold satb, sat, sat_eq. rewrite forallb_forall, Forall_forall. split; intros H e He; specialize (H e He); lia. Qed.
Lemma count_sumn {A} (f : A -> bool) l : count f l = sumn (fun a => if f a then 1 else 0) l.
Proof. induction l; cbn [sumn]; auto. rewrite count_cons, IHl. reflexivity. Qed.
Lemma count_filter {A} (f g : A -> bool) l : count f (filter g l) = count (fun a => g a && f a) l.
Proof. induction l as [|a l IH]; auto. cbn [filter]. rewrite count_cons. destruct (g a); [rewrite count_cons|]; cbn [andb]; rewrite IH; auto. Qed.

Section Block.
Variable B : block.
Let x := vars B.
Let es := eqs B.
Hypothesis Hgood : good x es.
Hypothesis Hne : es <> [].
Hypothesis Hpos : Forall (fun e => (0 <= snd e)%Z) es.
Let n := length x.
Let A0 := map fst es.
Let rp := reps A0 n.
Let groups := map (group A0 n) rp.
Let A := squeezed A0 n.
Let b := map snd es.
Let G := map (sel (0, 0) x) groups.

Lemma HA0 : Forall (fun r => length r = n) A0.
Proof. unfold A0. rewrite Forall_map. eapply Forall_impl; [|exact (gd_wf Hgood)]. intros e [H _]. exact H. Qed.
Lemma combine_B : combine_cells A0 x = Ok (A, sel (0, 0) x rp, groups).
Proof. apply combine_cells_ok; [apply HA0|reflexivity]. Qed.
Lemma HA : Forall (fun r => length r = length groups) A.
Proof. unfold A, squeezed. rewrite Forall_map. apply Forall_forall. intros r _. unfold groups. now rewrite !map_length. Qed.
Lemma length_A : length A = length es. Proof. unfold A, squeezed, A0. now rewrite !map_length. Qed.

Lemma group_lt k j : In k rp -> In j (group A0 n k) -> j < n.
Proof. intros Hk Hj. apply In_reps in Hk. apply In_group in Hj. lia. Qed.
Lemma concat_G : Permutation (concat G) x.
Proof.
  unfold G, groups. replace (concat (map (sel (0, 0) x) (map (group A0 n) rp))) with (sel (0, 0) x (concat (map (group A0 n) rp))).
  2:{ unfold sel. apply concat_map. }
  transitivity (sel (0, 0) x (seq 0 n)); [|unfold n; rewrite (sel_seq (0, 0) x); reflexivity].
  unfold sel. apply Permutation_map, groups_partition.
Qed.
Lemma NoDup_G : NoDup (concat G). Proof. eapply Permutation_NoDup; [symmetry; apply concat_G|apply Hgood]. Qed.

Lemma coef_group i k j : i < length es -> In k rp -> In j (group A0 n k) ->
  coef (fst (nth i es ([], 0%Z))) x (nth j x (0, 0)) = nth k (fst (nth i es ([], 0%Z))) 0%Z.
Proof.
  intros Hi Hk Hj. pose proof (gd_wf Hgood) as Hw. rewrite Forall_forall in Hw. destruct (Hw _ (nth_In es ([], 0%Z) Hi)) as [Hl _].
  rewrite coef_nth; auto; [|apply Hgood|apply (group_lt Hk Hj)].
  apply In_group in Hj as [->|[_ Hs]]; auto. rewrite same_col_spec in Hs. symmetry. apply Hs. unfold A0. apply in_map, nth_In, Hi.
Qed.

Lemma group_len k : In k rp -> 1 <= length (group A0 n k) <= 8.
Proof.
  intros Hk. split; [cbn; lia|]. pose proof Hk as Hk'. apply In_reps in Hk' as [Kn _].
  destruct (gd_cov Hgood (nth_In x (0, 0) Kn)) as (e & He & Ec). apply (In_nth _ _ ([], 0%Z)) in He as (i & Hi & <-).
  pose proof (gd_light Hgood) as Hl. rewrite Forall_forall in Hl. specialize (Hl _ (nth_In es ([], 0%Z) Hi)). unfold light in Hl.
  assert (Nd : NoDup (sel (0, 0) x (group A0 n k))).
  { assert (Ng : NoDup (concat G)) by apply NoDup_G. unfold G, groups in Ng. rewrite map_map in Ng.
    destruct (in_split k rp Hk) as (l1 & l2 & E). rewrite E, map_app, concat_app in Ng. cbn [map concat] in Ng. apply NoDup_app_r, NoDup_app_l in Ng. exact Ng. }
  destruct (@incl_perm _ _ Nd x) as (y & P).
  { intros q Hq. apply in_map_iff in Hq as (j & <- & Hj). apply nth_In, (group_lt Hk Hj). }
  rewrite (sumz_perm _ P), sumz_app in Hl.
  pose proof (gd_wf Hgood) as Hw. rewrite Forall_forall in Hw. destruct (Hw _ (nth_In es ([], 0%Z) Hi)) as [_ Hb].
  assert (0 <= sumz (coef (fst (nth i es ([], 0%Z))) x) y)%Z by (apply sumz_nonneg; intros q _; destruct (Hb q) as [->| ->]; lia).
  rewrite (@sumz_ext _ _ (fun _ => 1%Z)) in Hl.
  2:{ intros q Hq. apply in_map_iff in Hq as (j & <- & Hj). rewrite (coef_group Hi Hk Hj).
      rewrite <- (@coef_group i k k Hi Hk ltac:(apply In_group; auto)). exact Ec. }
  assert (E1 : forall l : list pos, sumz (fun _ => 1%Z) l = Z.of_nat (length l)) by (induction l as [|a l IH]; cbn [sumz length]; lia).
  rewrite E1 in Hl. unfold sel in Hl. rewrite map_length in Hl. lia.
Qed.
Lemma Hgroups : Forall (fun g => 1 <= length g <= 8) groups.
Proof. unfold groups. rewrite Forall_map. apply Forall_forall. intros k Hk. now apply group_len. Qed.

Lemma length_groups : length groups = length rp. Proof. unfold groups. apply map_length. Qed.
Lemma nth_groups j : j < length rp -> nth j groups [] = group A0 n (nth j rp 0).
Proof. intros H. unfold groups. now apply nth_map_lt. Qed.
Lemma nth_G j : j < length rp -> nth j G [] = sel (0, 0) x (group A0 n (nth j rp 0)).
Proof. intros H. unfold G. rewrite (@nth_map_lt _ _ _ groups j [] []) by (rewrite length_groups; auto). now rewrite nth_groups. Qed.

Lemma nth_A i j : i < length es -> j < length rp ->
  nth j (nth i A []) 0%Z = (nth (nth j rp 0%nat) (fst (nth i es ([], 0%Z))) 0 * Z.of_nat (length (group A0 n (nth j rp 0%nat))))%Z.
Proof.
  intros Hi Hj. unfold A, squeezed. rewrite (@nth_map_lt _ _ _ A0 i [] []) by (unfold A0; rewrite map_length; auto).
  rewrite (@nth_map_lt _ _ _ (reps A0 n) j 0%Z 0) by auto. fold rp. unfold A0 at 1. now rewrite (@nth_map_lt _ _ fst es i [] ([], 0%Z)) by auto.
Qed.
Lemma on_coef i j : i < length es -> j < length rp -> forall q, In q (nth j G []) ->
  coef (fst (nth i es ([], 0%Z))) x q = b2z (on A i j).
Proof.
  intros Hi Hj q Hq. rewrite nth_G in Hq by auto. apply in_map_iff in Hq as (k & <- & Hk).
  assert (Hr : In (nth j rp 0) rp) by (apply nth_In; auto). unfold on. rewrite nth_A by auto.
  pose proof (gd_wf Hgood) as Hw. rewrite Forall_forall in Hw. destruct (Hw _ (nth_In es ([], 0%Z) Hi)) as [_ Hb].
  rewrite (coef_group Hi Hr Hk). specialize (Hb (nth (nth j rp 0) x (0, 0))).
  rewrite <- (@coef_group i (nth j rp 0) (nth j rp 0) Hi Hr ltac:(apply In_group; auto)) in *. pose proof (group_len Hr).
  destruct Hb as [->| ->]; cbn [b2z].
  - destruct (Z.leb_spec 1 (0 * Z.of_nat (length (group A0 n (nth j rp 0))))); cbn; lia.
  - destruct (Z.leb_spec 1 (1 * Z.of_nat (length (group A0 n (nth j rp 0))))); cbn; lia.
Qed.

(** equations in terms of group counts *)
Lemma used_sum i s : forall gl idx, (forall j q, j < length gl -> In q (nth j gl []) -> coef (fst (nth i es ([], 0%Z))) x q = b2z (on A i (idx + j))) ->
  used A i idx (cnt gl s) = sumz (fun q => coef (fst (nth i es ([], 0%Z))) x q * b2z (mem_pos q s))%Z (concat gl).
Proof.
  induction gl as [|g gl IH]; intros idx H; [reflexivity|]. cbn [cnt map used concat]. rewrite sumz_app. f_equal.
  - assert (H0 : forall q, In q g -> coef (fst (nth i es ([], 0%Z))) x q = b2z (on A i idx)).
    { intros q Hq. rewrite (H 0 q); [now rewrite Nat.add_0_r|cbn; lia|auto]. }
    rewrite (@sumz_ext _ _ (fun q => b2z (on A i idx) * b2z (mem_pos q s))%Z) by (intros q Hq; now rewrite H0).
    rewrite sumz_scale, sumz_count. destruct (on A i idx); cbn [b2z]; lia.
  - apply IH. intros j q Hj Hq. rewrite (H (S j) q); [now rewrite Nat.add_succ_r|cbn; lia|auto].
Qed.
Lemma length_G : length G = length rp. Proof. unfold G. now rewrite map_length, length_groups. Qed.

Lemma fits_sat s : fits A 0 b (cnt G s) = satb (mines_at s) B.
Proof.
  unfold fits, satb. fold x es. rewrite length_A. apply eq_true_iff_eq. rewrite !forallb_forall.
  assert (K : forall i, i < length es -> dot (fst (nth i es ([], 0%Z))) x (mines_at s) = used A i 0 (cnt G s)).
  { intros i Hi. pose proof (gd_wf Hgood) as Hw. rewrite Forall_forall in Hw. destruct (Hw _ (nth_In es ([], 0%Z) Hi)) as [Hl _].
    rewrite dot_coef by (auto; apply Hgood). rewrite used_sum. { apply sumz_perm. symmetry. apply concat_G. }
    intros j q Hj Hq. rewrite length_G in Hj. now apply on_coef. }
  assert (Hb : forall i, i < length es -> nth i b 0%Z = snd (nth i es ([], 0%Z))).
  { intros i Hi. unfold b. now rewrite (@nth_map_lt _ _ snd es i 0%Z ([], 0%Z)). }
  split.
  - intros H e He. apply (In_nth _ _ ([], 0%Z)) in He as (i & Hi & <-). specialize (H i ltac:(apply in_seq; lia)). rewrite K by auto. rewrite <- Hb; auto.
  - intros H i Hi. apply in_seq in Hi. specialize (H (nth i es ([], 0%Z)) ltac:(apply nth_In; lia)). rewrite K in H by lia. rewrite Hb by lia. auto.
Qed.
Lemma length_cnt gl s : sumn (fun u => u) (cnt gl s) = count (fun q => mem_pos q s) (concat gl).
Proof. induction gl as [|g gl IH]; auto. cbn [cnt map sumn concat]. rewrite count_app. unfold cnt in IH. now rewrite IH. Qed.
Lemma size_cnt s : In s (subs (concat G)) -> sumn (fun u => u) (cnt G s) = length s.
Proof. intros Hs. rewrite length_cnt. pose proof (@count_in_sub (concat G) s [] NoDup_G Hs ltac:(intros q [])) as E. now rewrite app_nil_r in E. Qed.

Lemma to_G (f : list pos -> bool) : (forall s s', Permutation s s' -> f s = f s') ->
  count f (solutions B) = sumn (fun s => if fits A 0 b (cnt G s) && f s then 1 else 0) (subs (concat G)).
Proof.
  intros Hf. unfold solutions. rewrite count_filter, count_sumn. fold x.
  rewrite (@subs_perm _ x (concat G)).
  - apply sumn_ext. intros s _. rewrite fits_sat. reflexivity.
  - symmetry. apply concat_G.
  - intros s s' P. rewrite (Hf s s' P). rewrite (@satb_ext (mines_at s) (mines_at s')); auto. intros p. now apply mem_permut.
Qed.
Lemma length_b : length b = length A. Proof. rewrite length_A. unfold b. apply map_length. Qed.
Lemma lens_G j : j < length G -> length (nth j G []) = len groups (0 + j).
Proof. intros Hj. rewrite length_G in Hj. rewrite nth_G by auto. unfold len. cbn [Nat.add]. rewrite nth_groups by auto. unfold sel. apply map_length. Qed.

Lemma n_sol_comps k : n_sol B k = sumn (cadd groups 1 0 k []) (comps A groups (length groups) 0 b).
Proof.
  unfold n_sol. rewrite to_G. 2:{ intros s s' P. now rewrite (Permutation_length P). }
  rewrite (@sumn_ext _ _ (fun s => if fits A 0 b (cnt G s) then (if sumn (fun u => u) (cnt G s) =? k then 1 else 0) else 0)).
  2:{ intros s Hs. rewrite size_cnt by auto. destruct (fits A 0 b (cnt G s)); reflexivity. }
  rewrite (@grouped_count A groups G 0 b (fun us => if sumn (fun u => u) us =? k then 1 else 0)).
  - replace (length G) with (length groups) by (unfold G; now rewrite map_length). apply sumn_ext. intros us _. unfold cadd. cbn [app]. destruct (_ =? k); lia.
  - apply NoDup_G.
  - apply length_b.
  - apply lens_G.
Qed.
Lemma comps_facts us : In us (comps A groups (length groups) 0 b) -> length us = length groups /\ (forall j, j < length groups -> nth j us 0 <= len groups j).
Proof.
  intros Hus. destruct (@comps_bounds A groups (length groups) 0 b us) as (H1 & H2 & _); auto. apply length_b.
Qed.
Lemma n_sol_at_comps k j p : j < length groups -> In p (nth j G []) ->
  n_sol_at B k p = sumn (fadd groups 1 0 k j []) (comps A groups (length groups) 0 b).
Proof.
  intros Hj Hp. pose proof Hgroups as Hg. rewrite Forall_forall in Hg.
  assert (Hlj : 1 <= len groups j <= 8) by (apply Hg, nth_In; auto).
  apply (Nat.mul_cancel_l _ _ (len groups j)); [lia|].
  unfold n_sol_at. rewrite to_G. 2:{ intros s s' P. now rewrite (Permutation_length P), (mem_permut p P). }
  rewrite (@sumn_ext _ _ (fun s => if fits A 0 b (cnt G s) && mem_pos p s then (if sumn (fun u => u) (cnt G s) =? k then 1 else 0) else 0)).
  2:{ intros s Hs. rewrite size_cnt by auto. destruct (fits A 0 b (cnt G s)), (length s =? k), (mem_pos p s); reflexivity. }
  pose proof (@grouped_count_at A groups G 0 b (fun us => if sumn (fun u => u) us =? k then 1 else 0) j p) as Q. cbn [Nat.add] in Q. rewrite Q; clear Q.
  - replace (length G) with (length groups) by (unfold G; now rewrite map_length). rewrite <- sumn_scale. apply sumn_ext. intros us Hus. unfold fadd. cbn [app]. destruct (_ =? k); [|lia].
    rewrite !Nat.mul_1_l, !Nat.mul_1_r. destruct (comps_facts Hus) as [L1 L2].
    destruct (@W_divides A groups 0 us j) as (q & E); [lia| |cbn; lia|].
    + intros i Hi. cbn [Nat.add]. apply L2. lia.
    + cbn [Nat.add] in E. rewrite E, (Nat.mul_comm (len groups j) q), Nat.div_mul by lia. lia.
  - apply NoDup_G.
  - apply length_b.
  - apply lens_G.
  - rewrite length_G, <- length_groups. auto.
  - auto.
Qed.

(** every cell of a group has the same counts; so the first one represents it *)
Definition head_cell (g : list nat) : pos := nth (hd 0 g) x (0, 0).
Definition line (k : nat) : trow := (k, n_sol B k, map (fun g => n_sol_at B k (head_cell g)) groups).

Lemma group_cells g q : In g groups -> In q g -> forall k, n_sol_at B k (nth q x (0, 0)) = n_sol_at B k (head_cell g).
Proof.
  intros Hg Hq k. apply (In_nth _ _ []) in Hg as (j & Hj & <-). 
  assert (HG : nth j G [] = sel (0, 0) x (nth j groups [])) by (unfold G; now apply nth_map_lt).
  rewrite !(@n_sol_at_comps k j); auto; rewrite HG; unfold sel, head_cell.
  - apply (in_map (fun i => nth i x (0, 0))). destruct (nth j groups []); [destruct Hq|now left].
  - now apply (in_map (fun i => nth i x (0, 0))).
Qed.

Lemma table_B : table_step (length groups) A groups (c2e A groups) (e2c A groups) 0 1 b (repeat 0 (length groups)) (tab groups (fun _ => 0) (fun _ _ => 0)) =
  Ok (map line (seq 0 (S (total groups)))).
Proof.
  destruct (@table_step_ok A groups HA Hgroups (length groups) 0 1 b [] (fun _ => 0) (fun _ _ => 0)) as (c & f & E & H1 & H2); auto.
  - apply length_b.
  - intros j Hj. lia.
  - intros i Hi. rewrite length_A in Hi.
    assert (Hbi : nth i b 0%Z = snd (nth i es ([], 0%Z))) by (unfold b; now rewrite (@nth_map_lt _ _ snd es i 0%Z ([], 0%Z))).
    rewrite Hbi. rewrite Forall_forall in Hpos. split; [apply Hpos, nth_In; auto|]. intros Hr. exfalso.
    pose proof (gd_nz Hgood) as Hz. rewrite Forall_forall in Hz. destruct (Hz _ (nth_In es ([], 0%Z) Hi)) as (q & Hq & Eq).
    eapply Permutation_in in Hq; [|symmetry; apply concat_G]. apply in_concat in Hq as (g & Hg & Hqg). apply (In_nth _ _ []) in Hg as (j & Hj & <-).
    rewrite length_G in Hj. rewrite (on_coef Hi Hj Hqg) in Eq.
    unfold rest in Hr. rewrite Nat.sub_0_r in Hr.
    assert (Hterm : forall k, In k (seq 0 (length groups)) -> (0 <= (if on A i k then Z.of_nat (len groups k) else 0))%Z) by (intros k _; destruct (on A i k); lia).
    assert (E0 : sumz (fun _ => 0%Z) (seq 0 (length groups)) = sumz (fun k => if on A i k then Z.of_nat (len groups k) else 0%Z) (seq 0 (length groups))) by (rewrite Hr; now apply sumz_zero).
    pose proof (@sumz_tight _ _ _ _ Hterm E0 j ltac:(apply in_seq; rewrite length_groups; lia)) as T. cbn beta in T.
    destruct (on A i j); cbn in Eq; [|lia]. pose proof Hgroups as Hgr. rewrite Forall_forall in Hgr.
    assert (1 <= len groups j <= 8) by (apply Hgr, nth_In; rewrite length_groups; auto). lia.
  - cbn [app] in E. rewrite E. f_equal. unfold tab. apply map_ext. intros k. unfold line. rewrite H1, <- n_sol_comps. f_equal.
    assert (Eg : groups = sel [] groups (seq 0 (length groups))) by (symmetry; apply sel_seq).
    transitivity (map (fun g => n_sol_at B k (head_cell g)) (sel [] groups (seq 0 (length groups)))); [|now rewrite <- Eg].
    unfold sel. rewrite map_map. apply map_ext_in. intros j Hj. apply in_seq in Hj. rewrite H2 by lia. rewrite Nat.add_0_l. symmetry. apply n_sol_at_comps; [lia|].
    unfold G. rewrite (@nth_map_lt _ _ _ groups j [] []) by lia. unfold head_cell, sel. apply (in_map (fun i => nth i x (0, 0))).
    pose proof Hgroups as Hg. rewrite Forall_forall in Hg. specialize (Hg (nth j groups []) ltac:(apply nth_In; lia)). destruct (nth j groups []); cbn in *; [lia|now left].
Qed.

Lemma n_sol_big k : total groups < k -> n_sol B k = 0.
Proof.
  intros Hk. unfold n_sol, count. apply length_zero_iff_nil. destruct (filter (fun s => length s =? k) (solutions B)) as [|s l] eqn:E; auto. exfalso.
  assert (Hs : In s (filter (fun s => length s =? k) (solutions B))) by (rewrite E; now left). apply filter_In in Hs as [Hs Hl]. apply Nat.eqb_eq in Hl.
  unfold solutions in Hs. apply filter_In in Hs as [Hs _].
  pose proof (subs_incl Hs) as Hi. pose proof (subs_NoDup (gd_nodup Hgood) Hs) as Hn. pose proof (NoDup_incl_length Hn Hi) as L.
  assert (Ht : total groups = length x).
  { unfold total. rewrite <- (Permutation_length concat_G). unfold G. clear. induction groups as [|g l IH]; auto. cbn [map concat sumn]. rewrite app_length, <- IH. unfold sel. now rewrite map_length. }
  fold x in L. lia.
Qed.

Lemma no_solution : solutions B = [] <-> forall k, n_sol B k = 0.
Proof.
  split.
  - intros E k. unfold n_sol. rewrite E. reflexivity.
  - intros H. destruct (solutions B) as [|s l] eqn:E; auto. specialize (H (length s)). unfold n_sol in H. rewrite E, count_cons, Nat.eqb_refl in H. discriminate.
Qed.

(** the table of one block *)
Theorem block_table_tight : length groups <= ENUM_LIMIT ->
  (solutions B = [] /\ cal_table_minenum_recursion A (sel (0, 0) x rp) b groups = Err 1) \/
  (solutions B <> [] /\ exists lo cnt0, cal_table_minenum_recursion A (sel (0, 0) x rp) b groups = Ok (map line (seq lo cnt0)) /\ 0 < cnt0 /\
     (forall k, k < lo \/ lo + cnt0 <= k -> n_sol B k = 0) /\ n_sol B lo <> 0 /\ n_sol B (lo + cnt0 - 1) <> 0).
Proof.
  intros Hlim. unfold cal_table_minenum_recursion.
  replace (length (sel (0, 0) x rp)) with (length groups) by (unfold sel; rewrite map_length; apply length_groups).
  destruct (Nat.ltb_spec ENUM_LIMIT (length groups)); [lia|].
  assert (HAne : A <> []) by (intros E; pose proof length_A as L; rewrite E in L; destruct es; [contradiction|discriminate]).
  rewrite (cell_equation_map_ok HA HAne). cbn [bind].
  assert (Ecol : match A with [] => Panic | r :: _ => Ok (length r) end = Ok (length groups)).
  { pose proof HA as H1. destruct A as [|r A1]; [contradiction|]. inversion H1; subst. congruence. }
  rewrite Ecol. cbn [bind].
  assert (Et : map (fun k => (k, 0, repeat 0 (length groups))) (seq 0 (S (nsum (map (@length nat) groups)))) = tab groups (fun _ => 0) (fun _ _ => 0)).
  { unfold tab. rewrite nsum_sumn, sumn_map. fold (total groups). apply map_ext. intros k. f_equal. clear.
    induction (length groups) as [|q IH]; auto. rewrite <- cons_seq, <- seq_shift. cbn [repeat map]. now rewrite map_map, IH. }
  rewrite Et, table_B. cbn [bind].
  destruct (@trim_range line (S (total groups)) ltac:(reflexivity)) as (lo & c0 & E1 & E2 & E3 & E4 & E5).
  assert (Hout : forall k, k < lo \/ lo + c0 <= k -> n_sol B k = 0).
  { intros k Hk. destruct (Nat.le_gt_cases (S (total groups)) k); [apply n_sol_big; lia|]. apply (E3 k); auto. }
  destruct (trim_front (map line (seq 0 (S (total groups))))) as [|l t] eqn:Etf.
  - left. split; auto. apply no_solution. intros k. destruct (Nat.le_gt_cases (S (total groups)) k); [apply n_sol_big; lia|]. apply (proj1 E4 eq_refl k); auto.
  - right. assert (Hs : solutions B <> []).
    { rewrite no_solution. intros Hz. destruct E4 as [_ E4]. discriminate E4. intros k _. apply Hz. }
    split; auto. exists lo, c0. split; [now rewrite E1|].
    assert (Hc : 0 < c0) by (destruct c0; [|lia]; exfalso; apply Hs, no_solution; intros k; apply Hout; lia).
    split; auto.
Qed.
Theorem block_table : length groups <= ENUM_LIMIT ->
  (solutions B = [] /\ cal_table_minenum_recursion A (sel (0, 0) x rp) b groups = Err 1) \/
  (solutions B <> [] /\ exists lo cnt0, cal_table_minenum_recursion A (sel (0, 0) x rp) b groups = Ok (map line (seq lo cnt0)) /\ 0 < cnt0 /\
     forall k, k < lo \/ lo + cnt0 <= k -> n_sol B k = 0).
Proof.
  intros Hlim. destruct (block_table_tight Hlim) as [H|(Hs & lo & c0 & E & Hc & Ho & _)]; [left; exact H|right; split; auto; exists lo, c0; auto].
Qed.
End Block.
